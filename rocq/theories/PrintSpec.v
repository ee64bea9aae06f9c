(** * PrintSpec: vocabulary of the statements about printing inside contexts *)
From Coq Require Import List NArith Bool Arith.
From Verif Require Import PyStr Prog Base Spec Ctx Print.
Import ListNotations.
Local Open Scope nat_scope.

(** The buffers entered in [b]; no buffer is entered inside itself. *)
Fixpoint entered (b : code) : list nat :=
  match b with
  | KSeq b1 b2 => entered b1 ++ entered b2
  | KTry b => entered b
  | KWith (Buf o) b => o :: entered b
  | KWith _ b => entered b
  | _ => []
  end.
Fixpoint well_nested (b : code) : Prop :=
  match b with
  | KSeq b1 b2 => well_nested b1 /\ well_nested b2
  | KTry b => well_nested b
  | KWith (Buf o) b => ~ In o (entered b) /\ well_nested b
  | KWith _ b => well_nested b
  | _ => True
  end.
(** The texts printed and the exceptions raised by the code itself. *)
Fixpoint code_texts (b : code) : list text :=
  match b with
  | KPut _ data => [data]
  | KSeq b1 b2 => code_texts b1 ++ code_texts b2
  | KTry b | KWith _ b => code_texts b
  | _ => []
  end.
Fixpoint raised (b : code) : list excobj :=
  match b with
  | KRaise e => [e]
  | KSeq b1 b2 => raised b1 ++ raised b2
  | KTry b | KWith _ b => raised b
  | _ => []
  end.

(** What happened: a text was written to an object, the __exit__ of an object was called
    with an exception or without, something happened elsewhere. *)
Inductive happened :=
| Wrote (o : nat) (data : text) (r : outcome nat)
| Left (o : nat) (e : option excobj) (r : outcome unit)
| Happened (n : nat).

(** How a statement ends after a call with the result [r], if it would end with [a] otherwise. *)
Definition after_call {X} (exc : exn -> excobj) (r : outcome X) (a : ending) : ending :=
  match r with Good _ => a | Fail x => Throws (exc x) | Block => Hangs end.

(** [told exc x y b l r]: started with the streams sys.stdout = [x], sys.stderr = [y], the
    code [b] should do [l] and end with [r], given the results in [l].  The innermost
    context decides where a text goes; there is no state of the streams here. *)
Inductive told (exc : exn -> excobj) : option nat -> option nat -> code -> list happened -> ending -> Prop :=
| t_pass x y : told exc x y KPass [] Ends
| t_out x y o data r : x = Some o -> told exc x y (KPut false data) [Wrote o data r] (after_call exc r Ends)
| t_err x y o data r : y = Some o -> told exc x y (KPut true data) [Wrote o data r] (after_call exc r Ends)
| t_err_out x y o data r : y = None -> x = Some o -> told exc x y (KPut true data) [Wrote o data r] (after_call exc r Ends)
| t_none y data : told exc None y (KPut false data) [] Ends
| t_none2 data : told exc None None (KPut true data) [] Ends
| t_event x y n : told exc x y (KEvent n) [Happened n] Ends
| t_raise x y e : told exc x y (KRaise e) [] (Throws e)
| t_seq x y b1 b2 l1 l2 r : told exc x y b1 l1 Ends -> told exc x y b2 l2 r -> told exc x y (KSeq b1 b2) (l1 ++ l2) r
| t_stop x y b1 b2 l r : r <> Ends -> told exc x y b1 l r -> told exc x y (KSeq b1 b2) l r
| t_caught x y b l e : told exc x y b l (Throws e) -> told exc x y (KTry b) l Ends
| t_try x y b l r : (r = Ends \/ r = Hangs) -> told exc x y b l r -> told exc x y (KTry b) l r
| t_buf x y o b l r r' : r <> Hangs -> told exc (Some o) (Some o) b l r ->
    told exc x y (KWith (Buf o) b) (l ++ [Left o (exc_value r) r']) (after_call exc r' r)
| t_rout x y o t b l r : r <> Hangs -> told exc (Some t) y b l r -> told exc x y (KWith (ROut o t) b) l r
| t_rerr x y o t b l r : r <> Hangs -> told exc x (Some t) b l r -> told exc x y (KWith (RErr o t) b) l r
| t_hang_buf x y o b l : told exc (Some o) (Some o) b l Hangs -> told exc x y (KWith (Buf o) b) l Hangs
| t_hang_out x y o t b l : told exc (Some t) y b l Hangs -> told exc x y (KWith (ROut o t) b) l Hangs
| t_hang_err x y o t b l : told exc x (Some t) b l Hangs -> told exc x y (KWith (RErr o t) b) l Hangs.

(** [effects C w l w']: the calls [l], made one after the other in the world [w], have the
    results noted in [l] and lead to [w']. *)
Inductive effects {W} (C : classes W) : W -> list happened -> W -> Prop :=
| f_nil w : effects C w [] w
| f_write w o data r w1 l w2 : c_write C o data w = (r, w1) -> effects C w1 l w2 -> effects C w (Wrote o data r :: l) w2
| f_exit w o e r w1 l w2 : c_exit C o e w = (r, w1) -> effects C w1 l w2 -> effects C w (Left o e r :: l) w2
| f_event w n l w2 : effects C (c_event C n w) l w2 -> effects C w (Happened n :: l) w2.

(** The texts written to the object [o], in order. *)
Definition texts_to (o : nat) (l : list happened) : list text :=
  flat_map (fun x => match x with Wrote o' data _ => if o' =? o then [data] else [] | _ => [] end) l.
(** Nothing failed. *)
Definition all_good (l : list happened) : Prop :=
  Forall (fun x => match x with
                   | Wrote _ data r => exists n, r = Good n
                   | Left _ _ r => r = Good tt
                   | Happened _ => True end) l.

(** A mirror that holds [v] and gets the texts [ts] sends [ds] and holds [v'] then: a text
    with a line break is sent at once, together with what was held. *)
Inductive sent_by : text -> list text -> list text -> text -> Prop :=
| sb_nil v : sent_by v [] [] v
| sb_hold v t ts ds v' : no_break t -> sent_by (v ++ t) ts ds v' -> sent_by v (t :: ts) ds v'
| sb_send v t ts ds v' : ~ no_break t -> sent_by [] ts ds v' -> sent_by v (t :: ts) ((v ++ t) :: ds) v'.
(** No event in [l]. *)
Definition quiet (l : list happened) : Prop := forall n, ~ In (Happened n) l.

(** [t] is the texts [args] with [sep] between them. *)
Inductive joined (sep : text) : list text -> text -> Prop :=
| j_none : joined sep [] []
| j_one a : joined sep [a] a
| j_more a b args t : joined sep (b :: args) t -> joined sep (a :: b :: args) (a ++ sep ++ t).
