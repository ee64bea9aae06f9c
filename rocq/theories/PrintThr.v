(** * PrintThr: threads of one process that print

    sys.stdout and sys.stderr belong to the process, so its threads share them.  Every
    access to an attribute in __enter__ and __exit__ (mproc.py:363-382; contextlib.py,
    _RedirectStream), every look at sys.stdout by print() and every single operation inside
    LineBuffer.write() is a step of its own; between two steps other threads may run.
    Objects are numbered; some are LineBuffers, the others are ordinary streams whose
    write() is one step and always accepts the text (the console).
    Not modelled: other methods called by the threads, starting and joining threads,
    exceptions from outside in the middle of a step. *)
From stdpp Require Import gmap.
From Coq Require Import List NArith ZArith Bool Arith.
From Verif Require Import PyStr Prog PyIO Base Spec LineBuf Ctx Print PrintSpec.
Import ListNotations.
Local Open Scope prog_scope.
Local Open Scope nat_scope.

(** ** The attributes *)
Inductive aop :=
| GetOut | GetErr                                    (* sys.stdout, sys.stderr *)
| SetOut (x : option nat) | SetErr (x : option nat)  (* sys.stdout = x, sys.stderr = x *)
| SaveOut (o : nat) (x : option nat) | SaveErr (o : nat) (x : option nat)  (* self.__stdout = x, self.__stderr = x *)
| LoadOut (o : nat) | LoadErr (o : nat)              (* self.__stdout, self.__stderr *)
| Push (o : nat) (x : option nat) | Pop (o : nat).   (* self._old_targets.append(x), .pop() *)
Definition attr (a : aop) (s : sys) : outcome (option nat) * sys :=
  match a with
  | GetOut => (Good (out s), s)
  | GetErr => (Good (err s), s)
  | SetOut x => (Good None, mksys x (err s) (saved s) (olds s))
  | SetErr x => (Good None, mksys (out s) x (saved s) (olds s))
  | SaveOut o x => (Good None, mksys (out s) (err s) (upd (saved s) o (x, snd (saved s o))) (olds s))
  | SaveErr o x => (Good None, mksys (out s) (err s) (upd (saved s) o (fst (saved s o), x)) (olds s))
  | LoadOut o => (Good (fst (saved s o)), s)
  | LoadErr o => (Good (snd (saved s o)), s)
  | Push o x => (Good None, mksys (out s) (err s) (saved s) (upd (olds s) o (x :: olds s o)))
  | Pop o => match olds s o with
             | [] => (Fail IndexError, s)
             | x :: xs => (Good x, mksys (out s) (err s) (saved s) (upd (olds s) o xs))
             end
  end.

(** ** The data of the process and the steps *)
Record tproc := mktproc { pr_sys : sys; pr_con : nat -> text; pr_buf : nat -> lbuf }.
Inductive tcmd : Type -> Type :=
| TAttr (a : aop) : tcmd (option nat)
| TSay (o : nat) (data : text) : tcmd nat          (* write() of an ordinary stream *)
| TBuf (o : nat) {X} (c : bcmd X) : tcmd X.        (* inside a method of the LineBuffer [o] *)
Definition texec {X} (c : tcmd X) : tproc -> outcome X * tproc :=
  match c in tcmd X return tproc -> outcome X * tproc with
  | TAttr a => fun d => let '(r, s) := attr a (pr_sys d) in (r, mktproc s (pr_con d) (pr_buf d))
  | TSay o data => fun d => (Good (length data), mktproc (pr_sys d) (upd (pr_con d) o (pr_con d o ++ data)) (pr_buf d))
  | TBuf o c => fun d => let '(r, b) := bexec c (pr_buf d o) in (r, mktproc (pr_sys d) (pr_con d) (upd (pr_buf d) o b))
  end.
Global Instance tsem : Sem tcmd tproc := {| cexec := @texec |}.

(** A method of the LineBuffer [o]: its commands are applied to [o], its lock
    [self.__last_line_lock] is the lock [2 * o]. *)
Fixpoint at_obj {A} (o : nat) (p : prog bcmd A) : prog tcmd A :=
  match p with
  | Ret a => Ret a
  | Raise e => Raise e
  | Act c k h =>
      match c in cmd _ X return (X -> prog tcmd A) -> (exn -> prog tcmd A) -> prog tcmd A with
      | Acq l m => fun k h => Act (Acq (2 * o) m) k h
      | Rel l => fun k h => Act (Rel (2 * o)) k h
      | Op c => fun k h => Act (Op (TBuf o c)) k h
      end (fun x => at_obj o (k x)) (fun e => at_obj o (h e))
  end.

Notation top a := (op (TAttr a)).
(** mproc.py:363-369; contextlib.py, _RedirectStream.__enter__ *)
Definition t_enter (m : manager) : prog tcmd unit :=
  match m with
  | Buf o =>
      x <- top GetOut ;; top (SaveOut o x) ;;           (* 365 *)
      y <- top GetErr ;; top (SaveErr o y) ;;           (* 366 *)
      top (SetOut (Some o)) ;;                          (* 367 *)
      top (SetErr (Some o)) ;; Ret tt                   (* 368 *)
  | ROut o t => x <- top GetOut ;; top (Push o x) ;; top (SetOut (Some t)) ;; Ret tt
  | RErr o t => x <- top GetErr ;; top (Push o x) ;; top (SetErr (Some t)) ;; Ret tt
  end.
(** mproc.py:371-382; contextlib.py, _RedirectStream.__exit__ *)
Definition t_leave (m : manager) : prog tcmd unit :=
  match m with
  | Buf o =>
      x <- top (LoadOut o) ;; top (SetOut x) ;;         (* 378 *)
      y <- top (LoadErr o) ;; top (SetErr y) ;;         (* 379 *)
      top (SaveOut o None) ;;                           (* 380 *)
      top (SaveErr o None) ;; Ret tt                    (* 381 *)
  | ROut o _ => x <- top (Pop o) ;; top (SetOut x) ;; Ret tt
  | RErr o _ => x <- top (Pop o) ;; top (SetErr x) ;; Ret tt
  end.

(** ** The code of a thread *)

(** As [code] (Print.v), but one call of print() is one construct: it looks up sys.stdout
    once and then calls write() of what it has found for each of its texts (CPython,
    bltinmodule.c, builtin_print_impl). *)
Inductive tcode :=
| TPass
| TPrint (to_err : bool) (texts : list text)
| TRaise (e : excobj)
| TSeq (b1 b2 : tcode)
| TTry (b : tcode)
| TWith (m : manager) (b : tcode).
(** [print(args...)], [print(args..., file=sys.stderr)], [sys.stdout.write(data)] *)
Definition thr_print (to_err : bool) (args : list text) : tcode := TPrint to_err (print_texts [32%N] [LF] args).
Definition thr_write (to_err : bool) (data : text) : tcode := TPrint to_err [data].
(** The same code for a thread that is alone. *)
Fixpoint as_code (b : tcode) : code :=
  match b with
  | TPass => KPass
  | TPrint te ts => put_all te ts
  | TRaise e => KRaise e
  | TSeq b1 b2 => KSeq (as_code b1) (as_code b2)
  | TTry b => KTry (as_code b)
  | TWith m b => KWith m (as_code b)
  end.

Section Code.
  Variable isbuf : nat -> bool.                         (* the LineBuffers among the objects *)
  Variable exc : exn -> excobj.
  Definition t_write (o : nat) (data : text) : prog tcmd nat :=
    if isbuf o then at_obj o (lb_write data) else op (TSay o data).
  Fixpoint t_puts (o : nat) (ts : list text) : prog tcmd ending :=
    match ts with
    | [] => Ret Ends
    | data :: ts' =>
        r <- attempt (t_write o data) ;;
        match after_call exc r Ends with Ends => t_puts o ts' | e => Ret e end
    end.
  Definition t_print (x : option nat) (ts : list text) : prog tcmd ending :=
    match x with None => Ret Ends | Some o => t_puts o ts end.
  Fixpoint tprog (b : tcode) : prog tcmd ending :=
    match b with
    | TPass => Ret Ends
    | TPrint false ts => x <- top GetOut ;; t_print x ts
    | TPrint true ts =>
        y <- top GetErr ;;
        match y with
        | Some _ => t_print y ts
        | None => x <- top GetOut ;; t_print x ts
        end
    | TRaise e => Ret (Throws e)
    | TSeq b1 b2 => r <- tprog b1 ;; match r with Ends => tprog b2 | _ => Ret r end
    | TTry b => r <- tprog b ;; Ret match r with Throws _ => Ends | _ => r end
    | TWith m b =>
        t_enter m ;;
        r <- tprog b ;;
        x <- attempt (t_leave m) ;;
        Ret (after_call exc x r)
    end.
  (** Thread [i] runs the code [codes[i]]. *)
  Definition t_pool (codes : list tcode) : list (prog tcmd ending) := map tprog codes.
End Code.

(** ** Vocabulary of the statements *)

(** What a thread does: something with an attribute, with the answer, or a text is written
    to an object. *)
Inductive event := Attr (a : aop) (r : outcome (option nat)) | Put (o : nat) (data : text).

(** [moves]: the assignments of __enter__ and __exit__, whatever is read. *)
Notation did a x := (Attr a (Good x)).
Inductive enters : manager -> list event -> Prop :=
| en_buf o x y : enters (Buf o) [did GetOut x; did (SaveOut o x) None; did GetErr y; did (SaveErr o y) None;
                                 did (SetOut (Some o)) None; did (SetErr (Some o)) None]
| en_out o t x : enters (ROut o t) [did GetOut x; did (Push o x) None; did (SetOut (Some t)) None]
| en_err o t x : enters (RErr o t) [did GetErr x; did (Push o x) None; did (SetErr (Some t)) None].
Inductive leaves : manager -> list event -> outcome unit -> Prop :=
| le_buf o x y : leaves (Buf o) [did (LoadOut o) x; did (SetOut x) None; did (LoadErr o) y; did (SetErr y) None;
                                 did (SaveOut o None) None; did (SaveErr o None) None] (Good tt)
| le_out o t x : leaves (ROut o t) [did (Pop o) x; did (SetOut x) None] (Good tt)
| le_err o t x : leaves (RErr o t) [did (Pop o) x; did (SetErr x) None] (Good tt)
| le_out_none o t : leaves (ROut o t) [Attr (Pop o) (Fail IndexError)] (Fail IndexError)
| le_err_none o t : leaves (RErr o t) [Attr (Pop o) (Fail IndexError)] (Fail IndexError).
Definition put (x : option nat) (ts : list text) : list event := match x with None => [] | Some o => map (Put o) ts end.

(** [does exc b es r]: the code [b] may do [es] and end with [r], for some answers of the
    attributes; a text goes to the object that the thread has found in the attribute. *)
Inductive does (exc : exn -> excobj) : tcode -> list event -> ending -> Prop :=
| do_pass : does exc TPass [] Ends
| do_out ts x : does exc (TPrint false ts) (did GetOut x :: put x ts) Ends
| do_err ts o : does exc (TPrint true ts) (did GetErr (Some o) :: put (Some o) ts) Ends
| do_err_out ts x : does exc (TPrint true ts) (did GetErr None :: did GetOut x :: put x ts) Ends
| do_raise e : does exc (TRaise e) [] (Throws e)
| do_seq b1 b2 l1 l2 r : does exc b1 l1 Ends -> does exc b2 l2 r -> does exc (TSeq b1 b2) (l1 ++ l2) r
| do_stop b1 b2 l e : does exc b1 l (Throws e) -> does exc (TSeq b1 b2) l (Throws e)
| do_try b l : does exc b l Ends -> does exc (TTry b) l Ends
| do_caught b l e : does exc b l (Throws e) -> does exc (TTry b) l Ends
| do_with m b l1 l2 l3 r x : enters m l1 -> does exc b l2 r -> leaves m l3 x ->
    does exc (TWith m b) (l1 ++ l2 ++ l3) (after_call exc x r).

(** [follows s l s']: the answers in [l] are those of attributes that start as [s] and are
    changed by [l] only, one after the other; in the end they are [s']. *)
Inductive follows : sys -> list event -> sys -> Prop :=
| fo_nil s : follows s [] s
| fo_put s o data l s' : follows s l s' -> follows s (Put o data :: l) s'
| fo_attr s a r s1 l s' : attr a s = (r, s1) -> follows s1 l s' -> follows s (Attr a r :: l) s'.

(** The texts written to the object [o]; all texts with their objects. *)
Definition puts (o : nat) (l : list event) : list text :=
  flat_map (fun e => match e with Put o' data => if o' =? o then [data] else [] | _ => [] end) l.
Definition put_pairs (l : list event) : list (nat * text) :=
  flat_map (fun e => match e with Put o data => [(o, data)] | _ => [] end) l.
Definition wrote_pairs (l : list happened) : list (nat * text) :=
  flat_map (fun e => match e with Wrote o data _ => [(o, data)] | _ => [] end) l.

(** An open LineBuffer for [m] records that shows the log [g]. *)
Definition buf_shows (m : nat) (g : slog) (b : lbuf) : Prop :=
  dmax (storage b) = m /\ dq (storage b) = last_items m (done g) /\
  sval (last_line b) = pend g /\ spos (last_line b) = length (pend g) /\ sclosed (last_line b) = false.

(** The objects that [b] may redirect to. *)
Fixpoint targets (b : tcode) : list nat :=
  match b with
  | TSeq b1 b2 => targets b1 ++ targets b2
  | TTry b => targets b
  | TWith (Buf o) b => o :: targets b
  | TWith (ROut _ t) b | TWith (RErr _ t) b => t :: targets b
  | _ => []
  end.
(** No context in [b]. *)
Fixpoint no_context (b : tcode) : Prop :=
  match b with
  | TSeq b1 b2 => no_context b1 /\ no_context b2
  | TTry b => no_context b
  | TWith _ _ => False
  | _ => True
  end.
(** A text made of complete lines. *)
Definition complete (data : text) : Prop := exists ls, segments data ls [].
