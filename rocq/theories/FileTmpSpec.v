(** * FileTmpSpec: steps of calls of processes that share a log and perhaps temporary files

    Used in the statements of PropFileTmp.v. *)
From stdpp Require Import gmap.
From Coq Require Import String.
From Coq Require Import List NArith ZArith Bool Arith.
From Verif Require Import PyStr Prog PyIO Base Spec LineBuf FileBuf FileSpec FileStmt FileConcSpec.
Import ListNotations.
Local Open Scope nat_scope.

(** [n] processes on the log [name] with the lock [fl]; the locks of two temporary files are
    the same if the files are (file.py:105-110, 144-150). *)
Record one_log (n : nat) (name : text) (fl : nat) (bs : nat -> fbuf) : Prop := mkonelog {
  ol_fl : Nat.even fl = true;
  ol_one : forall i, i < n -> b_name (bs i) = name /\ b_fl (bs i) = fl /\ 1 <= b_max (bs i) /\
             fl < b_tl (bs i) /\ Nat.even (b_tl (bs i)) = true;
  ol_two : forall i j, i < n -> j < n -> i <> j ->
             b_id (bs i) <> b_id (bs j) /\ (b_tl (bs i) = b_tl (bs j) <-> b_tmp (bs i) = b_tmp (bs j)) }.

(** What happens at once: to the records (one batch added, or all removed; or they are
    looked at), or to the temporary file of the process (its text is taken, removed, or
    extended). *)
Inductive fstep :=
| SLog (e : effect)
| SSee (l : list text)
| SGet (x : text)
| SEmpty
| SApp (r : text).

(** [story m tmp g l v P]: starting with the records [l] and the texts [v t] of the
    temporary files with the identifier [t], the steps [g] can happen in this order (each
    with its process, [tmp i]: the identifier that process [i] uses), and in the end the
    records and the texts of the temporary files satisfy [P]. *)
Definition setv (v : text -> text) (t x : text) : text -> text := fun t' => if text_eqb t' t then x else v t'.
Fixpoint story (m : nat) (tmp : nat -> text) (g : list (nat * fstep)) (l : list text) (v : text -> text)
  (P : list text -> (text -> text) -> Prop) : Prop :=
  match g with
  | [] => P l v
  | (i, s) :: g' =>
      match s with
      | SLog (Adds batch) => story m tmp g' (last_items m (l ++ batch)) v P
      | SLog Wipes => story m tmp g' [] v P
      | SSee l' => l' = l /\ story m tmp g' l v P
      | SGet x => x = v (tmp i) /\ story m tmp g' l v P
      | SEmpty => story m tmp g' l (setv v (tmp i) []) P
      | SApp r => story m tmp g' l (setv v (tmp i) (v (tmp i) ++ r)) P
      end
  end.

(** A text as a list of lines: nothing if it is empty. *)
Definition if_any (x : text) : list text := match x with [] => [] | _ => [x] end.

(** The steps of write(data), where [data] has the complete lines [ls] and the remainder
    [r] and [x] was found in the temporary file. *)
Definition write_steps (ls : list text) (r x : text) : list fstep :=
  match ls with
  | [] => []
  | l :: ls' => [SGet x; SLog (Adds ((x ++ l) :: ls')); SEmpty]
  end ++ match r with [] => [] | _ => [SApp r] end.
(** The number that write() returns. *)
Definition write_result (ls : list text) (r : text) : nat :=
  match ls, r with
  | [[]], [] => 1
  | _, _ => length r
  end.
(** How many lines read(size) returns at most. *)
Definition want (m : nat) (size : option Z) : nat :=
  match size with None => m | Some z => Nat.min m (Z.to_nat z) end.

(** Calls that touch neither the records nor the temporary file; [o]: the buffer is open. *)
Definition look_answer (m : nat) (o : bool) (c : fcall) : option (outcome fres) :=
  match c with
  | XFlush => Some (Good VUnit)
  | XClosed => Some (Good (VBool (negb o)))
  | XReadable | XWritable => Some (Good (VBool o))
  | XMaxlen => Some (Good (VNat m))
  | XFileno | XSeek => Some (Fail OSError)
  | XIsatty | XSeekable => Some (Good (VBool false))
  | XWrite _ => if o then None else Some (Fail OSError)
  | XRead (Some z) => if o then (if (z <=? 0)%Z then Some (Good (VTexts [])) else None) else Some (Fail OSError)
  | XRead None => if o then None else Some (Fail OSError)
  | XNewLine | XSendExc _ | XClose _ => if o then None else Some (Good VUnit)
  | XClear | XLen => None
  end.

(** [plays m c o es o' r]: the call [c] on a buffer that is open ([o = true]) or closed
    makes the steps [es], leaves it open or closed ([o']) and has the result [r]. *)
Inductive plays (m : nat) : fcall -> bool -> list fstep -> bool -> outcome fres -> Prop :=
| pl_look c o r : look_answer m o c = Some r -> plays m c o [] o r
| pl_write data ls r x : segments data ls r ->
    plays m (XWrite data) true (write_steps ls r x) true (Good (VNat (write_result ls r)))
| pl_read size x l l' : look_answer m true (XRead size) = None -> Forall2 newlines l l' ->
    plays m (XRead size) true [SGet x; SSee l] true (Good (VTexts (last_items (want m size) (l' ++ if_any x))))
| pl_new_none : plays m XNewLine true [SGet []] true (Good VUnit)
| pl_new x y : x <> [] -> plays m XNewLine true [SGet x; SGet y; SLog (Adds [y]); SEmpty] true (Good VUnit)
| pl_exc e t : exc_record e t -> plays m (XSendExc e) true [SLog (Adds [t])] true (Good VUnit)
| pl_close es r : plays m XNewLine true es true r -> plays m (XClose None) true es false r
| pl_close_exc e es r : plays m (XSendExc e) true es true r -> plays m (XClose (Some e)) true es false r
| pl_clear o : plays m XClear o [SLog Wipes; SEmpty] o (Good VUnit)
| pl_len o x l : plays m XLen o [SSee l; SGet x] o (Good (VNat (Nat.min m (length l + length (if_any x))))).
(** The calls of one process, one after the other. *)
Inductive plays_all (m : nat) : list fcall -> bool -> list fstep -> bool -> list (outcome fres) -> Prop :=
| plays_nil o : plays_all m [] o [] o []
| plays_cons c cs o es o1 r es' o2 rs : plays m c o es o1 r -> plays_all m cs o1 es' o2 rs ->
    plays_all m (c :: cs) o (es ++ es') o2 (r :: rs).

(** ** What follows for the lines *)

(** Remainders written by the processes that use the identifier [t]. *)
Definition remainder (bs : nat -> fbuf) (css : list (list fcall)) (t s : text) : Prop :=
  exists j cs data ls, nth_error css j = Some cs /\ b_tmp (bs j) = t /\ In (XWrite data) cs /\ segments data ls s.
(** [glued P v x]: [x] consists of whole pieces with [P], perhaps after the text [v]. *)
Definition glued (P : text -> Prop) (v x : text) : Prop :=
  exists v' ss, (v' = [] \/ v' = v) /\ Forall P ss /\ x = v' ++ concat ss.

(** [logs G c o es o']: what the call [c] does to the records, where [G] holds for the text
    found in the temporary file. *)
Inductive logs (G : text -> Prop) : fcall -> bool -> list effect -> bool -> Prop :=
| lg_part data r : segments data [] r -> logs G (XWrite data) true [] true
| lg_lines data l ls r x : segments data (l :: ls) r -> G x ->
    logs G (XWrite data) true [Adds ((x ++ l) :: ls)] true
| lg_new_none : logs G XNewLine true [] true
| lg_new x : G x -> logs G XNewLine true [Adds [x]] true
| lg_exc e t : exc_record e t -> logs G (XSendExc e) true [Adds [t]] true
| lg_close es : logs G XNewLine true es true -> logs G (XClose None) true es false
| lg_close_exc e es : logs G (XSendExc e) true es true -> logs G (XClose (Some e)) true es false
| lg_clear o : logs G XClear o [Wipes] o
| lg_other (c : fcall) (o : bool) :
    (if o then match c with XWrite _ | XNewLine | XSendExc _ | XClear | XClose _ => False | _ => True end
     else c <> XClear) ->
    logs G c o [] o.
Inductive logs_all (G : text -> Prop) : list fcall -> bool -> list effect -> bool -> Prop :=
| logs_nil o : logs_all G [] o [] o
| logs_cons c cs o es o1 es' o2 : logs G c o es o1 -> logs_all G cs o1 es' o2 ->
    logs_all G (c :: cs) o (es ++ es') o2.
