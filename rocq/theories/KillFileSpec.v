(** * KillFileSpec: vocabulary of the statements about killed processes that share a log *)
From stdpp Require Import gmap.
From Coq Require Import List NArith ZArith Bool Arith.
From Verif Require Import PyStr Prog Base Spec FileBuf FileSpec FileStmt FileConcSpec CrashSpec.
Import ListNotations.
Local Open Scope nat_scope.

(** A history of records: all records that were ever begun, in the order in which they were
    begun, each with the process that wrote it ([None]: it was there before). *)
Notation history := (list (option nat * text)).
Definition written_by (t : nat) (h : history) : list text :=
  map snd (List.filter (fun e => match fst e with Some u => u =? t | None => false end) h).
Definition from_before (h : history) : list text :=
  map snd (List.filter (fun e => match fst e with Some _ => false | None => true end) h).

(** [got] is a beginning of [all]; its last text may be incomplete. *)
Definition cut_short (got all : list text) : Prop :=
  exists pre post, all = pre ++ post /\
    (got = pre \/ exists x post' p, post = x :: post' /\ prefix_of p x /\ got = pre ++ [p]).

(** The records that the calls [cs] of a process write to a log of [m] records if [v] is its
    unfinished line at first, and the unfinished line at the end; of the lines of one call,
    at most the last [m] are written (file.py:301-303). *)
Definition writes (m : nat) (cs : list fcall) (v : text) (all : list text) (v' : text) : Prop :=
  exists bs, adds_all cs v bs v' /\ all = concat (map (last_items m) bs).
(** No call completes more than one line. *)
Definition line_by_line (cs : list fcall) (v : text) : Prop :=
  forall bs v', adds_all cs v bs v' -> Forall (fun b => length b <= 1) bs.

(** [kept name m fs h pos]: the record files in the directory [fs] are records of the history
    [h]; [pos x] is the position in [h] of the record with number [x].  No record is there
    twice. *)
Definition kept (name : text) (m : nat) (fs : directory) (h : history) (pos : nat -> option nat) : Prop :=
  (forall x s, fs !! record_file name x = Some s -> x < m /\ exists e o, pos x = Some e /\ nth_error h e = Some (o, s)) /\
  (forall x, fs !! record_file name x = None -> pos x = None) /\
  (forall x y e, pos x = Some e -> pos y = Some e -> x = y).
(** Greater numbers are older records. *)
Definition in_order (pos : nat -> option nat) : Prop :=
  forall x y a b, pos x = Some a -> pos y = Some b -> x < y -> b < a.

(** [shows h ids ts]: the texts [ts], as read from files, are the records [ids] of the
    history [h]. *)
Definition shows (h : history) (ids : list nat) (ts : list text) : Prop :=
  Forall2 (fun e t => exists o s, nth_error h e = Some (o, s) /\ newlines s t) ids ts.
Inductive increasing : list nat -> Prop :=
| inc_nil : increasing []
| inc_cons x l : Forall (fun y => x < y) l -> increasing l -> increasing (x :: l).

(** The answer of a living process: [v] is its unfinished line, [h] the history.  read()
    returns records of the history, no record twice, and the unfinished line. *)
Definition own_line (v : text) : list text := match v with [] => [] | _ => [v] end.
Definition answered (m : nat) (ordered : Prop) (h : history) (v : text) (c : fcall) (r : outcome fres) : Prop :=
  match c with
  | XWrite _ => exists k, r = Good (VNat k)
  | XRead size =>
      (exists z, size = Some z /\ (z <= 0)%Z /\ r = Good (VTexts [])) \/
      ((forall z, size = Some z -> (0 < z)%Z) /\ exists ids ts,
         r = Good (VTexts (ts ++ own_line v)) /\ List.NoDup ids /\ (ordered -> increasing ids) /\ shows h ids ts /\
         length (ts ++ own_line v) <= m /\
         (forall z, size = Some z -> length (ts ++ own_line v) <= Z.to_nat z))
  | XNewLine | XSendExc _ | XFlush | XClear | XClose _ => r = Good VUnit
  | XLen => exists k, r = Good (VNat k) /\ k <= m
  | XClosed => r = Good (VBool false)
  | XReadable | XWritable => r = Good (VBool true)
  | XMaxlen => r = Good (VNat m)
  | XFileno | XSeek => r = Fail OSError
  | XIsatty | XSeekable => r = Good (VBool false)
  end.
Inductive answered_all (m : nat) (ordered : Prop) (h : history) : list fcall -> text -> list (outcome fres) -> Prop :=
| aa_nil v : answered_all m ordered h [] v []
| aa_cons c cs v b v1 r rs : adds c v b v1 -> answered m ordered h v c r -> answered_all m ordered h cs v1 rs ->
    answered_all m ordered h (c :: cs) v (r :: rs).
