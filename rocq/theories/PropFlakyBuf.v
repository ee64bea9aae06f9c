(** * PropFlakyBuf: what an exception from outside leaves of a LineBuffer (C89)

    The calls are those of PropFlaky.v; [mkst (dat s, fs) ∅]: the state [s] with the
    exceptions [fs] to come.  The vocabulary is in FlakySpec.v, proofs are in FlakyBuf.v,
    FlakyInv.v and FlakyProofs.v. *)
From stdpp Require Import gmap.
From Coq Require Import String.
From Coq Require Import List NArith ZArith Bool Arith.
From Verif Require Import PyStr Prog PyIO Base Spec SpecFacts LineBuf Flaky FlakySpec FlakyProofs ProcRun PropLineBuf.
Import ListNotations.
Local Open Scope nat_scope.

(** ** C89 *)
Theorem C89_write : forall m s t fs, 1 <= m -> reachable m s -> is_open s ->
  forall data, let o := run t (flaky_call (lb_call (Write data))) (mkst (dat s, fs) ∅) in
  lks (snd o) = ∅ /\ write_cut m (records s) (current s) data (fst (dat (snd o))).
Proof. exact c89_write. Qed.
Print Assumptions C89_write.
(** new_line() changes nothing, or does as write("\n"). *)
Theorem C89_new_line : forall m s t fs, 1 <= m -> reachable m s -> is_open s ->
  let o := run t (flaky_call (lb_call NewLine)) (mkst (dat s, fs) ∅) in
  lks (snd o) = ∅ /\
  (fst (dat (snd o)) = dat s \/ (current s <> [] /\ write_cut m (records s) (current s) [10%N] (fst (dat (snd o))))).
Proof. exact c89_new_line. Qed.
Print Assumptions C89_new_line.
Theorem C89_read : forall m s t fs, 1 <= m -> reachable m s -> is_open s ->
  forall size, let o := run t (flaky_call (lb_call (Read size))) (mkst (dat s, fs) ∅) in
  lks (snd o) = ∅ /\ read_cut m (records s) (current s) (fst (dat (snd o))).
Proof. exact c89_read. Qed.
Print Assumptions C89_read.
Theorem C89_clear : forall m s t fs, 1 <= m -> reachable m s -> is_open s ->
  let o := run t (flaky_call (lb_call Clear)) (mkst (dat s, fs) ∅) in
  lks (snd o) = ∅ /\ clear_cut m (records s) (current s) (fst (dat (snd o))).
Proof. exact c89_clear. Qed.
Print Assumptions C89_clear.
(** close() leaves what clear() leaves, or an empty closed buffer. *)
Theorem C89_close : forall m s t fs, 1 <= m -> reachable m s -> is_open s ->
  let o := run t (flaky_call (lb_call Close)) (mkst (dat s, fs) ∅) in
  lks (snd o) = ∅ /\
  (clear_cut m (records s) (current s) (fst (dat (snd o))) \/ fst (dat (snd o)) = mklbuf (mkdeque [] m) (mksio [] 0 true)).
Proof. exact c89_close. Qed.
Print Assumptions C89_close.

(** Any calls, one after the other, any number of them left by exceptions: none waits for a
    lock, the locks are free afterwards, there are at most [m] records without line breaks,
    and the buffer can be read and cleared ([usable]). *)
Theorem C89_always : forall m fs, 1 <= m -> forall h, let o := fl_hist h (mkst (dat (fresh m), fs) ∅) in
  Forall (fun r => r <> Block) (fst o) /\ lks (snd o) = ∅ /\
  sound m (fst (dat (snd o))) /\ usable m (fst (dat (snd o))).
Proof. exact c89_always. Qed.
Print Assumptions C89_always.
(** Threads: at every moment. *)
Theorem C89_concurrent : forall m fs css sch ps' s', 1 <= m ->
  sched_run sch (fl_pool (map (map lb_call) css), mkst (dat (fresh m), fs) ∅) = Some (ps', s') ->
  sound m (fst (dat s')) /\ usable m (fst (dat s')).
Proof. exact c89_concurrent. Qed.
Print Assumptions C89_concurrent.

(** ** What does not hold *)
Definition hit (n : nat) : faults := repeat None n ++ [Some KeyboardInterrupt].
Definition nl (s : string) : text := txt s ++ [10%N].
(** read() twice: the first is left and changes what the second gives (compare C06): the
    order of the records, or a record is lost. *)
Definition abc : call := Write (nl "a" ++ nl "b" ++ nl "c").
Theorem C89_read_pure_refuted :
  exists n n',
  fst (fl_hist [(0, abc); (0, Read (Some 2%Z)); (0, Read None)] (mkst (dat (fresh 3), hit n) ∅)) =
    [Good (RNat 0); Fail KeyboardInterrupt; Good (RItems [IStr (txt "b"); IStr (txt "c"); IStr (txt "a")])] /\
  fst (fl_hist [(0, abc); (0, Read (Some 2%Z)); (0, Read None)] (mkst (dat (fresh 3), hit n') ∅)) =
    [Good (RNat 0); Fail KeyboardInterrupt; Good (RItems [IStr (txt "c"); IStr (txt "a")])].
Proof. exists 16, 17. split; vm_compute; reflexivity. Qed.
Print Assumptions C89_read_pure_refuted.
(** A write that is left shows its line twice; or its unfinished text is overwritten only
    in part by the next write. *)
Theorem C89_write_once_refuted :
  exists n n',
  fst (fl_hist [(0, Write (txt "hello")); (0, Write (nl "")); (0, Read None)] (mkst (dat (fresh 3), hit n) ∅)) =
    [Good (RNat 5); Fail KeyboardInterrupt; Good (RItems [IStr (txt "hello"); IStr (txt "hello")])] /\
  fst (fl_hist [(0, Write (txt "hello")); (0, Write (nl "")); (0, Write (txt "wor")); (0, Read None)] (mkst (dat (fresh 3), hit n') ∅)) =
    [Good (RNat 5); Fail KeyboardInterrupt; Good (RNat 3); Good (RItems [IStr (txt "hello"); IStr (txt "worlo")])].
Proof. exists 10, 11. split; vm_compute; reflexivity. Qed.
Print Assumptions C89_write_once_refuted.
(** close() that is left may have removed the records without closing the buffer. *)
Theorem C89_close_all_or_nothing_refuted :
  exists n, fst (fl_hist [(0, abc); (0, Close); (0, Closed); (0, Read None)] (mkst (dat (fresh 3), hit n) ∅)) =
    [Good (RNat 0); Fail KeyboardInterrupt; Good (RBool false); Good (RItems [])].
Proof. exists 16. vm_compute. reflexivity. Qed.
Print Assumptions C89_close_all_or_nothing_refuted.

(** ** Cases *)
Example C89_case_demo : reachable 2 (demo 2) /\ is_open (demo 2) /\ records (demo 2) = [IStr (txt "cd"); IStr (txt "e")] /\ current (demo 2) = txt "f".
Proof. split; [apply demo_reachable|]. repeat split; vm_compute; reflexivity. Qed.
(** write("g\nh") left at its sixth check: the line is recorded, the text is still there. *)
Example C89_case_write :
  let o := run 0 (flaky_call (lb_call (Write (nl "g" ++ txt "h")))) (mkst (dat (demo 2), hit 5) ∅) in
  fst o = Fail KeyboardInterrupt /\ fst (dat (snd o)) = holds 2 [IStr (txt "e"); IStr (txt "fg")] (txt "f") 1.
Proof. split; vm_compute; reflexivity. Qed.
(** read(2) of two records and an unfinished line, left when one is preserved. *)
Example C89_case_read :
  let o := run 0 (flaky_call (lb_call (Read (Some 2%Z)))) (mkst (dat (demo 2), hit 7) ∅) in
  fst o = Fail KeyboardInterrupt /\ fst (dat (snd o)) = holds 2 [IStr (txt "e")] (txt "f") 1.
Proof. split; vm_compute; reflexivity. Qed.
(** Three calls are left, the fourth clears the buffer. *)
Example C89_case_hist :
  let o := fl_hist [(0, abc); (1, Read (Some 2%Z)); (0, Write (nl "x")); (1, Clear); (0, Write (nl "y"))] (mkst (dat (fresh 3), hit 5 ++ hit 3 ++ hit 6) ∅) in
  fst o = [Fail KeyboardInterrupt; Fail KeyboardInterrupt; Fail KeyboardInterrupt; Good RUnit; Good (RNat 0)] /\
  records (mkst (fst (dat (snd o))) ∅) = [IStr (txt "y")].
Proof. split; vm_compute; reflexivity. Qed.
Example C89_case_threads :
  let c := plan [(0, 9); (1, 1); (0, 100); (1, 100)] (fl_pool (map (map lb_call) [[abc; Read (Some 2%Z)]; [Write (nl "d")]]), mkst (dat (fresh 3), hit 6) ∅) in
  map finished (fst c) = [true; true] /\ records (mkst (fst (dat (snd c))) ∅) = [IStr (txt "b"); IStr (txt "c"); IStr (txt "d")] /\
  fst c !! 0 = Some (Ret [Fail KeyboardInterrupt; Good (RItems [IStr (txt "b"); IStr (txt "c")])]).
Proof. repeat split; vm_compute; reflexivity. Qed.
