(** * PropConc: several threads using one LineBuffer (C16 - C19, C65)

    [lb_pool css]: thread [i] makes the calls [css[i]]; [sched_run sch] executes single
    commands (one operation of the StringIO, the deque or the lock) in the order given by
    the schedule [sch]; a thread that has finished is [Ret results].  Proofs are in
    LineBufConcProofs.v, Conc.v and Locks.v. *)
From stdpp Require Import gmap.
From Coq Require Import String.
From Coq Require Import List NArith ZArith Bool Arith.
From Verif Require Import PyStr Prog PyIO Base Spec LineBuf Conc LineBufConc LineBufConcProofs.
Import ListNotations.
Local Open Scope nat_scope.

Notation all_finished ps := (Forall (fun p => finished p = true) ps).

(** ** C16.  [order] explains every result and the final state.  The last clause: at any
    moment of the execution the completed calls are exactly the calls of a prefix of
    [order] (so a call that ended before another one started comes first). *)
Theorem C16_linearizable :
  forall m css s0 sch ps s', 1 <= m -> open_state m s0 ->
  Forall (Forall (fun c => locked_call c = true)) css ->
  sched_run sch (lb_pool css, s0) = Some (ps, s') -> all_finished ps ->
  exists order : hist,
    order_of css order /\
    snd (run_hist order s0) = s' /\
    (forall i p, nth_error ps i = Some p ->
       p = Ret (events_of i (combine (map fst order) (fst (run_hist order s0))))) /\
    (forall sch1 sch2 ps1 s1, sch = sch1 ++ sch2 ->
       sched_run sch1 (lb_pool css, s0) = Some (ps1, s1) ->
       exists o1 o2, order = o1 ++ o2 /\
       forall i cs, nth_error css i = Some cs -> exists p rest,
         nth_error ps1 i = Some p /\ cs = events_of i o1 ++ rest /\
         pending lb_call (rev (events_of i (combine (map fst o1) (fst (run_hist o1 s0))))) rest p).
Proof. exact c16. Qed.
Print Assumptions C16_linearizable.

(** Readable form of the end of an execution: results of the threads (if finished),
    records, unfinished line, closed. *)
Definition summary (c : option (list (prog bcmd (list (outcome res))) * st lbuf)) :=
  option_map (fun c => (map (fun p => match p with Ret r => Some r | _ => None end) (fst c),
                        dq (storage (dat (snd c))), sval (last_line (dat (snd c))),
                        sclosed (last_line (dat (snd c))))) c.
Definition x_line : st lbuf := snd (run_hist [(0, Write (txt "x" ++ [LF]))] (fresh 2)).
Example x_line_open : open_state 2 x_line.
Proof. split; [exists [(0, Write (txt "x" ++ [LF]))]; reflexivity|reflexivity]. Qed.

(** Two threads: thread 1 completes a read and starts a write while thread 0 is between
    the two critical sections of its write. *)
Example C16_case :
  summary (sched_run (repeat 0 3 ++ repeat 1 11 ++ repeat 0 7 ++ repeat 1 3)
    (lb_pool [[Write (txt "a" ++ [LF] ++ txt "b")]; [Read None; Write (txt "c")]], fresh 3)) =
  Some ([Some [Good (RNat 1)]; Some [Good (RItems []); Good (RNat 1)]],
        [IStr (txt "a")], txt "bc", false).
Proof. vm_compute. reflexivity. Qed.

(** ** C17.  For every content of the buffer whatsoever ([d] is arbitrary). *)
Theorem C17_lock_released :
  forall t c d r s', run t (lb_call c) (mkst d ∅) = (r, s') -> r <> Block /\ lks s' = ∅.
Proof. exact c17_release. Qed.
Print Assumptions C17_lock_released.

Theorem C17_no_deadlock :
  forall css d sch ps' s', sched_run sch (lb_pool css, mkst d ∅) = Some (ps', s') ->
  (all_finished ps' /\ lks s' = ∅) \/ (exists i c', cstep i (ps', s') = Some c').
Proof. exact c17_progress. Qed.
Print Assumptions C17_no_deadlock.

(** A pool in which thread 1 is blocked by thread 0 (it cannot move), but thread 0 can. *)
Example C17_case :
  exists c, sched_run [0; 1; 1; 1] (lb_pool [[Closed]; [Isatty; Flush; Clear; Close]], fresh 1) = None /\
            sched_run [0] (lb_pool [[Closed]; [Isatty; Flush; Clear; Close]], fresh 1) = Some c /\
            cstep 1 c = None /\ cstep 0 c <> None.
Proof. eexists. repeat split; vm_compute; [reflexivity..|discriminate]. Qed.

(** ** C18.  clear() is not atomic: the write's finished line is lost, its tail survives. *)
Theorem C18_clear_atomic_refuted :
  exists css sch ps s',
    css = [[Clear]; [Write (txt "a" ++ [LF] ++ txt "b")]] /\
    sched_run sch (lb_pool css, fresh 5) = Some (ps, s') /\ all_finished ps /\
    dq (storage (dat s')) = [] /\ sval (last_line (dat s')) = txt "b" /\
    forall order, order_of css order -> snd (run_hist order (fresh 5)) <> s'.
Proof.
  eexists _, (repeat 0 4 ++ repeat 1 10 ++ repeat 0 1), _, _.
  split; [reflexivity|]. split; [vm_compute; reflexivity|].
  split; [repeat constructor|]. split; [reflexivity|]. split; [reflexivity|].
  intros order H. destruct (order_two _ _ order H) as [-> | ->]; vm_compute; discriminate.
Qed.
Print Assumptions C18_clear_atomic_refuted.

(** clear() returned, only a reader was active, yet the record is still there. *)
Theorem C18_cleared_record_returns_refuted :
  exists sch ps s',
    sched_run sch (lb_pool [[Clear]; [Read (Some 1%Z)]], x_line) = Some (ps, s') /\ all_finished ps /\
    dq (storage (dat s')) = [IStr (txt "x")] /\
    forall order, order_of [[Clear]; [Read (Some 1%Z)]] order ->
      dq (storage (dat (snd (run_hist order x_line)))) = [].
Proof.
  eexists (repeat 0 4 ++ repeat 1 9 ++ repeat 0 1 ++ repeat 1 2), _, _.
  split; [vm_compute; reflexivity|].
  split; [repeat constructor|]. split; [reflexivity|].
  intros order H. destruct (order_two _ _ order H) as [-> | ->]; vm_compute; reflexivity.
Qed.
Print Assumptions C18_cleared_record_returns_refuted.

(** read(n) raises IndexError. *)
Theorem C18_read_n_succeeds_refuted :
  exists sch s',
    sched_run sch (lb_pool [[Clear]; [Read (Some 1%Z)]], x_line) =
      Some ([Ret [Good RUnit]; Ret [Fail IndexError]], s').
Proof.
  eexists (repeat 0 4 ++ repeat 1 8 ++ repeat 0 1 ++ repeat 1 2), _. vm_compute. reflexivity.
Qed.
Print Assumptions C18_read_n_succeeds_refuted.

(** The bound holds at every moment of every execution of every calls. *)
Theorem C18_bound_always :
  forall m css d sch ps s',
  dmax (storage d) = m -> length (dq (storage d)) <= m ->
  sched_run sch (lb_pool css, mkst d ∅) = Some (ps, s') ->
  dmax (storage (dat s')) = m /\ length (dq (storage (dat s'))) <= m.
Proof. exact c18_bound. Qed.
Print Assumptions C18_bound_always.

Example C18_bound_case : exists ps s',
  sched_run (repeat 0 4 ++ repeat 1 10 ++ repeat 0 1)
    (lb_pool [[Clear]; [Write (txt "a" ++ [LF] ++ txt "b")]], fresh 5) = Some (ps, s').
Proof. eexists _, _. vm_compute. reflexivity. Qed.

(** ** C19 *)
Theorem C19_second_close_does_nothing_refuted :
  exists sch s',
    sched_run sch (lb_pool [[Close]; [Close]], fresh 2) =
      Some ([Ret [Good RUnit]; Ret [Fail ValueError]], s').
Proof.
  eexists (repeat 0 3 ++ repeat 1 3 ++ repeat 0 8 ++ repeat 1 3), _. vm_compute. reflexivity.
Qed.
Print Assumptions C19_second_close_does_nothing_refuted.

Theorem C19_write_raises_OSError_refuted :
  exists sch s',
    sched_run sch (lb_pool [[Close]; [Write (txt "a")]], fresh 2) =
      Some ([Ret [Good RUnit]; Ret [Fail ValueError]], s').
Proof.
  eexists (repeat 1 3 ++ repeat 0 11 ++ repeat 1 3), _. vm_compute. reflexivity.
Qed.
Print Assumptions C19_write_raises_OSError_refuted.

(** What does hold for every schedule: a closed buffer is never re-opened. *)
Theorem C19_never_reopened :
  forall css s sch ps s', sclosed (last_line (dat s)) = true ->
  sched_run sch (lb_pool css, s) = Some (ps, s') -> sclosed (last_line (dat s')) = true.
Proof. exact c19_closed. Qed.
Print Assumptions C19_never_reopened.

Example C19_case : exists s ps s', sclosed (last_line (dat s)) = true /\
  sched_run (repeat 0 3 ++ repeat 1 3) (lb_pool [[Write (txt "a")]; [Close]], s) = Some (ps, s').
Proof.
  exists (snd (run_hist [(0, Write (txt "a")); (0, Close)] (fresh 2))). eexists _, _.
  split; vm_compute; reflexivity.
Qed.

(** ** C65.  len() reads the storage outside the lock: while read(n) rotates the storage it
    can report 1 although before and after there are 2. *)
Theorem C65_len_atomic_refuted :
  exists sch s',
    sched_run sch (lb_pool [[Len]; [Read (Some 1%Z)]], x_line) =
      Some ([Ret [Good (RNat 1)]; Ret [Good (RItems [IStr (txt "x")])]], s') /\
    forall order, order_of [[Len]; [Read (Some 1%Z)]] order ->
      events_of 0 (combine (map fst order) (fst (run_hist order x_line))) = [Good (RNat 2)].
Proof.
  eexists (repeat 1 9 ++ repeat 0 2 ++ repeat 1 2 ++ repeat 0 3), _.
  split; [vm_compute; reflexivity|].
  intros order H. destruct (order_two _ _ order H) as [-> | ->]; vm_compute; reflexivity.
Qed.
Print Assumptions C65_len_atomic_refuted.

(** In every execution len() still lies between 1 and maxlen. *)
Theorem C65_len_range :
  forall m css d sch ps s' i cs rs, 1 <= m -> dmax (storage d) = m ->
  length (dq (storage d)) <= m ->
  sched_run sch (lb_pool css, mkst d ∅) = Some (ps, s') ->
  nth_error css i = Some cs -> nth_error ps i = Some (Ret rs) ->
  Forall2 (fun c r => forall n, c = Len -> r = Good (RNat n) -> 1 <= n <= m) cs rs.
Proof. exact c65_range. Qed.
Print Assumptions C65_len_range.
