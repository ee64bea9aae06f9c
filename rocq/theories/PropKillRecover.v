(** * PropKillRecover: force_stop(), wait() and reset_states() after processes were killed (C101)

    The documentation of force_stop() recommends it for subprocesses that are stopped by
    Process.terminate() or Process.kill() (mproc.py:886-887).  [krun] as in PropKillProc.v:
    after any steps of the processes and any deaths ([dead]; the main process lives), at
    any point of its wait(), another thread of the main process calls force_stop(), wait()
    goes on, and then reset_states() is called.  Proofs in KillRecover.v. *)
From stdpp Require Import gmap.
From Coq Require Import String.
From Coq Require Import List NArith ZArith Bool Arith Lia.
From Verif Require Import PyStr Prog PyIO Base Spec LineBuf Proc ProcSpec ProcRun CountSpec Kill KillProcSpec KillProc KillRecover PropProc PropPool PropStop PropKillProc.
Import ListNotations.
Local Open Scope nat_scope.

(** force_stop() returns, whoever died holding what; then wait() returns without help of
    the others.  It has recorded exactly what was sent up to then and stopped at the marker
    of force_stop(), or, if the streams were over before, at the last end of a stream.
    reset_states() then succeeds (a new queue, a new state that is not closed, the records
    kept) if no process died holding the state lock, otherwise it never returns. *)
Theorem C101_force_stop :
  forall m d work fuel evs ps s dead t t', 1 <= m -> preach m d -> main_closed d = false -> work_ok d work -> fuel_ok d work fuel ->
  krun stay evs ((processes work (S fuel), idle d), []) = Some ((ps, s), dead) -> ~ In (length work) dead ->
  exists lg taken p d1 s2, sent_so_far m d work ps s lg taken /\
    run t (sys_p lp_force_stop) s = (Good tt, mkst d1 (lks s)) /\
    ps !! length work = Some p /\
    run (length work) p (mkst d1 (lks s)) = (Good (Waited (Good tt)), s2) /\
    match wait_cut (inbox d ++ map snd lg) (s_n d) with
    | None => received m d (dat s2) (inbox d ++ map snd lg ++ [QStop]) /\ inbox (dat s2) = []
    | Some (h, r) => received m d (dat s2) h /\ inbox (dat s2) = r ++ [QStop]
    end /\
    (s_n (dat s2) <= 0)%Z /\ lks s2 !! LL = None /\ lks s2 !! CFG = None /\
    match lks s !! STL with
    | None => exists d3, run t' (sys_p lp_reset) s2 = (Good tt, mkst d3 (lks s2)) /\
        s_state d3 = Some false /\ is_closed (mir_at d3 (s_cur d3)) = false /\ held (mir_at d3 (s_cur d3)) = [] /\
        inbox d3 = [] /\ s_main d3 = s_main (dat s2) /\ s_n d3 = s_n (dat s2)
    | Some _ => exists s3, run t' (sys_p lp_reset) s2 = (Block, s3)
    end.
Proof. exact recovery. Qed.
Print Assumptions C101_force_stop.

(** ** Concrete cases *)
(** What the main process does from a state on: force_stop() by thread 5, the rest of
    wait(), reset_states() by thread 5.  Result: did wait() return, did reset_states()
    return (None: it blocks), n_mirrors, the records, what is left in the queue. *)
Definition recover (n : nat) (x : kconfig (C:=scmd) (D:=psys) presult) : bool * bool * Z * list item * list msg :=
  let s := snd (fst x) in
  let s1 := snd (run 5 (sys_p lp_force_stop) s) in
  match nth_error (fst (fst x)) n with
  | Some p =>
      let r := run n p s1 in
      let r' := run 5 (sys_p lp_reset) (snd r) in
      (match fst r with Good _ => true | _ => false end, match fst r' with Good _ => true | _ => false end,
       s_n (dat (snd r)), records (dat (snd r)), inbox (dat (snd r)))
  | None => (false, false, 0%Z, [], [])
  end.
(** Process 0 was killed inside of write() ([cut_evs] of PropKillProc.v, where wait() had
    waited for ever): everything that was sent is recorded.  The same when the main process
    had handled nothing yet.  A process that was killed at its 11th command holds the state
    lock: force_stop() and wait() return, reset_states() never does. *)
Definition early_end := k_at (steps 0 30 ++ [Kill 0] ++ steps 1 71) (processes two_jobs 20, idle two_mirrors).
Definition lock_end := k_at (steps 0 11 ++ [Kill 0] ++ steps 2 1) (processes two_jobs 20, idle two_mirrors).
Definition oops_item : item := match emitted two_mirrors (2, [CClose (Some oops)]) with [QError g] => IMsg g | _ => IStr [] end.
Example C101_case :
  fuel_ok two_mirrors two_jobs 19 /\
  recover 2 cut_end = (true, true, 0%Z, [IStr (txt "a"); IStr (txt "cd"); oops_item], []) /\
  (snd early_end = [0] /\ recover 2 early_end = recover 2 cut_end) /\
  snd lock_end = [0] /\ lks (snd (fst lock_end)) !! STL = Some (Excl 0 1) /\ recover 2 lock_end = (true, false, 0%Z, [], []).
Proof.
  split; [apply Nat.ltb_lt; vm_compute; reflexivity|]. split; [vm_compute; reflexivity|]. split; [split; vm_compute; reflexivity|].
  split; [vm_compute; reflexivity|]. split; vm_compute; reflexivity.
Qed.

(** If the streams were over already (process 0 was killed at the end of its close()), the
    marker of force_stop() stays in the queue: a wait() for other mirrors, without
    reset_states(), would end at it. *)
Theorem C101_queue_empty_refuted :
  exists d work fuel evs ps s d1 x s2, preach 3 d /\ main_closed d = false /\ work_ok d work /\ fuel_ok d work fuel /\
    krun stay evs ((processes work (S fuel), idle d), []) = Some ((ps, s), [0]) /\
    run 5 (sys_p lp_force_stop) s = (Good tt, mkst d1 (lks s)) /\
    ps !! length work = Some (Ret x) /\ run (length work) (Ret x) (mkst d1 (lks s)) = (Good x, s2) /\ inbox (dat s2) = [QStop].
Proof.
  exists two_mirrors, two_jobs, 19, late_evs, (fst (fst late_end)), (snd (fst late_end)).
  exists (dat (snd (run 5 (sys_p lp_force_stop) (snd (fst late_end))))), (Waited (Good tt)).
  exists (mkst (dat (snd (run 5 (sys_p lp_force_stop) (snd (fst late_end))))) (lks (snd (fst late_end)))).
  split; [exact two_mirrors_reach|]. split; [apply two_mirrors_state|]. split; [apply jobs_ok|]. split; [apply C101_case|].
  split; [unfold late_end, k_at; apply k_run; vm_compute; reflexivity|].
  split; [vm_compute; reflexivity|]. split; [vm_compute; reflexivity|]. split; [reflexivity|vm_compute; reflexivity].
Qed.
Print Assumptions C101_queue_empty_refuted.
