(** * PropKillProc: killed processes that use the mirrors of one LineProcBuffer (C99)

    [processes work fuel] as in PropPool.v: process [k] makes the calls [work[k]] on its own
    mirror, process [length work] is the main process in wait().  [krun stay evs]: single
    commands of a process, or its death ([Process.kill()]) between any two of its commands;
    the locks of a dead process stay acquired (manager locks and locks of its own memory).
    [dead]: the killed processes.  A request to the manager process is one command, it is
    not cut by the death of the process that made it.  Vocabulary in KillProcSpec.v, proofs in KillProc.v. *)
From stdpp Require Import gmap.
From Coq Require Import String.
From Coq Require Import List NArith ZArith Bool Arith Lia.
From Verif Require Import PyStr Prog PyIO Base Spec LineBuf Proc ProcSpec ProcRun CountSpec Kill KillProcSpec KillProc PropProc PropPool PropStop.
Import ListNotations.
Local Open Scope nat_scope.

(** Whoever is killed whenever: nothing of what was sent is lost or changed, each process
    sent a beginning of its messages, all of them if it is finished.  From a killed process
    nothing more comes; the main process handles what there is. *)
Theorem C99_messages :
  forall m d work fuel evs ps s dead,
  1 <= m -> preach m d -> main_closed d = false -> work_ok d work -> fuel_ok d work fuel ->
  krun stay evs ((processes work fuel, idle d), []) = Some ((ps, s), dead) ->
  exists lg taken, sent_so_far m d work ps s lg taken /\
    (~ In (length work) dead -> wait_cut (inbox d ++ map snd lg) (s_n d) <> None -> main_goes_on work ps s) /\
    forall evs' ps' s' dead', krun stay evs' ((ps, s), dead) = Some ((ps', s'), dead') ->
    exists more taken', sent_so_far m d work ps' s' (lg ++ more) taken' /\ forall k, In k dead -> events_of k more = [].
Proof. intros m d work fuel evs ps s dead H1 H2 H3 H4 H5 H6. exact (killed_messages m d work fuel H1 H2 H3 H4 H5 evs ps s dead H6). Qed.
Print Assumptions C99_messages.

(** If no process was killed while it held the state lock, the others finish their work. *)
Theorem C99_progress :
  forall m d work fuel evs ps s dead,
  1 <= m -> preach m d -> main_closed d = false -> work_ok d work -> fuel_ok d work fuel ->
  krun stay evs ((processes work fuel, idle d), []) = Some ((ps, s), dead) ->
  (forall k, In k dead -> ~ holds k STL (lks s)) ->
  (forall k w, work !! k = Some w -> ~ In k dead -> exists x, ps !! k = Some (Ret x)) \/
  exists j c, ~ In j dead /\ cstep j (ps, s) = Some c.
Proof. intros m d work fuel evs ps s dead H1 H2 H3 H4 H5 H6. exact (killed_progress m d work fuel H1 H2 H3 H4 H5 evs ps s dead H6). Qed.
Print Assumptions C99_progress.

(** wait(), if each process ends its stream once.  If a process was killed before it had
    sent everything, then wait() returns in no continuation.  If the killed processes had
    sent everything and did not hold the state lock, then it returns: in every continuation
    that no process that lives can continue, it has. *)
Theorem C99_wait :
  forall m d work fuel evs ps s dead,
  1 <= m -> preach m d -> main_closed d = false -> work_ok d work -> fuel_ok d work fuel ->
  krun stay evs ((processes work fuel, idle d), []) = Some ((ps, s), dead) ->
  inbox d = [] -> s_n d = Z.of_nat (length work) -> work <> [] ->
  (forall w, In w work -> ends_once (emitted d w)) ->
  exists lg taken, sent_so_far m d work ps s lg taken /\
    (forall k w, In k dead -> work !! k = Some w -> events_of k lg <> emitted d w ->
       forall evs' ps' s' dead' x, krun stay evs' ((ps, s), dead) = Some ((ps', s'), dead') -> ps' !! length work <> Some (Ret x)) /\
    ((forall k, In k dead -> ~ holds k STL (lks s) /\ exists w, work !! k = Some w /\ events_of k lg = emitted d w) ->
       forall sch ps' s', sched_run sch (ps, s) = Some (ps', s') -> (forall k, In k sch -> ~ In k dead) ->
       (forall j c, ~ In j dead -> cstep j (ps', s') <> Some c) ->
       ps' !! length work = Some (Ret (Waited (Good tt))) /\ s_n (dat s') = 0%Z /\ inbox (dat s') = []).
Proof.
  intros m d work fuel evs ps s dead H1 H2 H3 H4 H5 H6 H7 H8 H9 H10.
  exact (killed_wait m d work fuel H1 H2 H3 H4 H5 evs ps s dead H6 H7 H8 H9 H10).
Qed.
Print Assumptions C99_wait.

(** A process that is killed while it holds the state lock: nobody acquires the lock any
    more, and whatever is done later, by the main process ([ToMain]) or any other, no
    write() of a mirror, no stop_all_mirrors() and no reset_states() succeeds again: it
    raises, or it never returns. *)
Theorem C99_state_lock :
  forall css1 css2 d0 evs1 ps s dead k n evs2 ps' s' dead',
  (forall m, In m (s_mirs d0) -> m_has m = true) ->
  krun stay evs1 ((sys_pool css1, mkst d0 ∅), []) = Some ((ps, s), dead) ->
  In k dead -> lks s !! STL = Some (Excl k n) ->
  krun stay evs2 ((ps ++ sys_pool css2, s), dead) = Some ((ps', s'), dead') ->
  lks s' !! STL = Some (Excl k n) /\
  forall i cs rs j c, css2 !! i = Some cs -> ps' !! (length css1 + i) = Some (Ret rs) ->
    cs !! j = Some c -> locks_state c = true -> exists e, rs !! j = Some (Fail e).
Proof. exact state_lock. Qed.
Print Assumptions C99_state_lock.

(** ** Concrete cases *)
(** [n] commands of process [t]. *)
Definition steps (t n : nat) : list event := repeat (Step t) n.
(** State at the end of a run, and the processes that can go on. *)
Definition k_from {A} (evs : list event) (x : kconfig (C:=scmd) (D:=psys) A) : kconfig (C:=scmd) (D:=psys) A :=
  match krun stay evs x with Some r => r | None => x end.
Definition k_at {A} (evs : list event) (c : config (C:=scmd) (D:=psys) A) : kconfig (C:=scmd) (D:=psys) A := k_from evs (c, []).
Example k_run {A} evs (x : kconfig (C:=scmd) (D:=psys) A) dead :
  match krun stay evs x with Some _ => true | None => false end = true -> snd (k_from evs x) = dead ->
  krun stay evs x = Some ((fst (fst (k_from evs x)), snd (fst (k_from evs x))), dead).
Proof. unfold k_from. destruct (krun stay evs x) as [[[ps s] dd]|]; [|discriminate]. simpl. intros _ ->. reflexivity. Qed.
Definition can_go {A} (r : kconfig (C:=scmd) (D:=psys) A) : list nat :=
  List.filter (fun t => negb (existsb (Nat.eqb t) (snd r)) && match cstep t (fst r) with Some _ => true | None => false end)
    (seq 0 (length (fst (fst r)))).

(** Process 0 is killed after it sent its first line, inside of write(): the RLock of its
    mirror stays acquired; process 1 finishes, the main process handles what is there and
    then waits for ever. *)
Definition cut_evs : list event := steps 0 30 ++ [Kill 0] ++ steps 1 71 ++ steps 2 34.
Definition cut_end := k_at cut_evs (processes two_jobs 20, idle two_mirrors).
Theorem C99_wait_returns_refuted :
  exists d work fuel evs ps s, preach 3 d /\ main_closed d = false /\ work_ok d work /\ fuel_ok d work fuel /\
    inbox d = [] /\ s_n d = Z.of_nat (length work) /\ (forall w, In w work -> ends_once (emitted d w)) /\
    krun stay evs ((processes work fuel, idle d), []) = Some ((ps, s), [0]) /\
    (forall k w, work !! k = Some w -> k <> 0 -> exists x, ps !! k = Some (Ret x)) /\
    ~ holds 0 STL (lks s) /\ inbox (dat s) = [] /\ s_n (dat s) = 1%Z /\
    (forall x, ps !! length work <> Some (Ret x)) /\ forall j c, j <> 0 -> cstep j (ps, s) <> Some c.
Proof.
  exists two_mirrors, two_jobs, 20, cut_evs, (fst (fst cut_end)), (snd (fst cut_end)).
  split; [exact two_mirrors_reach|]. split; [apply two_mirrors_state|]. split; [apply jobs_ok|]. split; [apply jobs_ok|].
  split; [apply two_mirrors_state|]. split; [apply C25_case|]. split; [apply C25_case|].
  split; [unfold cut_end, k_at; apply k_run; vm_compute; reflexivity|]. split.
  { intros [|[|k]] w Hw Hk; [congruence| |discriminate]. eexists. vm_compute. reflexivity. }
  split; [vm_compute; auto|]. split; [vm_compute; reflexivity|]. split; [vm_compute; reflexivity|].
  split; [intros x; vm_compute; discriminate|].
  intros [|[|[|j]]] c Hj; [congruence|vm_compute; discriminate..].
Qed.
Print Assumptions C99_wait_returns_refuted.

(** Process 0 is killed at the end of close(), when it had sent everything and still has
    the RLock of its mirror: wait() returns. *)
Definition late_evs : list event := steps 0 104 ++ [Kill 0] ++ steps 1 71 ++ steps 2 56.
Definition late_end := k_at late_evs (processes two_jobs 20, idle two_mirrors).
Example C99_case :
  (snd cut_end = [0] /\ map (fun l => lks (snd (fst cut_end)) !! l) [STL; 9] = [None; Some (Excl 0 1)] /\ can_go cut_end = [] /\
   events_of 0 [(0, QStr (txt "a" ++ lf))] <> emitted two_mirrors (nth 0 two_jobs (0, []))) /\
  can_go late_end = [] /\
  snd late_end = [0] /\ map (fun l => lks (snd (fst late_end)) !! l) [STL; 9] = [None; Some (Excl 0 1)] /\
  nth_error (fst (fst late_end)) 2 = Some (Ret (Waited (Good tt))) /\ s_n (dat (snd (fst late_end))) = 0%Z.
Proof.
  split; [split; [vm_compute; reflexivity|split; [vm_compute; reflexivity|split; [vm_compute; reflexivity|vm_compute; discriminate]]]|].
  split; [vm_compute; reflexivity|]. split; [vm_compute; reflexivity|]. split; [vm_compute; reflexivity|]. split; vm_compute; reflexivity.
Qed.

(** What the documentation of force_stop() recommends when the processes are killed
    (mproc.py:871-889): force_stop(), wait() and, to use the buffer again, reset_states().
    The process was killed in write() while it looked at the state: force_stop() and
    wait() return, reset_states() never does. *)
Definition reused : list (list scall) := [[ToMain PForceStop; ToMain (PWait 5); ToMain PReset]].
Definition writer : list (list scall) := [[ToMirror 1 (CWrite (txt "a" ++ lf))]].
Definition at_kill := k_at (steps 0 10 ++ [Kill 0]) (sys_pool writer, idle working).
Definition at_reset := k_from (steps 1 6) ((fst (fst at_kill) ++ sys_pool reused, snd (fst at_kill)), [0]).
Theorem C99_reset_refuted :
  exists d evs1 ps s evs2 ps' s', preach 3 d /\ (forall m, In m (s_mirs d) -> m_has m = true) /\
    krun stay evs1 ((sys_pool writer, idle d), []) = Some ((ps, s), [0]) /\
    krun stay evs2 ((ps ++ sys_pool reused, s), [0]) = Some ((ps', s'), [0]) /\
    s_n (dat s') = 0%Z /\ inbox (dat s') = [] /\
    (forall x, ps' !! 1 <> Some (Ret x)) /\
    forall j c, j <> 0 -> cstep j (ps', s') <> Some c.
Proof.
  exists working, (steps 0 10 ++ [Kill 0]), (fst (fst at_kill)), (snd (fst at_kill)), (steps 1 6).
  exists (fst (fst at_reset)), (snd (fst at_reset)).
  split; [apply C82_case|]. split; [intros m Hm; apply (in_map m_has) in Hm; rewrite (proj1 (proj2 C82_case)) in Hm; simpl in Hm; intuition|].
  split; [unfold at_kill, k_at; apply k_run; vm_compute; reflexivity|]. split; [unfold at_reset; apply k_run; vm_compute; reflexivity|].
  split; [vm_compute; reflexivity|]. split; [vm_compute; reflexivity|]. split; [intros x; vm_compute; discriminate|].
  intros [|[|j]] c Hj; [congruence|vm_compute; discriminate..].
Qed.
Print Assumptions C99_reset_refuted.
Example C99_case_lock : lks (snd (fst at_kill)) !! STL = Some (Excl 0 1) /\ snd at_kill = [0].
Proof. split; vm_compute; reflexivity. Qed.
