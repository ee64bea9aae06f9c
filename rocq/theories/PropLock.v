(** * PropLock: threads that share a mirror, and its lazily created lock (C36)

    The witness that the first use of a LineProcMirror by two threads is not safe is in
    PropRace.v.  [has_lock], [never_waits], [one_section], [mir_pool], [mir_hist] are in
    ProcSpec.v, the corresponding words for LineHostMirror in HostLazySpec.v; proofs are in
    MirConc.v and HostLazyConc.v. *)
From stdpp Require Import gmap.
From Coq Require Import String.
From Coq Require Import List NArith ZArith Bool Arith.
From Verif Require Import PyStr Prog PyIO Base Spec Held LineBuf Conc LineBufConcProofs Proc ProcSpec ProcRun MirConc PropProc
  Json Host HostSpec HostCli HostCliSpec HostLazy HostLazySpec HostLazyConc PropHostCli.
Import ListNotations.
Local Open Scope nat_scope.

(** ** C36, LineProcMirror.  The lock exists: whatever the schedule, there is one order of
    the calls that explains all results, the messages in the queue and the held text; at
    every moment the calls completed so far are those of a prefix of that order. *)
Theorem C36_lock_exists :
  forall d0 css sch ps s',
  has_lock d0 -> never_waits d0 -> Forall (Forall (fun c => one_section c = true)) css ->
  sched_run sch (mir_pool css, idle d0) = Some (ps, s') ->
  Forall (fun p => finished p = true) ps ->
  exists order,
    order_of css order /\
    snd (mir_hist order (idle d0)) = s' /\
    (forall i p, nth_error ps i = Some p ->
       p = Ret (events_of i (combine (map fst order) (fst (mir_hist order (idle d0)))))) /\
    (forall sch1 sch2 ps1 s1, sch = sch1 ++ sch2 ->
       sched_run sch1 (mir_pool css, idle d0) = Some (ps1, s1) ->
       exists o1 o2, order = o1 ++ o2 /\
       forall i cs, nth_error css i = Some cs -> exists p rest,
         nth_error ps1 i = Some p /\ cs = events_of i o1 ++ rest /\
         pending lm_call (rev (events_of i (combine (map fst o1) (fst (mir_hist o1 (idle d0)))))) rest p).
Proof. exact c36. Qed.
Print Assumptions C36_lock_exists.

(** Such executions never get stuck and are finite. *)
Theorem C36_progress :
  forall d0 css sch ps s',
  has_lock d0 -> never_waits d0 -> Forall (Forall (fun c => one_section c = true)) css ->
  sched_run sch (mir_pool css, idle d0) = Some (ps, s') ->
  Forall (fun p => finished p = true) ps \/ exists i, cstep i (ps, s') <> None.
Proof. exact c36_progress. Qed.
Print Assumptions C36_progress.
Theorem C36_no_infinite_execution :
  forall css d f, f 0 = (mir_pool css, idle d) -> ~ forall n, exists j, cstep j (f n) = Some (f (S n)).
Proof. exact (fun _ _ f _ => no_infinite f). Qed.
Print Assumptions C36_no_infinite_execution.

(** One call is enough to create the lock. *)
Theorem C36_created :
  forall t c d, one_section c = true -> never_waits d ->
  has_lock (dat (snd (run t (lm_call c) (idle d)))) /\ never_waits (dat (snd (run t (lm_call c) (idle d)))).
Proof. exact c36_created. Qed.
Print Assumptions C36_created.

(** The same threads as in the witness of PropRace.v, after one call of [closed]. *)
Definition mir_used : menv := dat (snd (run 0 (lm_call CClosed) (idle (new_mirror 0 (Some false))))).
Example C36_case : has_lock mir_used /\ never_waits mir_used /\
  (let c := plan [(0, 1); (1, 23); (0, 100); (1, 100); (0, 100)] (mir_pool [[CWrite (txt "a")]; [CWrite (txt "b" ++ lf)]], idle mir_used) in
   fst c = [Ret [Good (MNat 1)]; Ret [Good (MNat 2)]] /\
   held (e_mir (dat (snd c))) = txt "a" /\ e_q (dat (snd c)) = [QStr (txt "b" ++ lf)]).
Proof. split; [eexists; vm_compute; reflexivity|]. split; [left; reflexivity|]. vm_compute. auto. Qed.

(** ** C36, LineHostMirror.  A mirror that was never used, two threads: the text "a" is lost. *)
Definition ML : lmir := mklm 0 false.
Definition unused : lworld := mklw (world1 []) ∅ 0.
Definition two_writes : list (list HostCli.mcall) := [[HWrite (txt "a")]; [HWrite (txt "b" ++ [LF])]].
(** The newest record of the server and the text held by the mirror. *)
Definition newest (w : lworld) : item := last (fst (shown (l_w w))) (IStr []).
Definition still_held (w : lworld) : text := sval (mget 0 (l_w w)).
Theorem C36_host_first_use_is_safe_refuted :
  exists sch s', hl_sched E1 sch (hl_pool ML two_writes, mkst unused ∅) =
    Some ([Ret [Good (CNat 1)]; Ret [Good (CNat 2)]], s') /\
  ((newest (dat s') = IStr (txt "7b") /\ still_held (dat s') = []) /\
   forall order, order_of two_writes order ->
     let w := dat (snd (hl_hist E1 ML order (mkst unused ∅))) in
     newest w = IStr (txt "7b") /\ still_held w = txt "a" \/ newest w = IStr (txt "7ab") /\ still_held w = []).
Proof.
  apply (@plan_witness lcmd lworld _ (lsem E1) [(0, 1); (1, 20); (0, 100); (1, 100)] _ _
    (fun d => (newest d = IStr (txt "7b") /\ still_held d = []) /\
      forall order, order_of two_writes order ->
        let w := dat (snd (hl_hist E1 ML order (mkst unused ∅))) in
        newest w = IStr (txt "7b") /\ still_held w = txt "a" \/ newest w = IStr (txt "7ab") /\ still_held w = []));
    [vm_compute; reflexivity|].
  split; [vm_compute; split; reflexivity|].
  intros order H. destruct (order_two _ _ order H) as [-> | ->]; vm_compute; auto.
Qed.
Print Assumptions C36_host_first_use_is_safe_refuted.

(** The lock exists: as for LineProcMirror, whatever happens to the requests. *)
Theorem C36_host_lock_exists :
  forall E M w0 css sch ps s',
  hl_has_lock M w0 -> hl_there M w0 -> Forall (Forall (fun c => h_one_section c = true)) css ->
  hl_sched E sch (hl_pool M css, mkst w0 ∅) = Some (ps, s') ->
  Forall (fun p => finished p = true) ps ->
  exists order,
    order_of css order /\
    snd (hl_hist E M order (mkst w0 ∅)) = s' /\
    (forall i p, nth_error ps i = Some p ->
       p = Ret (events_of i (combine (map fst order) (fst (hl_hist E M order (mkst w0 ∅)))))) /\
    (forall sch1 sch2 ps1 s1, sch = sch1 ++ sch2 ->
       hl_sched E sch1 (hl_pool M css, mkst w0 ∅) = Some (ps1, s1) ->
       exists o1 o2, order = o1 ++ o2 /\
       forall i cs, nth_error css i = Some cs -> exists p rest,
         nth_error ps1 i = Some p /\ cs = events_of i o1 ++ rest /\
         pending (hl_call M) (rev (events_of i (combine (map fst o1) (fst (hl_hist E M o1 (mkst w0 ∅)))))) rest p).
Proof. exact hl_order. Qed.
Print Assumptions C36_host_lock_exists.
Theorem C36_host_progress :
  forall E M w0 css sch ps s',
  hl_has_lock M w0 -> hl_there M w0 -> Forall (Forall (fun c => h_one_section c = true)) css ->
  hl_sched E sch (hl_pool M css, mkst w0 ∅) = Some (ps, s') ->
  Forall (fun p => finished p = true) ps \/ exists i, hl_sched E [i] (ps, s') <> None.
Proof. exact hl_progress. Qed.
Print Assumptions C36_host_progress.
Theorem C36_host_created :
  forall E M t c w, h_one_section c = true -> hl_there M w ->
  hl_has_lock M (dat (snd (hl_run E t M c (mkst w ∅)))) /\ hl_there M (dat (snd (hl_run E t M c (mkst w ∅)))).
Proof. exact hl_created. Qed.
Print Assumptions C36_host_created.

(** As long as the calls do not overlap, a mirror does what a mirror with a lock made at its
    creation would do (the mirror of C48-C55). *)
Theorem C36_host_alone :
  forall E M l, reent l = true -> forall h w ref cnt,
  fst (hl_hist E M h (mkst (mklw w ref cnt) ∅)) = fst (ev_hist E (map (fun e => Cli (fst e) (OnMir (with_given M l) (snd e))) h) (mkst w ∅)) /\
  exists w' ref' cnt',
    snd (hl_hist E M h (mkst (mklw w ref cnt) ∅)) = mkst (mklw w' ref' cnt') ∅ /\
    snd (ev_hist E (map (fun e => Cli (fst e) (OnMir (with_given M l) (snd e))) h) (mkst w ∅)) = mkst w' ∅.
Proof. exact hl_alone. Qed.
Print Assumptions C36_host_alone.

Definition used : lworld := dat (snd (hl_run E1 0 ML HClosed (mkst unused ∅))).
Example C36_host_case : hl_has_lock ML used /\ hl_there ML used /\
  (let c := @plan lcmd lworld _ (lsem E1) [(0, 1); (1, 20); (0, 100); (1, 100); (0, 100)] (hl_pool ML two_writes, mkst used ∅) in
   fst c = [Ret [Good (CNat 1)]; Ret [Good (CNat 2)]] /\ newest (dat (snd c)) = IStr (txt "7b") /\ still_held (dat (snd c)) = txt "a").
Proof. split; [eexists; vm_compute; reflexivity|]. split; [eexists; vm_compute; reflexivity|]. vm_compute. auto. Qed.
Example C36_host_alone_case :
  fst (hl_hist E1 ML [(0, HWrite (txt "a")); (1, HClose None); (2, HWrite (txt "b"))] (mkst unused ∅)) =
  [Good (CNat 1); Good CUnit; Fail OSError].
Proof. vm_compute. reflexivity. Qed.
