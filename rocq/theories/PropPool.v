(** * PropPool: several processes writing to their mirrors while the main process waits
      (C23, C24, C25)

    Only theorem statements and concrete cases; proofs are in ProcPool.v and
    ProcPoolProofs.v, the vocabulary in ProcSpec.v.  [processes work fuel]: thread k makes
    the calls of [work[k]] = (mirror, calls); the last thread is the main process in
    wait().  Every schedule, step by step (a step is one operation on a lock, a queue, the
    shared state or a buffer), is covered. *)
From stdpp Require Import gmap relations.
From Coq Require Import String.
From Coq Require Import List NArith ZArith Bool Arith.
From Verif Require Import Held PyStr Prog PyIO Base Spec LineBuf LineBufSpec Proc ProcSpec ProcRun ProcPoolProofs PropProc.
Import ListNotations.
Local Open Scope nat_scope.

(** ** Concrete case: two mirrors handed out, copied to two processes *)
Definition two_mirrors : psys := after pool2 (lp_fresh 3).
Definition two_jobs : list (nat * list mcall) :=
  [(1, [CWrite (txt "a" ++ lf); CWrite (txt "b"); CNewLine; CWarning oops; CClose None]);
   (2, [CWrite (txt "c"); CWrite (txt "d" ++ lf); CClose (Some oops)])].
Definition mixing_jobs : list (nat * list mcall) :=
  [(1, [CWrite (txt "a" ++ lf ++ txt "b"); CClose None]); (2, [CWrite (txt "c" ++ lf); CClose None])].
Example two_mirrors_reach : preach 3 two_mirrors.
Proof. exists (by0 pool2). hist. Qed.
Example two_mirrors_state : main_closed two_mirrors = false /\ inbox two_mirrors = [] /\ s_n two_mirrors = 2%Z /\
  current two_mirrors = [].
Proof. repeat split; vm_compute; reflexivity. Qed.
Example jobs_ok : work_ok two_mirrors two_jobs /\ fuel_ok two_mirrors two_jobs 20.
Proof.
  split; [split|].
  - repeat constructor; simpl; intuition discriminate.
  - intros w [<-|[<-|[]]]; vm_compute; auto.
  - apply Nat.ltb_lt. vm_compute. reflexivity.
Qed.
Example mixing_ok : work_ok two_mirrors mixing_jobs /\ fuel_ok two_mirrors mixing_jobs 20.
Proof.
  split; [split|].
  - repeat constructor; simpl; intuition discriminate.
  - intros w [<-|[<-|[]]]; vm_compute; auto.
  - apply Nat.ltb_lt. vm_compute. reflexivity.
Qed.

(** ** C23 *)
(** The messages that entered the queue, in order and tagged with their sender ([lg]), are
    for every sender a prefix of what it sends when alone; what the main process has taken
    out and what is still inside make up exactly these messages. *)
Theorem C23_no_message_lost_or_reordered :
  forall m d work fuel sch ps' s',
  1 <= m -> preach m d -> main_closed d = false -> work_ok d work -> fuel_ok d work fuel ->
  sched_run sch (processes work fuel, idle d) = Some (ps', s') ->
  exists lg taken,
    Forall (fun x => fst x < length work) lg /\
    (forall k w, work !! k = Some w -> exists more, emitted d w = events_of k lg ++ more) /\
    inbox d ++ map snd lg = taken ++ inbox (dat s') /\
    (forall k w x, work !! k = Some w -> ps' !! k = Some (Ret x) ->
       x = Produced (fst (alone d w)) /\ events_of k lg = emitted d w /\
       mir_at (dat s') (fst w) = e_mir (dat (snd (alone d w)))) /\
    (forall x, ps' !! length work = Some (Ret x) ->
       x = Waited (Good tt) /\ wait_cut (inbox d ++ map snd lg) (s_n d) = Some (taken, inbox (dat s')) /\
       received m d (dat s') taken).
Proof. exact c23. Qed.
Print Assumptions C23_no_message_lost_or_reordered.
Example C23_case : emitted two_mirrors (1, [CWrite (txt "a" ++ lf); CWrite (txt "b"); CNewLine; CWarning oops; CClose None]) =
  [QStr (txt "a" ++ lf); QStr (txt "b" ++ lf); QWarning (gm_init (GMExc oops)); QClose].
Proof. vm_compute. reflexivity. Qed.

(** ** C25 *)
Theorem C25_wait_returns_after_everything :
  forall m d work fuel, 1 <= m -> preach m d -> main_closed d = false -> work_ok d work -> fuel_ok d work fuel ->
  inbox d = [] -> s_n d = Z.of_nat (length work) -> work <> [] ->
  (forall w, In w work -> ends_once (emitted d w)) ->
  forall sch ps' s' x, sched_run sch (processes work fuel, idle d) = Some (ps', s') ->
  ps' !! length work = Some (Ret x) ->
  x = Waited (Good tt) /\ inbox (dat s') = [] /\ s_n (dat s') = 0%Z /\
  exists lg, order_of (map (emitted d) work) lg /\ received m d (dat s') (map snd lg).
Proof. exact c25_returned. Qed.
Print Assumptions C25_wait_returns_after_everything.

(** An execution that cannot be continued has come to its end: every process has returned
    (so wait() has) and no lock is held. *)
Theorem C25_wait_returns :
  forall m d work fuel, 1 <= m -> preach m d -> main_closed d = false -> work_ok d work -> fuel_ok d work fuel ->
  inbox d = [] -> s_n d = Z.of_nat (length work) -> work <> [] ->
  (forall w, In w work -> ends_once (emitted d w)) ->
  forall sch ps' s', sched_run sch (processes work fuel, idle d) = Some (ps', s') ->
  (forall j, cstep j (ps', s') = None) ->
  Forall (fun p => exists x, p = Ret x) ps' /\ lks s' = stdpp.base.empty.
Proof. exact c25_ends. Qed.
Print Assumptions C25_wait_returns.

(** And no execution goes on for ever. *)
Theorem C25_no_infinite_execution :
  forall work fuel d (f : nat -> config (C:=scmd) (D:=psys) presult),
  f 0 = (processes work fuel, idle d) -> ~ forall n, exists j, cstep j (f n) = Some (f (S n)).
Proof. exact (fun _ _ _ f _ => no_infinite f). Qed.
Print Assumptions C25_no_infinite_execution.

Example C25_case : two_jobs <> [] /\ s_n two_mirrors = Z.of_nat (length two_jobs) /\
  forall w, In w two_jobs -> ends_once (emitted two_mirrors w).
Proof.
  split; [discriminate|]. split; [vm_compute; reflexivity|]. intros w [<-|[<-|[]]].
  - exists [QStr (txt "a" ++ lf); QStr (txt "b" ++ lf); QWarning (gm_init (GMExc oops))], QClose.
    split; [vm_compute; reflexivity|]. split; [repeat constructor|reflexivity].
  - exists [QStr (txt "cd" ++ lf)], (QError (gm_init (GMExc oops))).
    split; [vm_compute; reflexivity|]. split; [repeat constructor|reflexivity].
Qed.

(** ** C24 *)
(** Processes that write texts without an inner unfinished line (no line break at all, or
    ending in one): the records are an interleaving of the items the processes said. *)
Theorem C24_lines_stay_whole :
  forall m d work fuel itemss, 1 <= m -> preach m d -> main_closed d = false ->
  work_ok d work -> fuel_ok d work fuel ->
  inbox d = [] -> s_n d = Z.of_nat (length work) -> work <> [] -> current d = [] ->
  Forall2 (line_process d) work itemss ->
  forall sch ps' s' x, sched_run sch (processes work fuel, idle d) = Some (ps', s') ->
  ps' !! length work = Some (Ret x) ->
  exists li, order_of itemss li /\ records (dat s') = last_items m (records d ++ map snd li) /\ current (dat s') = [].
Proof. exact c24. Qed.
Print Assumptions C24_lines_stay_whole.

(** The two processes of [two_jobs] are such processes. *)
Example C24_case : Forall2 (line_process two_mirrors) two_jobs
  [[IStr (txt "a"); IStr (txt "b"); IMsg (gm_init (GMExc oops))]; [IStr (txt "cd"); IMsg (gm_init (GMExc oops))]].
Proof.
  constructor; [|constructor; [|constructor]].
  - exists [CWrite (txt "a" ++ lf); CWrite (txt "b"); CNewLine; CWarning oops], None.
    split; [reflexivity|]. split; [repeat split; vm_compute; reflexivity|].
    exists (mkslog [IStr (txt "a"); IStr (txt "b"); IMsg (gm_init (GMExc oops))] []), [IStr (txt "a"); IStr (txt "b"); IMsg (gm_init (GMExc oops))], [].
    split; [|split; [apply ln_empty|reflexivity]].
    eapply sa_write with (g1 := mkslog [IStr (txt "a")] []);
      [exists [txt "a"], []; split; [apply seg_by; vm_compute; reflexivity|right; reflexivity]|
       apply (lw_some _ [] [] (txt "a") [] []); apply seg_by; vm_compute; reflexivity|].
    eapply sa_write with (g1 := mkslog [IStr (txt "a")] (txt "b"));
      [exists [], (txt "b"); split; [apply seg_by; vm_compute; reflexivity|left; reflexivity]|
       apply (lw_none _ [IStr (txt "a")] [] (txt "b")); apply seg_by; vm_compute; reflexivity|].
    eapply sa_newline; [apply ln_some; discriminate|].
    eapply sa_warning; [apply ln_empty|]. apply sa_nil.
  - exists [CWrite (txt "c"); CWrite (txt "d" ++ lf)], (Some oops).
    split; [reflexivity|]. split; [repeat split; vm_compute; reflexivity|].
    exists (mkslog [IStr (txt "cd")] []), [IStr (txt "cd")], [].
    split; [|split; [apply ln_empty|reflexivity]].
    eapply sa_write with (g1 := mkslog [] (txt "c"));
      [exists [], (txt "c"); split; [apply seg_by; vm_compute; reflexivity|left; reflexivity]|
       apply (lw_none _ [] [] (txt "c")); apply seg_by; vm_compute; reflexivity|].
    eapply sa_write with (g1 := mkslog [IStr (txt "cd")] []);
      [exists [txt "d"], []; split; [apply seg_by; vm_compute; reflexivity|right; reflexivity]|
       apply (lw_some _ [] (txt "c") (txt "d") [] []); apply seg_by; vm_compute; reflexivity|].
    apply sa_nil.
Qed.

(** Without the condition, a record can mix the text of two processes: 'a\nb' by one and
    'c\n' by the other give a record 'bc'. *)
Theorem C24_records_mix_refuted :
  exists sch ps' s', sched_run sch (processes mixing_jobs 20, idle two_mirrors) = Some (ps', s') /\
  ps' !! length mixing_jobs = Some (Ret (Waited (Good tt))) /\
  records (dat s') = [IStr (txt "a"); IStr (txt "bc")].
Proof. apply (drains_witness [(0, 400); (1, 400); (2, 400)]); vm_compute; reflexivity. Qed.
Print Assumptions C24_records_mix_refuted.
