(** * PropWaitStop: force_stop() ends wait() while the other processes go on (C110)

    The pool ([with_wait]) has any number of threads and processes, each with any sequence
    of calls on any mirrors, of force_stop() and of stop_all_mirrors(), and the main process
    in wait().  A process that was killed is one that the schedule does not choose any more
    (its locks stay acquired).  Proofs in WaitStop.v. *)
From stdpp Require Import gmap.
From Coq Require Import String.
From Coq Require Import List NArith ZArith Bool Arith Lia.
From Verif Require Import PyStr Prog PyIO Base Spec LineBuf Proc ProcSpec ProcRun CountSpec PropProc PropPool WaitStopSpec WaitStop.
Import ListNotations.
Local Open Scope nat_scope.

(** At any moment of any interleaving, force_stop() returns at once (it needs no lock), and
    from then on wait() is never blocked and ends after at most [N] steps of the main
    process, whatever the others do or do not do meanwhile.  It ends as if it had gone on
    alone ([s2]): what it records is what had arrived before force_stop(), up to the end of
    the last stream; what arrives later stays in the queue. *)
Theorem C110_force_stop_ends_wait :
  forall m d css fuel sch ps s t, 1 <= m -> preach m d -> main_closed d = false -> Forall (Forall aside) css ->
  sched_run sch (with_wait css fuel, idle d) = Some (ps, s) -> length (inbox d) + length sch < fuel ->
  exists s1 p N s2, run t (s_call (ToMain PForceStop)) s = (Good (FromMain RUnit), s1) /\ lks s1 = lks s /\
    ps !! length css = Some p /\ run (length css) p s1 = (Good (WaitEnds (Good tt)), s2) /\
    (let xs := inbox d ++ arrivals (length css) sch (with_wait css fuel, idle d) in
     match wait_cut xs (s_n d) with
     | None => received m d (dat s2) (xs ++ [QStop]) /\ inbox (dat s2) = []
     | Some (h, rest) => received m d (dat s2) h /\ inbox (dat s2) = rest ++ [QStop]
     end) /\
    forall sch' ps' s', sched_run sch' (ps, s1) = Some (ps', s') ->
      (exists later, ps' !! length css = Some (Ret (WaitEnds (Good tt))) /\
         s_main (dat s') = s_main (dat s2) /\ s_n (dat s') = s_n (dat s2) /\ inbox (dat s') = inbox (dat s2) ++ later) \/
      (count_occ Nat.eq_dec sch' (length css) < N /\ can_step (length css) (ps', s')).
Proof. exact stop_ends_wait. Qed.
Print Assumptions C110_force_stop_ends_wait.

(** ** Concrete case
    Process 0 writes three times and closes, process 1 writes and a thread of the main process
    calls stop_all_mirrors().  force_stop() comes when "a" has arrived and the main process
    holds it.  Then the others make 60 and 24 steps, then the main process 15. *)
Definition talk : list (list scall) :=
  [[ToMirror 1 (CWrite (txt "a" ++ lf)); ToMirror 1 (CWrite (txt "b" ++ lf)); ToMirror 1 (CWrite (txt "c" ++ lf)); ToMirror 1 (CClose None)];
   [ToMirror 2 (CWrite (txt "d" ++ lf)); ToMain PStopAll]].
Definition goes_on (sch : list nat) (c : config (C:=scmd) (D:=psys) wres) : config (C:=scmd) (D:=psys) wres :=
  match sched_run sch c with Some c' => c' | None => ([], idle two_mirrors) end.
Example goes {sch c} : match sched_run sch c with Some _ => true | None => false end = true ->
  sched_run sch c = Some (fst (goes_on sch c), snd (goes_on sch c)).
Proof. unfold goes_on. destruct (sched_run sch c) as [[ps s]|]; [reflexivity|discriminate]. Qed.
Definition talk_mid : config (C:=scmd) (D:=psys) wres := goes_on (repeat 0 30 ++ [2; 2]) (with_wait talk 100, idle two_mirrors).
Definition stop_now (c : config (C:=scmd) (D:=psys) wres) : config (C:=scmd) (D:=psys) wres :=
  (fst c, snd (run 5 (s_call (ToMain PForceStop)) (snd c))).
Definition can_stepb (i : nat) (c : config (C:=scmd) (D:=psys) wres) : bool := match cstep i c with Some _ => true | None => false end.
Definition done_at (i : nat) (c : config (C:=scmd) (D:=psys) wres) : bool :=
  match nth_error (fst c) i with Some (Ret _) => true | _ => false end.
Definition later_sch : list nat := repeat 0 60 ++ repeat 1 24 ++ repeat 2 15.
Example C110_case :
  Forall (Forall aside) talk /\ preach 3 two_mirrors /\ main_closed two_mirrors = false /\
  sched_run (repeat 0 30 ++ [2; 2]) (with_wait talk 100, idle two_mirrors) = Some (fst talk_mid, snd talk_mid) /\
  length (inbox two_mirrors) + length (repeat 0 30 ++ [2; 2]) < 100 /\
  arrivals 2 (repeat 0 30 ++ [2; 2]) (with_wait talk 100, idle two_mirrors) = [QStr (txt "a" ++ lf)] /\
  inbox (dat (snd (stop_now talk_mid))) = [QStop] /\
  (let c := goes_on (removelast later_sch) (stop_now talk_mid) in done_at 2 c = false /\ can_stepb 2 c = true) /\
  (let c := goes_on later_sch (stop_now talk_mid) in done_at 2 c = true /\ done_at 0 c = false /\ done_at 1 c = false /\
     records (dat (snd c)) = [IStr (txt "a")] /\ s_n (dat (snd c)) = 0%Z /\
     inbox (dat (snd c)) = [QStr (txt "b" ++ lf); QStr (txt "c" ++ lf); QStr (txt "d" ++ lf)]).
Proof.
  split; [repeat constructor|]. split; [exact two_mirrors_reach|]. split; [apply two_mirrors_state|].
  split; [apply goes; vm_compute; reflexivity|]. split; [apply Nat.ltb_lt; vm_compute; reflexivity|].
  split; [vm_compute; reflexivity|]. split; [vm_compute; reflexivity|]. split; repeat split; vm_compute; reflexivity.
Qed.

(** [aside] excludes a second receiver: if another thread is inside of receive(), it takes
    the marker of force_stop(), and wait() is blocked for ever. *)
Definition two_receivers : list (list scall) := [[ToMain PReceive]].
Definition recv_mid := goes_on [0] (with_wait two_receivers 100, idle two_mirrors).
Definition recv_end := goes_on [0; 0; 0; 1] (stop_now recv_mid).
Theorem C110_second_receiver_refuted :
  exists d css sch ps s s1 sch' ps' s', preach 3 d /\ main_closed d = false /\
    sched_run sch (with_wait css 100, idle d) = Some (ps, s) /\
    run 5 (s_call (ToMain PForceStop)) s = (Good (FromMain RUnit), s1) /\
    sched_run sch' (ps, s1) = Some (ps', s') /\
    ps' !! 0 = Some (Ret (Answers [Good (FromMain (RBool false))])) /\
    (forall x, ps' !! length css <> Some (Ret x)) /\ forall j c, cstep j (ps', s') <> Some c.
Proof.
  exists two_mirrors, two_receivers, [0], (fst recv_mid), (snd recv_mid), (snd (stop_now recv_mid)), [0; 0; 0; 1], (fst recv_end), (snd recv_end).
  split; [exact two_mirrors_reach|]. split; [apply two_mirrors_state|].
  split; [apply goes; vm_compute; reflexivity|]. split; [vm_compute; reflexivity|]. split; [apply goes; vm_compute; reflexivity|].
  split; [vm_compute; reflexivity|]. split; [intros x; vm_compute; discriminate|].
  intros [|[|j]] c; vm_compute; discriminate.
Qed.
Print Assumptions C110_second_receiver_refuted.
