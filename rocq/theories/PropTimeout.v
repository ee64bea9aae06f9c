(** * PropTimeout: C107, setting the timeout of a mirror while others use it

    [RArgs b o]: a method that sends called queue.put(.., block=b, timeout=o).
    Proofs in TimeoutProofs.v. *)
From stdpp Require Import gmap.
From Coq Require Import List ZArith Bool Arith.
From Verif Require Import Prog ProcSpec Flaky Timeout TimeoutSpec TimeoutProofs.
Import ListNotations.
Local Open Scope nat_scope.

(** One thread: every call sees the timeout that was set last, and a put waits exactly when
    it is None (so the attribute [m_timeout] of Proc.v is right, and C33 holds). *)
Theorem C107_one_thread : forall cs t o k,
  runs t (map t_call cs) (mkst (t_new o) k) = (map Good (answers o cs), mkst (t_new (now o cs)) k).
Proof. exact c107_one_thread. Qed.
Print Assumptions C107_one_thread.

(** If one thread sets the timeout, this is so for its own calls, whatever the others do, and
    the attributes fit together when it has ended. *)
Theorem C107_one_setter : forall o0 css k, (forall t cs o, css !! t = Some cs -> In (TSet o) cs -> t = k) ->
  forall sch ps s rs, sched_run sch (t_pool css, t_start o0) = Some (ps, s) -> ended ps k rs ->
  exists cs, css !! k = Some cs /\ rs = map Good (answers o0 cs) /\ dat s = t_new (now o0 cs).
Proof. exact c107_one_setter. Qed.
Print Assumptions C107_one_setter.

(** Any threads: each of the two arguments is right for some timeout that was set, but not
    always for the same one. *)
Theorem C107_values : forall o0 css sch ps s, sched_run sch (t_pool css, t_start o0) = Some (ps, s) ->
  forall t rs, ended ps t rs ->
  (forall o, In (Good (RTimeout o)) rs -> was_set o0 css o) /\
  (forall b o, In (Good (RArgs b o)) rs -> was_set o0 css o /\ exists o', was_set o0 css o' /\ (b = true <-> o' = None)).
Proof. exact c107_values. Qed.
Print Assumptions C107_values.

(** If there is a timeout at the start and None is never set, no put ever waits. *)
Theorem C107_all_set : forall o0 css sch ps s, o0 <> None -> (forall cs, In cs css -> ~ In (TSet None) cs) ->
  sched_run sch (t_pool css, t_start o0) = Some (ps, s) ->
  forall t rs b o, ended ps t rs -> In (Good (RArgs b o)) rs -> b = false /\ o <> None.
Proof. exact c107_all_set. Qed.
Print Assumptions C107_all_set.
(** If there never is a timeout, every put waits. *)
Theorem C107_none_set : forall css sch ps s, (forall cs z, In cs css -> ~ In (TSet (Some z)) cs) ->
  sched_run sch (t_pool css, t_start None) = Some (ps, s) ->
  forall t rs b o, ended ps t rs -> In (Good (RArgs b o)) rs -> b = true /\ o = None.
Proof. exact c107_none_set. Qed.
Print Assumptions C107_none_set.

(** Refuted: the attributes fit together when no call is going on.  Two threads that set the
    timeout at the same time may leave either mixture behind, for all later calls. *)
Theorem C107_fits_refuted : exists sch sch' ps s ps' s',
  sched_run sch (t_pool [[TSet None]; [TSet (Some 5000%Z)]], t_start None) = Some (ps, s) /\ Forall (fun p => finished p = true) ps /\
  dat s = mktat None false /\ fst (run 0 (t_call TPut) s) = Good (RArgs false None) /\
  sched_run sch' (t_pool [[TSet None]; [TSet (Some 5000%Z)]], t_start None) = Some (ps', s') /\ Forall (fun p => finished p = true) ps' /\
  dat s' = mktat (Some 5000%Z) true /\ fst (run 0 (t_call TPut) s') = Good (RArgs true (Some 5000%Z)).
Proof.
  eexists [1; 0; 0; 1], [0; 1; 1; 0], _, _, _, _. split; [vm_compute; reflexivity|]. split; [repeat constructor|].
  split; [reflexivity|]. split; [reflexivity|]. split; [vm_compute; reflexivity|]. split; [repeat constructor|]. split; reflexivity.
Qed.
Print Assumptions C107_fits_refuted.
(** What the mixtures mean for a full queue: without a timeout the put fails at once although
    it should wait; with one it waits for the timeout as documented (C33: it should not, by
    the code), and with a negative one it raises ValueError. *)
Theorem C107_mixtures : forall f, (0 < f)%Z ->
  std_put false None (Some f) = FullAfter 0 /\
  (forall o, (0 <= o)%Z -> std_put true (Some o) (Some f) = if (f <=? o)%Z then PutAfter f else FullAfter o) /\
  (forall o, (o < 0)%Z -> std_put true (Some o) (Some f) = PutValueError).
Proof.
  intros f Hf. destruct f as [|f|f]; [discriminate| |discriminate]. split; [reflexivity|]. split; intros o Ho; cbn.
  - destruct (Z.ltb_spec o 0); [destruct (Zle_not_lt _ _ Ho); assumption|reflexivity].
  - destruct (Z.ltb_spec o 0) as [|H]; [reflexivity|destruct (Zle_not_lt _ _ H); assumption].
Qed.
Print Assumptions C107_mixtures.

(** Refuted: a put uses a timeout that was set together with the block that belongs to it.
    The setter of another thread is enough. *)
Theorem C107_pair_refuted : exists sch sch' ps s ps' s',
  sched_run sch (t_pool [[TSet (Some 5000%Z)]; [TPut]], t_start None) = Some (ps, s) /\ ended ps 1 [Good (RArgs true (Some 5000%Z))] /\
  sched_run sch' (t_pool [[TSet None]; [TPut]], t_start (Some 5000%Z)) = Some (ps', s') /\ ended ps' 1 [Good (RArgs false None)].
Proof. eexists [0; 1; 1; 0], [0; 1; 1; 0], _, _, _, _. repeat split; vm_compute; reflexivity. Qed.
Print Assumptions C107_pair_refuted.

(** Refuted: a setter that raises sets nothing.  An exception from outside between its two
    stores leaves a mixture. *)
Theorem C107_interrupted_refuted : exists o o' fs, fst (run 0 (flaky_call (t_call (TSet o'))) (mkst (t_new o, fs) ∅)) = Fail KeyboardInterrupt /\
  fst (dat (snd (run 0 (flaky_call (t_call (TSet o'))) (mkst (t_new o, fs) ∅)))) = mktat o' (match o with None => true | Some _ => false end) /\
  ~ fits (mktat o' (match o with None => true | Some _ => false end)).
Proof.
  exists None, (Some 5000%Z), [None; Some KeyboardInterrupt]. split; [reflexivity|]. split; [reflexivity|].
  intros [H _]. discriminate (H eq_refl).
Qed.
Print Assumptions C107_interrupted_refuted.

Example C107_case :
  answers None [TPut; TSet (Some 3%Z); TGet; TPut; TSet None; TPut] =
    [RArgs true None; RNothing; RTimeout (Some 3%Z); RArgs false (Some 3%Z); RNothing; RArgs true None] /\
  (exists sch ps s rs, sched_run sch (t_pool [[TSet None; TSet (Some 3%Z); TPut]; [TGet; TPut]], t_start None) = Some (ps, s) /\
     ended ps 0 rs /\ rs = [Good RNothing; Good RNothing; Good (RArgs false (Some 3%Z))]).
Proof.
  split; [reflexivity|]. eexists [0; 0; 0; 1; 1; 0; 1; 0; 0], _, _, _. split; [vm_compute; reflexivity|]. split; reflexivity.
Qed.
Example C107_case_setter : forall t cs o, [[TSet None; TSet (Some 3%Z); TPut]; [TGet; TPut]] !! t = Some cs -> In (TSet o) cs -> t = 0.
Proof.
  intros [|[|t]] cs o H Hin; [reflexivity| |discriminate]. injection H as <-. destruct Hin as [H|[H|[]]]; discriminate.
Qed.
Example C107_case_all_set : exists sch ps s, Some 1%Z <> None /\ (forall cs, In cs [[TSet (Some 2%Z)]; [TPut]] -> ~ In (TSet None) cs) /\
  sched_run sch (t_pool [[TSet (Some 2%Z)]; [TPut]], t_start (Some 1%Z)) = Some (ps, s) /\ ended ps 1 [Good (RArgs false (Some 2%Z))].
Proof.
  eexists [0; 1; 1; 0], _, _. split; [discriminate|]. split.
  { intros cs [<-|[<-|[]]] H; destruct H as [H|[]]; discriminate. }
  split; vm_compute; reflexivity.
Qed.
