(** * HostCliFlag: clients do not touch the stop signal (C52) *)
From stdpp Require Import gmap.
From Coq Require Import String.
From Coq Require Import List NArith ZArith Bool Arith Lia.
From Verif Require Import PyStr Strip Prog ProgFacts PyIO Base Spec LineBuf
  Locks Atomic Serial Json Host HostSpec HostFacts HostProofs HostCli HostCliSpec HostCliFacts HostCliProofs.
Import ListNotations.
Local Open Scope prog_scope.
Local Open Scope nat_scope.

(** All requests of a program satisfy [P]. *)
Fixpoint reqs (P : request -> Prop) {A} (p : prog ccmd A) : Prop :=
  match p with
  | Ret _ | Raise _ => True
  | Act c k h => match c with Op (CReq r) => P r | _ => True end /\ (forall x, reqs P (k x)) /\ (forall e, reqs P (h e))
  end.
Section Reqs.
  Variable P : request -> Prop.
  Lemma rq_bind {A B} (p : prog ccmd A) (k : A -> prog ccmd B) : reqs P p -> (forall a, reqs P (k a)) -> reqs P (bind p k).
  Proof.
    induction p as [a|e|X c k' IHk h IHh]; intros H Hk; cbn [bind]; [apply Hk|exact I|].
    destruct H as (H1 & H2 & H3). split; [exact H1|]. split; intros; auto.
  Qed.
  Lemma rq_op {X} (c : ccmd X) : match c with CReq r => P r | _ => True end -> reqs P (cop c).
  Proof. intros H. split; [exact H|]. split; intros; exact I. Qed.
  Lemma rq_try {A} (p : prog ccmd A) l : reqs P p -> reqs P (try_finally p (release l)).
  Proof.
    induction p as [a|e|X c k' IHk h IHh]; intros H; cbn [try_finally].
    - cbn. auto.
    - cbn. auto.
    - destruct H as (H1 & H2 & H3). split; [exact H1|]. split; intros; auto.
  Qed.
  Lemma rq_with {A} l mo (p : prog ccmd A) : reqs P p -> reqs P (with_lock l mo p).
  Proof. intros H. cbn [with_lock reqs]. split; [exact I|]. split; [intros; apply rq_try, H|intros; exact I]. Qed.
  Lemma rq_then {A} r (f : option json -> prog ccmd A) : P r -> (forall b, reqs P (f b)) -> reqs P (request_then r f).
  Proof.
    intros Hr Hf. unfold request_then. apply rq_bind; [apply rq_op, Hr|]. intros a. destruct (fst a <? 400); [apply Hf|].
    unfold raise_answer, json_load. destruct (snd a) as [[]|]; exact I.
  Qed.
  Lemma rq_attempt {A} (p : prog ccmd A) : reqs P p -> reqs P (attempt p).
  Proof.
    induction p as [a|e|X c k' IHk h IHh]; intros H; cbn [attempt]; [exact I|exact I|].
    destruct H as (H1 & H2 & H3). split; [exact H1|]. split; intros; auto.
  Qed.
  Lemma rq_thread ps : Forall (reqs P) ps -> forall rs, reqs P (@thread_from ccmd cres rs ps).
  Proof.
    induction 1 as [|p ps Hp _ IH]; intros rs; cbn [thread_from]; [exact I|].
    apply rq_bind; [apply rq_attempt, Hp|]. intros a. apply IH.
  Qed.

  Variable M : hmir.
  Hypothesis Hpost : forall b, P (PostMsg b).
  Hypothesis Hget : forall n, P (GetState n).
  Ltac rq := repeat first
    [ exact I
    | apply rq_op; first [exact I|apply Hpost|apply Hget]
    | apply rq_with
    | apply rq_then; [first [apply Hpost|apply Hget]|intros ?]
    | apply rq_bind; [|intros ?]
    | match goal with
      | |- reqs _ (if ?b then _ else _) => destruct b
      | |- reqs _ (match ?b with _ => _ end) => destruct b
      | |- reqs _ (json_load ?b) => destruct b
      | |- reqs _ (the_dict ?b) => destruct b
      | |- reqs _ (index _ ?b) => destruct b; cbn [index]
      | |- reqs _ (of_out' ?o) => destruct o
      end ].
  Lemma rq_m_call c : reqs P (m_call M c).
  Proof.
    assert (Hd : forall data, reqs P (hm_send_data M data)) by (intros data; unfold hm_send_data; rq).
    assert (Hk : reqs P (hm_check_states M)) by (unfold hm_check_states; rq).
    assert (Hw : forall ck data, reqs P (hm_write_body M ck data)).
    { intros ck data. unfold hm_write_body. apply rq_bind; [destruct ck; [exact Hk|exact I]|]. intros _. cbv zeta.
      destruct (hm_aggr M); [apply rq_bind; [apply Hd|intros; exact I]|].
      destruct (_ || _)%bool; [|rq]. apply rq_bind; [rq|]. intros res. apply rq_bind; [rq|]. intros v.
      apply rq_bind; [apply Hd|]. intros _. rq. }
    assert (Hn : forall ck, reqs P (hm_new_line M ck)).
    { intros ck. unfold hm_new_line. apply rq_with. apply rq_bind; [rq|]. intros n. destruct (0 <? n)%nat; [|exact I].
      apply rq_bind; [apply Hw|intros; exact I]. }
    assert (He : reqs P (hm_send_eof M)).
    { unfold hm_send_eof. apply rq_bind; [rq|]. intros [|]; [exact I|]. apply rq_bind; [apply Hn|]. intros _. rq. }
    assert (Hr : forall e, reqs P (hm_send_error M e)).
    { intros e. unfold hm_send_error. apply rq_bind; [rq|]. intros [|]; [exact I|]. apply rq_bind; [apply Hn|]. intros _. rq. }
    assert (Hg : forall e, reqs P (hm_send_warning M e)).
    { intros e. unfold hm_send_warning. apply rq_bind; [rq|]. intros [|]; [exact I|]. apply rq_bind; [apply Hn|]. intros _. rq. }
    destruct c; cbn [m_call]; unfold as_cres; (apply rq_bind; [|intros; exact I]); auto;
      try solve [unfold hm_clear, hm_flush, hm_read, hm_readable, hm_closed, hm_writable, hm_fileno, hm_seek, hm_isatty, hm_seekable; rq].
    - unfold hm_write. apply rq_bind; [unfold hm_writable; rq|]. intros [|]; [|exact I]. cbn [negb]. apply rq_with, Hw.
    - unfold hm_close. apply rq_bind; [rq|]. intros [|]; [exact I|]. apply rq_bind; [destruct exc; auto|]. intros _.
      unfold hm_clear. rq.
  Qed.
  Lemma rq_r_call c : (forall n, P (GetMsg n)) -> P DelMsg -> (c = RdStop -> P (PostState (BJson (JObj [(k_state, JStr k_closed); (k_value, JStr (txt "true"))])))) ->
    c <> RdReset -> reqs P (r_call c).
  Proof.
    intros H1 H2 H3 H4.
    assert (Hd : forall r, P r -> reqs P (as_cres CBool (rd_done r))) by (intros r Hr; unfold as_cres, rd_done; apply rq_bind; [apply rq_then; [exact Hr|intros ?; rq]|intros ?; rq]).
    assert (Hs : forall name g, reqs P (as_cres g (rd_get_states name))) by (intros name g; unfold as_cres, rd_get_states; rq).
    destruct c; cbn [r_call]; auto.
    - unfold as_cres, rd_read. apply rq_bind; [|intros ?; rq]. apply rq_then; [apply H1|intros ?; rq].
    - apply Hd, H2.
    - congruence.
    - apply Hd, H3. reflexivity.
  Qed.
End Reqs.

Lemma fold_h_call E r d : snd (srun (h_call E (HReq r)) d) = snd (srun (handle E r) d).
Proof. cbn [h_call]. rewrite srun_bind. destruct (srun (handle E r) d) as [[]]; reflexivity. Qed.
Lemma flag_srv E c d : flag_step E c true true -> stop_flag E d true -> stop_flag E (snd (srun (h_call E c) d)) true.
Proof.
  intros Hf Hs. apply stop_flag_iff in Hs. apply stop_flag_iff.
  assert (Hst : exists mx, states true mx (h_state d)).
  { unfold states. destruct (jget k_maxlen (h_state d)) as [v|]; [exists v|exists JNull]; auto. }
  destruct Hst as [mx Hst]. apply (flag_call E c true true mx d Hf Hst).
Qed.

Section Env.
  Variable E : henv.
  #[local] Hint Extern 0 (Sem ccmd world) => exact (clisem E) : typeclass_instances.
  Definition flag_kept (r : request) : Prop := flag_step E (HReq (wire_req r)) true true.
  Notation fl w := (stop_flag E (w_srv w) true).

  Lemma serve_keeps r d : flag_kept r -> stop_flag E d true -> stop_flag E (snd (serve E r d)) true.
  Proof.
    intros Hr Hs. pose proof (flag_srv E _ d Hr Hs) as H. rewrite fold_h_call in H. unfold serve.
    destruct (srun (handle E (wire_req r)) d). exact H.
  Qed.
  Lemma cliexec_keeps {X} (c : ccmd X) w : match c with CReq r => flag_kept r | _ => True end -> fl w -> fl (snd (cliexec E c w)).
  Proof.
    intros Hr Hs.
    assert (Hm : forall Y j (f : sio -> outcome Y * sio), w_srv (snd (on_mir j f w)) = w_srv w).
    { intros Y j f. unfold on_mir. destruct (f (mget j w)). reflexivity. }
    destruct c as [j|j|j|j s|j|j|j|j|r]; cbn [cliexec]; try (rewrite Hm; exact Hs).
    pose proof (serve_keeps r (w_srv w) Hr Hs) as H. unfold creq. destruct (w_faults w) as [|[|code b| |] fs]; cbn [snd w_srv]; try exact Hs.
    - destruct (serve E r (w_srv w)). exact H.
    - destruct (serve E r (w_srv w)). exact H.
    - exact H.
  Qed.
  Lemma exec_keeps {X} t (c : cmd ccmd X) s : match c with Op (CReq r) => flag_kept r | _ => True end -> fl (dat s) -> fl (dat (snd (exec t c s))).
  Proof.
    intros Hr Hs. destruct c as [l mo|l|X c]; cbn [exec].
    - destruct (lock_acq _ _ _ _ _). exact Hs.
    - destruct (lock_rel _ _ _). exact Hs.
    - pose proof (cliexec_keeps c (dat s) Hr Hs) as H. change (cexec c (dat s)) with (cliexec E c (dat s)).
      destruct (cliexec E c (dat s)). exact H.
  Qed.
  Lemma run_keeps {A} t (p : prog ccmd A) : forall s, reqs flag_kept p -> fl (dat s) -> fl (dat (snd (run t p s))).
  Proof.
    induction p as [a|e|X c k IHk h IHh]; intros s H Hs; [exact Hs|exact Hs|]. destruct H as (H1 & H2 & H3). cbn [run].
    pose proof (exec_keeps t c s H1 Hs) as H. destruct (exec t c s) as [[x|e|] s1]; cbn [snd] in *; auto.
  Qed.
  Lemma pool_keeps {A} sch : forall (ps : list (prog ccmd A)) s ps' s', Forall (reqs flag_kept) ps -> fl (dat s) ->
    sched_run sch (ps, s) = Some (ps', s') -> fl (dat s').
  Proof.
    induction sch as [|i sch IH]; intros ps s ps' s' Hp Hs Hr; cbn in Hr; [injection Hr as <- <-; exact Hs|].
    destruct (cstep i (ps, s)) as [[ps1 s1]|] eqn:Ec; [|discriminate]. unfold cstep in Ec. cbn [fst snd] in Ec.
    destruct (ps !! i) as [p|] eqn:Ei; [|discriminate].
    assert (Hpi : reqs flag_kept p) by (eapply (proj1 (List.Forall_forall _ _) Hp), elem_of_list_In, elem_of_list_lookup_2, Ei).
    destruct p as [a|e|X c k h]; try discriminate. destruct Hpi as (H1 & H2 & H3). cbn [pstep] in Ec.
    pose proof (exec_keeps i c s H1 Hs) as H. destruct (exec i c s) as [[x|e|] s2]; try discriminate; injection Ec as <- <-;
      (eapply IH; [|exact H|exact Hr]); apply Forall_insert; auto.
  Qed.

  Lemma keeps_mir M c : reqs flag_kept (m_call M c).
  Proof. apply rq_m_call; intros; apply fs_keep; exact I. Qed.
  Lemma keeps_rd c : c <> RdReset -> reqs flag_kept (r_call c).
  Proof.
    intros H. apply rq_r_call; try (intros; apply fs_keep; exact I); try exact H. intros _. apply fs_set.
    - exists (JStr (txt "closed")). split; [apply field_jget; reflexivity|apply strip_iff; reflexivity].
    - exists (JStr (txt "true")). split; [apply field_jget; reflexivity|]. exists [], (txt "true"), []. split; [reflexivity|]. split; [constructor|].
      repeat constructor; left; reflexivity.
  Qed.
  Lemma ev_keeps h : forall s, Forall (keeps_stop E) h -> fl (dat s) -> fl (dat (snd (ev_hist E h s))).
  Proof.
    induction h as [|e h IH]; intros s Hh Hs; [exact Hs|]. inversion Hh as [|? ? He Hh']; subst. cbn [ev_hist].
    assert (H : fl (dat (snd (ev_run E e s)))).
    { destruct e as [t [M c|c]|c]; cbn [ev_run c_call].
      - apply run_keeps; [apply keeps_mir|exact Hs].
      - apply run_keeps; [apply keeps_rd, He|exact Hs].
      - cbn [snd dat w_srv]. apply flag_srv; [exact He|exact Hs]. }
    destruct (ev_run E e s) as [r s1]. specialize (IH s1 Hh' H). destruct (ev_hist E h s1). exact IH.
  Qed.
  Lemma clients_keep_stop css sch w ps' s' : Forall (Forall (fun c => c <> OnRd RdReset)) css -> fl w ->
    sched_run sch (map (fun cs => thread (map c_call cs)) css, mkst w ∅) = Some (ps', s') -> fl (dat s').
  Proof.
    intros Hc Hs Hr. refine (pool_keeps sch _ (mkst w ∅) ps' s' _ Hs Hr). apply List.Forall_map. eapply List.Forall_impl; [|exact Hc].
    intros cs Hcs. apply rq_thread, List.Forall_map. eapply List.Forall_impl; [|exact Hcs]. intros c Hn.
    destruct c as [M c|c]; [apply keeps_mir|apply keeps_rd; congruence].
  Qed.
End Env.
