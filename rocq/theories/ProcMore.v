(** * ProcMore: further sequential facts of process mode (C09, C14, C34, C66 - C68) *)
From stdpp Require Import gmap relations.
From Coq Require Import List NArith ZArith Bool Arith Lia.
From Verif Require Import PyStr Prog ProgFacts PyIO Base Spec SpecFacts LineBuf LineBufSpec LineBufFacts LineBufProofs Locks Held Proc ProcSpec ProcFacts ProcMain ProcSeq ProcHist ProcProofs ProcSysProofs.
Import ListNotations.
Local Open Scope nat_scope.

(** ** C66: aggressive mode switched on while text is held *)
Lemma c66_close d t exc : mreach d -> is_closed (e_mir d) = false -> stop_seen d = false ->
  m_aggr (e_mir d) = true -> held (e_mir d) <> [] ->
  e_qmax d = 0 \/ length (e_q d) + 2 <= e_qmax d ->
  exists d', run t (lm_close exc) (idle d) = (Good tt, idle d') /\
    e_q d' = e_q d ++ [QStr [10%N]; match exc with None => QClose | Some e => QError (gm_init (GMExc e)) end] /\
    is_closed (e_mir d') = true /\ held (e_mir d') = [].
Proof.
  intros Hd Hc Hs Hag Hh Hq. destruct (mreach_inv d Hd) as (b & a & E & Ha). rewrite E in *. cbn [e_mir e_q e_qmax e_state] in *.
  rewrite mk_closed in Hc. rewrite stop_seen_mk in Hs. change (held (mk b a)) with (mv a) in *.
  change (m_aggr (mk b a)) with (mag a) in Hag.
  assert (Hx : xclose (e_qmax d) (stopped_of (e_state d) b) exc a (e_q d) =
     (Good tt, mkam [] true (mag a) (mto a), e_q d ++ [QStr [LF]; end_signal exc])).
  { unfold xclose, xsignal, xnew_line. rewrite Hc, Hs. fold (end_signal exc). destruct (mv a) as [|ch v]; [congruence|].
    unfold xbody. rewrite Hag. unfold xput. rewrite (room _ _ 2 Hq (e_q d)) by lia. cbn [xseq].
    rewrite (room _ _ 2 Hq) by (rewrite app_length; simpl; lia). rewrite <- app_assoc. cbn [xseq mag mto]. rewrite Hag. reflexivity. }
  eexists. split; [apply (hok_runs t _ _ _ _ (hok_close _ _ _ _ _ _ _ _ _ Hx)); discriminate|].
  cbn. repeat split.
Qed.

Lemma c66_new_line d t : mreach d -> is_closed (e_mir d) = false -> stop_seen d = false ->
  m_aggr (e_mir d) = true -> held (e_mir d) <> [] ->
  e_qmax d = 0 \/ length (e_q d) + 1 <= e_qmax d ->
  exists d', run t lm_new_line (idle d) = (Good tt, idle d') /\
    e_q d' = e_q d ++ [QStr [10%N]] /\ held (e_mir d') = held (e_mir d).
Proof.
  intros Hd Hc Hs Hag Hh Hq. destruct (mreach_inv d Hd) as (b & a & E & Ha). rewrite E in *. cbn [e_mir e_q e_qmax e_state] in *.
  rewrite mk_closed in Hc. rewrite stop_seen_mk in Hs. change (held (mk b a)) with (mv a) in *.
  change (m_aggr (mk b a)) with (mag a) in Hag.
  assert (Hx : xnew_line (e_qmax d) (stopped_of (e_state d) b) a (e_q d) = (Good tt, a, e_q d ++ [QStr [LF]])).
  { unfold xnew_line. rewrite Hc, Hs. destruct (mv a) as [|ch v]; [congruence|].
    unfold xbody. rewrite Hag. unfold xput. rewrite (room _ _ 1 Hq (e_q d)) by lia. reflexivity. }
  eexists. split; [apply (hok_runs t _ _ _ _ (hok_new_line _ _ _ _ _ _ _ _ Hx)); discriminate|].
  cbn. repeat split.
Qed.

Lemma c66_write d t data : mreach d -> is_closed (e_mir d) = false -> stop_seen d = false ->
  m_aggr (e_mir d) = true -> e_qmax d = 0 \/ length (e_q d) + 1 <= e_qmax d ->
  exists d', run t (lm_write data) (idle d) = (Good (length data), idle d') /\
    e_q d' = e_q d ++ [QStr data] /\ held (e_mir d') = held (e_mir d).
Proof.
  intros Hd Hc Hs Hag Hq. destruct (mreach_inv d Hd) as (b & a & E & Ha). rewrite E in *. cbn [e_mir e_q e_qmax e_state] in *.
  rewrite mk_closed in Hc. rewrite stop_seen_mk in Hs. change (held (mk b a)) with (mv a) in *.
  change (m_aggr (mk b a)) with (mag a) in Hag.
  assert (Hx : xwrite (e_qmax d) (stopped_of (e_state d) b) data a (e_q d) = (Good (length data), a, e_q d ++ [QStr data])).
  { unfold xwrite. rewrite Hc, Hs. unfold xbody. rewrite Hag. unfold xput. rewrite (room _ _ 1 Hq (e_q d)) by lia. reflexivity. }
  eexists. split; [apply (hok_runs t _ _ _ _ (hok_write _ _ _ _ _ _ _ _ _ Hx)); discriminate|].
  cbn. repeat split.
Qed.

(** ** C67: pickling *)
Lemma il_ref b : b_ref (il b) <> None.
Proof. unfold il. destruct (b_ref b) eqn:E; simpl; congruence. Qed.

Definition used (m : mir) : Prop := exists b a, m = mk b a /\ b_ref b <> None.

Lemma call_used t c r d d' : mwf (e_mir d) -> uses_lock c = true ->
  run t (lm_call c) (idle d) = (r, idle d') -> used (e_mir d').
Proof.
  intros (b & a & Hm & Hc) Hu H. rewrite (menv_eta d), Hm in H. apply lm_call_inv in H.
  destruct H as (a' & q' & _ & Hd & _). simpl in Hd. subst d'. rewrite Hu. simpl. exists (il b), a'. split; [reflexivity|apply il_ref].
Qed.
Lemma mstep_used d d' : used (e_mir d) -> mstep d d' -> used (e_mir d').
Proof.
  intros (b & a & Hm & Hc) H. destruct H as [t c r d d' H Hb|d q st]; [|exists b, a; auto].
  rewrite (menv_eta d), Hm in H. apply lm_call_inv in H.
  destruct H as (a' & q' & _ & Hd & _). simpl in Hd. subst d'. simpl.
  destruct (uses_lock c); [exists (il b), a'|exists b, a']; (split; [reflexivity|]); [apply il_ref|exact Hc].
Qed.
Lemma mlater_used d d' : used (e_mir d) -> mlater d d' -> used (e_mir d').
Proof. intros Hu H. induction H as [|d d1 d2 Hs _ IH]; auto. apply IH. eapply mstep_used; eassumption. Qed.

Lemma c67_used d t c r d1 d2 id : mreach d -> uses_lock c = true ->
  run t (lm_call c) (idle d) = (r, idle d1) -> mlater d1 d2 ->
  mir_pickle id (e_mir d2) = Fail (if is_closed (e_mir d2) then ValueError else TypeError).
Proof.
  intros Hd Hu H Hl. apply mreach_wf in Hd.
  destruct (mlater_used d1 d2 (call_used t c r d d1 Hd Hu H) Hl) as (b & a & -> & Hr).
  unfold mir_pickle, is_closed. simpl. destruct (mc a), (b_ref b); congruence.
Qed.

Definition unused_ok (m : mir) : Prop := exists b a, m = mk b a /\ (b_ref b = None -> mv a = [] /\ mc a = false).
Lemma mstep_unused d d' : unused_ok (e_mir d) -> mstep d d' -> unused_ok (e_mir d').
Proof.
  intros (b & a & Hm & Hc) H. destruct H as [t c r d d' H Hb|d q st]; [|exists b, a; auto].
  rewrite (menv_eta d), Hm in H. apply lm_call_inv in H.
  destruct H as (a' & q' & Hx & Hd & _). simpl in Hd. subst d'. simpl.
  destruct (uses_lock c) eqn:Hu.
  - exists (il b), a'. split; [reflexivity|]. intros E. exfalso. apply (il_ref b E).
  - exists b, a'. split; [reflexivity|]. intros E. specialize (Hc E).
    destruct c; try discriminate; cbn [xcall] in Hx; injection Hx as _ <- _; exact Hc.
Qed.
Lemma mreach_unused d : mreach d -> unused_ok (e_mir d).
Proof.
  intros (id & q & ag & to & has & qu & qm & st & H).
  assert (H0 : unused_ok (e_mir (mkmenv (mir_new id q ag to has) qu qm st))).
  { simpl. rewrite mir_new_mk. eexists _, _. split; [reflexivity|]. auto. }
  revert H0. induction H as [|d d1 d2 Hs _ IH]; auto. intros H0. apply IH. eapply mstep_unused; eassumption.
Qed.
Lemma c67_unused d id m' : mreach d -> mir_pickle id (e_mir d) = Good m' ->
  m' = mir_new id (m_q (e_mir d)) (m_aggr (e_mir d)) (m_timeout (e_mir d)) (m_has (e_mir d)).
Proof.
  intros Hd H. destruct (mreach_unused d Hd) as (b & a & Hm & Hc). rewrite Hm in *. unfold mir_pickle in H. simpl in H.
  destruct (mc a); [discriminate|]. destruct (b_ref b); [discriminate|]. injection H as <-. destruct (Hc eq_refl) as [E1 E2].
  rewrite E1. reflexivity.
Qed.

(** ** C68: a closed main buffer *)
Lemma c68 m d t s rest : 1 <= m -> preach m d -> main_closed d = true -> inbox d = QStr s :: rest ->
  exists d', run t (sys_p lp_receive) (idle d) = (Fail OSError, idle d') /\
    inbox d' = rest /\ s_main d' = s_main d /\ s_n d' = s_n d.
Proof.
  intros Hm Hr Hc Hi. pose proof (preach_pinv m d Hm Hr) as Hp. destruct (pi_main m d Hp) as (a & c & Ha).
  pose proof (main_is_open _ _ _ _ Ha) as E. rewrite Hc in E. subst c.
  pose proof (hok_receive_gen m true d a _ _ Ha Hi) as Hok. cbn [rstepc fst snd] in Hok.
  eexists. split; [apply (hok_runs t _ _ _ _ (hok_sys_p _ _ _ _ _ Hok)); discriminate|].
  split; [apply (queue_set_queue rest d (pinv_validq m d Hp))|]. destruct Ha as (H1 & H2 & _). split; [symmetry; exact H1|symmetry; exact H2].
Qed.

(** ** C34, C14, C09 *)
Lemma c34_write t data s : run t (lp_write data) s = (Fail NotImplementedError, s).
Proof. reflexivity. Qed.

Lemma lp_init_spec v :
  match lp_init v with
  | Good s => exists z, as_int v = Some z /\ (1 <= z)%Z /\ s = idle (lp_fresh (Z.to_nat z))
  | Fail e => e = TypeError /\ (as_int v = None \/ exists z, as_int v = Some z /\ (z < 1)%Z)
  | Block => False
  end.
Proof.
  unfold lp_init, lb_init. destruct (as_int v) as [z|]; [|auto].
  destruct (Z.ltb_spec z 1); [split; eauto|]. exists z. repeat split; auto.
Qed.

Lemma c14_proc m d t : 1 <= m -> preach m d -> run t (sys_p (lp_call (PBase Maxlen))) (idle d) = (Good (RNat m), idle d).
Proof.
  intros Hm Hr. rewrite run_sys_p. pose proof (pi_max m d (preach_pinv m d Hm Hr)) as E.
  cbn. rewrite E. reflexivity.
Qed.

Lemma c09_proc m d t : 1 <= m -> preach m d -> main_closed d = false ->
  exists n r, run t (sys_p lp_len) (idle d) = (Good n, idle d) /\
    run t (sys_p (on_main (lb_read None))) (idle d) = (Good r, idle d) /\
    (current d <> [] \/ length (records d) = m -> n = length r) /\
    (current d = [] -> length (records d) <> m -> n = length r + 1).
Proof.
  intros Hm Hr Hc. pose proof (preach_pinv m d Hm Hr) as Hp. destruct (pi_main m d Hp) as (a & c & Ha).
  pose proof (main_is_open _ _ _ _ Ha) as E. rewrite Hc in E. subst c. pose proof Ha as (Hb & Hn & Hl & _).
  exists (Nat.min m (length (mq a) + 1)), (last_items m (mq a ++ opt_item (mpend a))).
  split; [apply (hok_runs t _ _ _ _ (hok_sys_p _ _ _ _ _ (hok_len m d a false Ha (pi_max m d Hp)))); discriminate|].
  split.
  - rewrite run_sys_p, run_on_main, Hb. rewrite run_read_open by (auto using lookup_empty).
    cbn [fst snd dat lks]. f_equal. f_equal. unfold set_main. rewrite <- Hb. destruct d; reflexivity.
  - rewrite Hb. cbn [bd storage dq last_line fl sval]. rewrite last_items_length, app_length.
    split.
    + intros [H|H]; [destruct (mpend a); [congruence|simpl; lia]|]. rewrite H. lia.
    + intros -> H. simpl. lia.
Qed.

(** ** C35 *)
Lemma log_write_complete s ls dn g : segments s ls [] -> log_write s (mkslog dn []) g ->
  g = mkslog (dn ++ map IStr ls) [].
Proof.
  intros Hs H. apply segments_iff in Hs. inversion H as [d p r Hg|d p l ls' r Hg]; subst; apply segments_iff in Hg;
    rewrite Hs in Hg; injection Hg as E1 E2; subst; simpl; rewrite ?app_nil_r; reflexivity.
Qed.
Lemma recorded_log xs is : recorded xs is -> forall dn n g n',
  log_msgs xs (mkslog dn [], n) (g, n') -> g = mkslog (dn ++ is) [].
Proof.
  induction 1 as [|s ls xs is Hs Hr IH|e xs is Hr IH|e xs is Hr IH|x xs is Hx Hr IH]; intros dn n g n' H;
    inversion H as [|x0 xs0 a [g1 n1] c Hm Hms]; subst.
  - rewrite app_nil_r. reflexivity.
  - inversion Hm as [data g0 g0' n0 Hw| | | | |]; subst. apply (log_write_complete _ _ _ _ Hs) in Hw. subst g1.
    apply IH in Hms. rewrite <- app_assoc in Hms. exact Hms.
  - inversion Hm; subst. apply IH in Hms. rewrite <- app_assoc in Hms. exact Hms.
  - inversion Hm; subst. apply IH in Hms. rewrite <- app_assoc in Hms. exact Hms.
  - simpl in Hx. destruct Hx as [<-|[<-|[<-|[]]]]; inversion Hm; subst; eapply IH, Hms.
Qed.

Lemma c35_order m d t fuel h rest is : 1 <= m -> preach m d -> main_closed d = false -> length (inbox d) < fuel ->
  current d = [] -> wait_cut (inbox d) (s_n d) = Some (h, rest) -> recorded h is ->
  exists d', run t (sys_p (lp_wait fuel)) (idle d) = (Good tt, idle d') /\
    records d' = last_items m (records d ++ is) /\ current d' = [].
Proof.
  intros Hm Hr Hc Hf Hcur Hw Hrec. destruct (wait_run m d t fuel Hm Hr Hc Hf) as (r & s' & Hrun & Hx).
  rewrite Hw in Hx. destruct Hx as (-> & Hs & _ & _ & (g & Hlog & H1 & H2 & _)).
  exists (dat s'). rewrite Hrun, <- Hs. split; [reflexivity|].
  rewrite Hcur in Hlog. apply (recorded_log _ _ Hrec) in Hlog. subst g. auto.
Qed.

Lemma c28_wait m d t fuel : 1 <= m -> preach m d -> main_closed d = false -> length (inbox d) < fuel ->
  Forall (fun x => is_data x = true) (inbox d) ->
  exists s', run t (sys_p (lp_wait fuel)) (idle d) = (Block, s') /\
    inbox (dat s') = [] /\ received m d (dat s') (inbox d).
Proof.
  intros Hm Hr Hc Hf Hd. destruct (wait_run m d t fuel Hm Hr Hc Hf) as (r & s' & Hrun & Hx).
  rewrite (cut_data _ _ Hd) in Hx. destruct Hx as (-> & H). exists s'. auto.
Qed.
