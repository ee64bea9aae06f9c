(** * ProcTransp: one mirror is transparent (C21) *)
From stdpp Require Import gmap relations.
From Coq Require Import List NArith ZArith Bool Arith Lia.
From Verif Require Import PyStr Prog ProgFacts PyIO Base Spec SpecFacts LineBuf LineBufSpec LineBufFacts LineBufProofs Locks Held Proc ProcSpec ProcFacts ProcMain ProcSeq ProcHist ProcProofs ProcSysProofs.
Import ListNotations.
Local Open Scope nat_scope.

Lemma has_break_false data : has_break data = false -> seg data = ([], data).
Proof.
  unfold has_break. destruct (seg data) as [[|l ls] r] eqn:E; simpl; [intros _|discriminate].
  apply segments_iff in E. inversion E; subst; reflexivity.
Qed.
Lemma seg_no_lines h : no_break h -> seg h = ([], h).
Proof. intros H. apply segments_iff. constructor. exact H. Qed.
Lemma has_break_no data : has_break data = false -> no_break data.
Proof. intros H. apply has_break_false in H. pose proof (seg_no_break data) as [_ H1]. rewrite H in H1. exact H1. Qed.

Lemma wlines_app v h data : no_break h -> wlines v (h ++ data) = wlines (v ++ h) data.
Proof.
  intros H. unfold wlines. rewrite seg_nobreak by exact H. destruct (seg data) as [[|l ls] r]; [reflexivity|].
  rewrite <- app_assoc. reflexivity.
Qed.
Lemma wtail_app v h data : no_break h -> wtail v (h ++ data) = wtail (v ++ h) data.
Proof.
  intros H. unfold wtail. rewrite seg_nobreak by exact H. destruct (seg data) as [[|l ls] r]; [rewrite app_assoc|]; reflexivity.
Qed.

(** The system seen abstractly: held text, chunks in the queue, log of the main buffer. *)
Record tst := mktst { th : text; tq : list text; tg : slog }.
Definition tinv (m : nat) (ag : bool) (a : tst) (d : psys) : Prop :=
  pinv m d /\ s_cur d = 0 /\ s_state d = Some false /\ main_closed d = false /\
  records d = last_items m (done (tg a)) /\ current d = pend (tg a) /\
  inbox d = map QStr (tq a) /\
  exists b, mir_at d 0 = mk b (mkam (th a) false ag None) /\ b_has b = true.

(** What the direct buffer has seen. *)
Definition tdirect (a : tst) : slog := let g := fold_left (fun g c => gwrite c g) (tq a) (tg a) in
  mkslog (done g) (pend g ++ th a).

Lemma tstep_write m ag a d t data d' : tinv m ag a d -> no_break (th a) -> (ag = true -> th a = []) ->
  sstep t (OnMirror 0 (CWrite data)) d d' ->
  exists a', tinv m ag a' d' /\ tdirect a' = gwrite data (tdirect a) /\ no_break (th a') /\ (ag = true -> th a' = []).
Proof.
  intros (Hp & Hcur & Hst & Hmc & Hrec & Hcu & Hin & b & Hm & Hh) Hnb Hag Hs.
  pose proof (sstep_good m t _ _ _ Hp Hs) as [Hp' _].
  inversion Hs as [i0 c0 r0 dd dd' Hi0 Hrun Hb| |]; subst.
  destruct (sys_mirror_run m d 0 (CWrite data) Hp Hi0) as (b' & a1 & r1 & a' & q' & Em & Hh' & Hqb & Ha & Hx & Hok).
  rewrite Hm in Em. assert (a1 = mkam (th a) false ag None).
  { apply (f_equal (fun m => mkam (sval (m_buf m)) (sclosed (m_buf m)) (m_aggr m) (m_timeout m))) in Em. simpl in Em.
    destruct a1; simpl in *; congruence. } subst a1.
  assert (b' = b). { apply (f_equal (fun m => mkmb (m_ref m) (m_has m) (m_q m) (m_id m) (m_cnt m))) in Em.
    destruct b, b'; simpl in *; congruence. } subst b'. clear Em.
  destruct (hok_inv _ _ _ _ _ _ _ Hok Hrun) as (-> & Ed & _). simpl in Ed.
  assert (Hq : nth (b_q b) (s_qs d) [] = map QStr (tq a)).
  { rewrite <- Hin. unfold inbox. rewrite Hcur, Hm. reflexivity. }
  cbn [xcall uses_lock] in Hx, Ed. unfold xwrite, stopped_of in Hx. rewrite Hst, Hh, Hq in Hx. cbn [mc andb] in Hx.
  (* the new state, for any new held text and queue *)
  assert (Hnew : forall h cs, a' = mkam h false ag None -> q' = map QStr cs -> tinv m ag (mktst h cs (tg a)) d').
  { intros h cs -> ->. assert (Hv : vmir 0 d) by (eapply pinv_vmir; eassumption).
    split; [exact Hp'|]. subst d'. split; [exact Hcur|]. split; [exact Hst|]. split; [exact Hmc|].
    split; [exact Hrec|]. split; [exact Hcu|]. split.
    - unfold inbox. change (s_cur (put_menv 0 _ d)) with (s_cur d). rewrite Hcur, mir_at_put by exact Hv.
      cbn [e_mir]. change (m_q (mk (il b) _)) with (b_q (il b)). rewrite b_q_il. unfold put_menv. cbn [s_qs e_q].
      rewrite Hm. apply nth_set_nth. exact Hqb.
    - exists (il b). rewrite mir_at_put by exact Hv. rewrite has_il. split; [reflexivity|exact Hh]. }
  assert (Hmap : forall c, map QStr (tq a) ++ [QStr c] = map QStr (tq a ++ [c])) by (intros; rewrite map_app; reflexivity).
  unfold xbody, xput in Hx. cbn [mag mv mc mto] in Hx. unfold q_full in Hx. simpl (0 <? 0) in Hx. cbn [andb] in Hx.
  destruct ag.
  - unfold xret, xseq in Hx. injection Hx as _ <- <-. rewrite (Hag eq_refl) in *.
    exists (mktst [] (tq a ++ [data]) (tg a)). rewrite Hmap in Hnew. split; [apply Hnew; reflexivity|]. split; [|split; [constructor|auto]].
    unfold tdirect. cbn [tq tg th]. rewrite fold_left_app. cbn [fold_left]. rewrite (Hag eq_refl).
    destruct (fold_left _ (tq a) (tg a)) as [dn p]. unfold gwrite. simpl. rewrite !app_nil_r. reflexivity.
  - destruct (has_break data) eqn:Eb; unfold xret, xseq in Hx; injection Hx as _ <- <-.
    + exists (mktst [] (tq a ++ [th a ++ data]) (tg a)). rewrite Hmap in Hnew. split; [apply Hnew; reflexivity|].
      split; [|split; [constructor|discriminate]].
      unfold tdirect. cbn [tq tg th]. rewrite fold_left_app. cbn [fold_left].
      destruct (fold_left _ (tq a) (tg a)) as [dn p]. unfold gwrite. cbn [done pend].
      rewrite wlines_app, wtail_app by exact Hnb. rewrite app_nil_r. reflexivity.
    + exists (mktst (th a ++ data) (tq a) (tg a)). split; [apply Hnew; reflexivity|].
      split; [|split; [|discriminate]].
      * unfold tdirect. cbn [tq tg th]. destruct (fold_left _ (tq a) (tg a)) as [dn p]. unfold gwrite, wlines, wtail. cbn [done pend].
        rewrite (has_break_false _ Eb). rewrite app_nil_r, app_assoc. reflexivity.
      * apply List.Forall_app. split; [exact Hnb|apply has_break_no, Eb].
Qed.

Lemma tstep_receive m ag a d t d' : tinv m ag a d -> sstep t (OnMain PReceive) d d' ->
  exists a', tinv m ag a' d' /\ tdirect a' = tdirect a /\ th a' = th a.
Proof.
  intros (Hp & Hcur & Hst & Hmc & Hrec & Hcu & Hin & b & Hm & Hh) Hs.
  pose proof (sstep_good m t _ _ _ Hp Hs) as [Hp' _].
  inversion Hs as [|c0 r0 dd dd' Hrun Hb|]; subst. rewrite run_sys_p in Hrun. cbn [lp_call] in Hrun.
  apply run_pret in Hrun. destruct Hrun as (r1 & Hrun & ->).
  pose proof (pinv_abs m d Hp Hmc) as Ha. pose proof (pinv_validq m d Hp) as Hv.
  destruct (tq a) as [|c cs] eqn:Eq; simpl in Hin.
  - destruct (hok_inv _ _ _ _ _ _ _ (hok_receive_empty d Hin) Hrun) as (-> & _). congruence.
  - destruct (hok_inv _ _ _ _ _ _ _ (hok_receive m d _ _ _ Ha Hin) Hrun) as (-> & Ed & _). simpl in Ed.
    rewrite Hrec, Hcu in Ed. exists (mktst (th a) cs (gwrite c (tg a))). split; [|split].
    + split; [exact Hp'|]. subst d'. split; [exact Hcur|]. split; [exact Hst|]. split; [reflexivity|]. split.
      * cbn. rewrite last_items_idem by lia. rewrite last_items_app_idem. reflexivity.
      * split; [reflexivity|]. split; [apply (queue_set_queue (map QStr cs) d Hv)|]. exists b. auto.
    + unfold tdirect. rewrite Eq. reflexivity.
    + reflexivity.
Qed.

Lemma thist m ag xs : forall a d d', tinv m ag a d -> no_break (th a) -> (ag = true -> th a = []) ->
  Forall (fun tx => write_or_receive (snd tx)) xs -> shist xs d d' ->
  exists a', tinv m ag a' d' /\ no_break (th a') /\ (ag = true -> th a' = []) /\
    tdirect a' = fold_left (fun g p => gwrite (snd p) g) (texts_of xs) (tdirect a).
Proof.
  induction xs as [|[t x] xs IH]; intros a d d' Ht Hn Hag Hf Hs; inversion Hs; subst.
  - exists a. auto.
  - inversion Hf as [|? ? Hx Hf']; subst. cbn [snd] in Hx. destruct Hx as [[data ->]| ->].
    + edestruct tstep_write as (a1 & T1 & T2 & T3 & T4); [exact Ht|exact Hn|exact Hag|eassumption|].
      destruct (IH a1 d1 d' T1 T3 T4 Hf' ltac:(assumption)) as (a' & I1 & I2 & I3 & I4).
      exists a'. split; [exact I1|]. split; [exact I2|]. split; [exact I3|]. rewrite I4, T2. reflexivity.
    + edestruct tstep_receive as (a1 & T1 & T2 & T3); [exact Ht|eassumption|].
      destruct (IH a1 d1 d' T1) as (a' & I1 & I2 & I3 & I4); auto; try (rewrite T3; assumption).
      exists a'. split; [exact I1|]. split; [exact I2|]. split; [exact I3|]. rewrite I4, T2. reflexivity.
Qed.

Lemma gsteps_writes (ps : list (nat * text)) g :
  gsteps (map snd (map (fun p => (fst p, SWrite (snd p))) ps)) g = fold_left (fun g p => gwrite (snd p) g) ps g.
Proof. revert g. induction ps as [|[t x] ps IH]; intros g; [reflexivity|]. apply IH. Qed.

Lemma c21 m ag xs t d : 1 <= m -> Forall (fun tx => write_or_receive (snd tx)) xs ->
  shist ((t, OnMirror 0 (CSetAggr ag)) :: xs) (lp_fresh m) d -> inbox d = [] ->
  let direct := snd (run_hist (map (fun p => (fst p, Write (snd p))) (texts_of xs)) (fresh m)) in
  records d = dq (storage (dat direct)) /\
  current d ++ held (mir_at d 0) = sval (last_line (dat direct)) /\
  (ag = true -> held (mir_at d 0) = []).
Proof.
  intros Hm Hf Hs Hi direct. inversion Hs as [|t0 x0 xs0 d0 d1 d2 Hs1 Hs2]; subst.
  pose proof (pinv_fresh m Hm) as Hp0. pose proof (sstep_good m t _ _ _ Hp0 Hs1) as [Hp1 _].
  assert (Ht : tinv m ag (mktst [] [] slog0) d1).
  { inversion Hs1 as [i0 c0 r0 dd dd' Hi0 Hrun Hb| |]; subst.
    assert (E : d1 = put_menv 0 (mkmenv (mk (mkmb None true 0 0 0) (mkam [] false ag None)) [] 0 (Some false)) (lp_fresh m)).
    { vm_compute in Hrun. injection Hrun as _ <-. reflexivity. }
    split; [exact Hp1|]. rewrite E. split; [reflexivity|]. split; [reflexivity|]. split; [reflexivity|].
    split; [reflexivity|]. split; [reflexivity|]. split; [reflexivity|]. eexists. split; reflexivity. }
  destruct (thist m ag xs _ _ d Ht) as (a' & T & Tn & Tag & Td); auto; [constructor|].
  assert (Hdir : direct = cst m (absg m (tdirect a')) stdpp.base.empty).
  { subst direct. replace (map (fun p => (fst p, Write (snd p))) (texts_of xs))
      with (hist_of (map (fun p => (fst p, SWrite (snd p))) (texts_of xs))).
    - rewrite run_hist_gsteps by exact Hm. rewrite gsteps_writes, Td. reflexivity.
    - unfold hist_of. rewrite map_map. reflexivity. }
  destruct T as (_ & _ & _ & _ & Hrec & Hcu & Hin & b & Hmir & _).
  assert (Hq : tq a' = []) by (rewrite Hi in Hin; destruct (tq a'); [reflexivity|discriminate]).
  rewrite Hdir, Hmir, Hrec, Hcu. unfold tdirect. rewrite Hq. cbn [fold_left]. repeat split. exact Tag.
Qed.
