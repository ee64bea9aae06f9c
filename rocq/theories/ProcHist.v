(** * ProcHist: invariants of the histories of the system (sequential use) *)
From stdpp Require Import gmap relations.
From Coq Require Import List NArith ZArith Bool Arith Lia.
From Verif Require Import PyStr Prog ProgFacts PyIO Base Spec SpecFacts LineBuf LineBufFacts Locks Held Proc ProcSpec ProcFacts ProcMain ProcSeq.
Import ListNotations.
Local Open Scope nat_scope.

Definition mirok (d : psys) (m : mir) : Prop :=
  exists b a, m = mk b a /\ aclosed_ok a /\ b_has b = true /\ b_q b < length (s_qs d).

Record pinv (m : nat) (d : psys) : Prop := mkpinv {
  pi_main : exists a c, main_is m c d a;
  pi_max : s_maxlen d = m;
  pi_cur : s_cur d < length (s_mirs d);
  pi_mir : forall i, i < length (s_mirs d) -> mirok d (mir_at d i) }.

Lemma pinv_fresh m : 1 <= m -> pinv m (lp_fresh m).
Proof.
  intros Hm. split.
  - exists (mkmain [] [] 0%Z), false. repeat split; simpl; auto with arith.
  - reflexivity.
  - simpl. lia.
  - intros i Hi. simpl in Hi. destruct i; [|lia]. exists (mkmb None true 0 0 0), (mkam [] false false None).
    repeat split; simpl; try lia; try discriminate.
Qed.

Lemma pinv_vmir m d i : pinv m d -> i < length (s_mirs d) -> vmir i d.
Proof.
  intros H Hi. split; [exact Hi|]. destruct (pi_mir m d H i Hi) as (b & a & -> & _ & _ & Hq). exact Hq.
Qed.
Lemma pinv_validq m d : pinv m d -> valid_q d.
Proof. intros H. apply (pinv_vmir m d _ H (pi_cur m d H)). Qed.

(** *** Calls of mirrors *)
Lemma sys_mirror_run m d i c : pinv m d -> i < length (s_mirs d) ->
  exists b a r a' q', mir_at d i = mk b a /\ b_has b = true /\ b_q b < length (s_qs d) /\ aclosed_ok a /\
    xcall 0 (stopped_of (s_state d) b) c a (nth (b_q b) (s_qs d) []) = (r, a', q') /\
    hok (sys_m i (lm_call c)) d [] r
      (put_menv i (mkmenv (mk (if uses_lock c then il b else b) a') q' 0 (s_state d)) d).
Proof.
  intros H Hi. destruct (pi_mir m d H i Hi) as (b & a & Hm & Ha & Hh & Hq).
  destruct (xcall 0 (stopped_of (s_state d) b) c a (nth (b_q b) (s_qs d) [])) as [[r a'] q'] eqn:Ex.
  exists b, a, r, a', q'. repeat split; auto.
  apply hok_sys_m; [eapply pinv_vmir; eassumption|]. unfold get_menv. rewrite Hm.
  apply (lm_call_ok _ _ _ _ _ _ _ _ _ Ex).
Qed.

Lemma nth_set_nth' {A} (l : list A) i j x d : j < length l ->
  nth j (set_nth i x l) d = if j =? i then x else nth j l d.
Proof.
  intros Hj. destruct (Nat.eqb_spec j i) as [->|Hne]; [apply nth_set_nth, Hj|apply nth_set_nth_ne, Hne].
Qed.

Lemma b_q_il b : b_q (il b) = b_q b.
Proof. unfold il. destruct (b_ref b); reflexivity. Qed.

Lemma pinv_put m d i b a q : pinv m d -> i < length (s_mirs d) -> aclosed_ok a -> b_has b = true ->
  b_q b < length (s_qs d) ->
  pinv m (put_menv i (mkmenv (mk b a) q 0 (s_state d)) d).
Proof.
  intros H Hi Ha Hh Hq. split.
  - destruct (pi_main m d H) as (a0 & c0 & H0). exists a0, c0. exact H0.
  - apply (pi_max m d H).
  - simpl. rewrite set_nth_length. apply (pi_cur m d H).
  - simpl. rewrite set_nth_length. intros j Hj. unfold mir_at, mirok. simpl.
    rewrite nth_set_nth' by exact Hj. rewrite set_nth_length. destruct (j =? i).
    + exists b, a. auto.
    + apply (pi_mir m d H j Hj).
Qed.

(** *** Calls of the main buffer *)
Lemma pinv_main m d d' : pinv m d -> s_mirs d' = s_mirs d -> length (s_qs d') = length (s_qs d) ->
  s_maxlen d' = s_maxlen d -> s_cur d' = s_cur d -> (exists a c, main_is m c d' a) -> pinv m d'.
Proof.
  intros H E1 E2 E3 E4 Hm. split; auto.
  - rewrite E3. apply H.
  - rewrite E1, E4. apply H.
  - rewrite E1. intros i Hi. unfold mir_at, mirok. rewrite E1, E2. apply (pi_mir m d H i Hi).
Qed.

Lemma hok_base m d a c call : main_is m c d a ->
  forall t, exists a' c', run t (on_main (lb_call call)) (idle d) =
    (fst (astep m call (mkabuf (mq a) (mpend a) c)), idle (set_main (bd m (mq a') (mpend a') c') d)) /\
    length (mq a') <= m /\ mn a' = mn a.
Proof.
  intros (Hb & Hn & Hl & Hm) t. rewrite run_on_main, Hb.
  change (mkst (bd m (mq a) (mpend a) c) stdpp.base.empty) with (cst m (mkabuf (mq a) (mpend a) c) stdpp.base.empty).
  pose proof (astep_len m call (mkabuf (mq a) (mpend a) c) Hm Hl) as Hl'.
  rewrite lb_call_run_weak by (auto; apply lookup_empty).
  destruct (astep m call (mkabuf (mq a) (mpend a) c)) as [r [q' v' c']]. cbn [fst snd aq] in *.
  exists (mkmain q' v' (mn a)), c'. split; [reflexivity|]. split; auto.
Qed.

Lemma hok_mirror d : hok lp_mirror d [] (Good (s_cur d)) (set_n (s_n d + 1)%Z d).
Proof. unfold lp_mirror. do 2 (eapply hok_bind; [eapply hok_op; reflexivity|]). eapply hok_op; reflexivity. Qed.
Definition set_state (o : option bool) (d : psys) : psys :=
  mkps (s_mirs d) (s_qs d) o (s_main d) (s_n d) (s_cur d) (s_maxlen d).
Lemma hok_stop_all d : hok lp_stop_all d [] (Good tt) (set_state (Some true) d).
Proof. apply hok_with; [reflexivity|]. eapply hok_op; reflexivity. Qed.
Definition reset_to (d : psys) : psys :=
  mkps (s_mirs d ++ [mir_new (length (s_mirs d)) (length (s_qs d)) false None true]) (s_qs d ++ [[]])
       (Some false) (s_main d) (s_n d) (length (s_mirs d)) (s_maxlen d).
Lemma hok_reset d : hok lp_reset d [] (if (0 <? s_n d)%Z then Fail TypeError else Good tt)
                        (if (0 <? s_n d)%Z then d else reset_to d).
Proof.
  unfold lp_reset. eapply hok_bind; [eapply hok_op; reflexivity|]. destruct (0 <? s_n d)%Z; [apply hok_raise|].
  eapply (hok_bind _ _ _ _ tt (set_state (Some false) d)); [|eapply hok_op; reflexivity].
  apply hok_with; [reflexivity|].
  eapply hok_bind; [eapply hok_op; reflexivity|]. eapply hok_op; reflexivity.
Qed.
Lemma hok_force d : hok lp_force_stop d [] (Good tt) (set_queue (queue d ++ [QStop]) d).
Proof. eapply hok_op; reflexivity. Qed.
Lemma hok_len m d a c : main_is m c d a -> s_maxlen d = m ->
  hok lp_len d [] (Good (Nat.min m (length (mq a) + 1))) d.
Proof.
  intros (Hb & Hn & Hl & Hm) Hs. unfold lp_len. eapply hok_bind; [eapply hok_op; reflexivity|]. rewrite Hs.
  eapply hok_bind; [eapply hok_op; reflexivity|]. 
  eapply (hok_bind _ _ _ _ (length (mq a) + 1) d).
  - apply hok_with; [reflexivity|]. eapply hok_bind; [eapply hok_op; reflexivity|].
    cbn. rewrite Hb. cbn. rewrite Nat.add_comm. destruct d; simpl in *. subst. apply hok_ret.
  - replace (m =? 0) with false by (symmetry; apply Nat.eqb_neq; lia). apply hok_ret.
Qed.

Lemma main_is_n m c d a : main_is m c d a -> forall n, main_is m c (set_n n d) (mkmain (mq a) (mpend a) n).
Proof. intros (H1 & H2 & H3) n. split; [exact H1|]. split; [reflexivity|exact H3]. Qed.

(** *** Facts about one event *)
Record sfacts (x : sevent) (d d' : psys) : Prop := mkfacts {
  sf_mirs : length (s_mirs d) <= length (s_mirs d');
  sf_qs : length (s_qs d) <= length (s_qs d');
  sf_mq : forall i, i < length (s_mirs d) -> m_q (mir_at d' i) = m_q (mir_at d i);
  sf_closed : forall i, i < length (s_mirs d) -> is_closed (mir_at d i) = true -> is_closed (mir_at d' i) = true;
  sf_noreset : x <> OnMain PReset -> s_cur d' = s_cur d /\ (s_state d = Some true -> s_state d' = Some true);
  sf_cur : s_cur d' = s_cur d \/ (s_cur d' = length (s_mirs d) /\ m_q (mir_at d' (s_cur d')) = length (s_qs d)) }.

Lemma sfacts_main x d d' : s_mirs d' = s_mirs d -> length (s_qs d') = length (s_qs d) -> s_cur d' = s_cur d ->
  (s_state d = Some true -> s_state d' = Some true) -> sfacts x d d'.
Proof.
  intros E1 E2 E3 E4. split; rewrite ?E1, ?E2; auto; unfold mir_at; rewrite ?E1; auto.
Qed.
Lemma sfacts_refl x d : sfacts x d d.
Proof. apply sfacts_main; auto. Qed.
Lemma sfacts_trans x d1 d2 d3 : x <> OnMain PReset -> sfacts x d1 d2 -> sfacts x d2 d3 -> sfacts x d1 d3.
Proof.
  intros Hx H1 H2. destruct H1 as [a1 b1 c1 e1 f1 g1], H2 as [a2 b2 c2 e2 f2 g2].
  destruct (f1 Hx) as [k1 k2], (f2 Hx) as [k3 k4]. split; try lia.
  - intros i Hi. rewrite c2, c1 by lia. reflexivity.
  - intros i Hi Hc. apply e2; [lia|]. apply e1; assumption.
  - intros _. split; [congruence|auto].
Qed.

Definition pgood m x d d' := pinv m d' /\ sfacts x d d'.

Lemma pgood_main m x d d' : pinv m d -> s_mirs d' = s_mirs d -> length (s_qs d') = length (s_qs d) ->
  s_maxlen d' = s_maxlen d -> s_cur d' = s_cur d -> (s_state d = Some true -> s_state d' = Some true) ->
  (exists a c, main_is m c d' a) -> pgood m x d d'.
Proof.
  intros. split; [eapply pinv_main; eassumption|apply sfacts_main; auto].
Qed.

Lemma receive_good m x t d r s : x <> OnMain PReset -> pinv m d -> run t lp_receive (idle d) = (r, s) ->
  pgood m x d (dat s) /\ (r <> Block -> lks s = stdpp.base.empty).
Proof.
  intros Hx H Hr. pose proof (pinv_validq m d H) as Hv. destruct (pi_main m d H) as (a & c & Ha).
  destruct (queue d) as [|y rest] eqn:Eq.
  - destruct (hok_inv _ _ _ _ _ _ _ (hok_receive_empty d Eq) Hr) as (-> & -> & _).
    split; [|congruence]. split; [exact H|apply sfacts_refl].
  - destruct (hok_inv _ _ _ _ _ _ _ (hok_receive_gen m c d a y rest Ha Eq) Hr) as (-> & -> & Hs).
    split; [|intros Hb; rewrite (Hs Hb); reflexivity].
    apply pgood_main; auto; simpl; [apply set_nth_length|].
    exists (snd (rstepc m c y a)), c. apply main_is_set; [|apply Ha]. apply rstepc_len. apply Ha.
Qed.

Lemma wait_good m x t fuel : x <> OnMain PReset -> forall d r s, pinv m d -> run t (lp_wait fuel) (idle d) = (r, s) ->
  pgood m x d (dat s).
Proof.
  intros Hx. induction fuel as [|fuel IH]; intros d r s H Hr; cbn [lp_wait] in Hr.
  - injection Hr as <- <-. split; [exact H|apply sfacts_refl].
  - rewrite run_bind in Hr. destruct (run t lp_receive (idle d)) as [r1 s1] eqn:E1.
    destruct (receive_good m x t d r1 s1 Hx H E1) as [Hg Hk].
    destruct r1 as [b|e|].
    + assert (s1 = idle (dat s1)) as Es by (destruct s1; simpl in *; rewrite Hk by discriminate; reflexivity).
      destruct b.
      * rewrite Es in Hr. specialize (IH _ _ _ (proj1 Hg) Hr). split; [apply IH|].
        eapply sfacts_trans; [exact Hx|apply Hg|apply IH].
      * injection Hr as <- <-. exact Hg.
    + injection Hr as <- <-. exact Hg.
    + injection Hr as <- <-. exact Hg.
Qed.

Lemma run_pret {X} t (f : X -> res) (p : prog pcmd X) s r s' : run t (pret f p) s = (r, s') ->
  exists r0, run t p s = (r0, s') /\ r = match r0 with Good x => Good (f x) | Fail e => Fail e | Block => Block end.
Proof.
  unfold pret. rewrite run_bind. destruct (run t p s) as [[x|e|] s1]; intros [= <- <-]; eauto.
Qed.

Lemma mir_at_app d i m' qs st mn n c ml : i < length (s_mirs d) ->
  mir_at (mkps (s_mirs d ++ [m']) qs st mn n c ml) i = mir_at d i.
Proof. intros Hi. unfold mir_at. simpl. apply app_nth1, Hi. Qed.
Lemma mir_at_last d m' qs st mn n c ml :
  mir_at (mkps (s_mirs d ++ [m']) qs st mn n c ml) (length (s_mirs d)) = m'.
Proof. unfold mir_at. simpl. rewrite app_nth2 by lia. rewrite Nat.sub_diag. reflexivity. Qed.

Lemma sstep_good m t x d d' : pinv m d -> sstep t x d d' -> pgood m x d d'.
Proof.
  intros H Hs. destruct Hs as [i c r d d' Hi Hr Hb|c r d d' Hr Hb|i mi d Hi Hp].
  - (* a mirror *)
    destruct (sys_mirror_run m d i c H Hi) as (b & a & r1 & a' & q' & Hm & Hh & Hq & Ha & Hx & Hok).
    destruct (hok_inv _ _ _ _ _ _ _ Hok Hr) as (-> & Hd & _). simpl in Hd. subst d'.
    destruct (xcall_ok _ _ _ _ _ _ _ _ Hx) as [Hc1 Hc2].
    assert (Hb' : b_has (if uses_lock c then il b else b) = true) by (destruct (uses_lock c); rewrite ?has_il; exact Hh).
    assert (Hq' : b_q (if uses_lock c then il b else b) = b_q b) by (destruct (uses_lock c); rewrite ?b_q_il; reflexivity).
    split; [apply pinv_put; auto; rewrite Hq'; exact Hq|].
    split; simpl; rewrite ?set_nth_length; auto.
    + intros j Hj. unfold mir_at at 1. simpl. rewrite nth_set_nth' by exact Hj.
      destruct (Nat.eqb_spec j i) as [->|]; [|reflexivity]. rewrite Hm. exact Hq'.
    + intros j Hj Hc. unfold mir_at. simpl. rewrite nth_set_nth' by exact Hj.
      destruct (Nat.eqb_spec j i) as [->|]; [|exact Hc]. rewrite Hm in Hc. apply (Hc1 Hc).
  - (* the main buffer *)
    rewrite run_sys_p in Hr. destruct (pi_main m d H) as (a & cl & Ha). pose proof Ha as (Hab & Han & Hal & Hm1).
    assert (Hbase : forall cc, run t (on_main (lb_call cc)) (idle d) = (r, idle d') -> pgood m (OnMain c) d d').
    { intros cc Hc. destruct (hok_base m d a cl cc Ha t) as (a' & c' & E & Hl & Hn'). rewrite E in Hc.
      injection Hc as _ <-. apply pgood_main; auto. exists a', c'. repeat split; auto. simpl. congruence. }
    assert (Hsame : d' = d -> pgood m (OnMain c) d d').
    { intros ->. split; [exact H|apply sfacts_refl]. }
    destruct c; cbn [lp_call] in Hr.
    + destruct c; try (eapply Hbase; exact Hr).
      * apply run_pret in Hr. destruct Hr as (r0 & E & _). injection E as _ <-. auto.
      * apply run_pret in Hr. destruct Hr as (r0 & E & _).
        destruct (hok_inv _ _ _ _ _ _ _ (hok_len m d a cl Ha (pi_max m d H)) E) as (_ & E' & _). auto.
      * apply run_pret in Hr. destruct Hr as (r0 & E & _). injection E as _ <-. auto.
    + apply run_pret in Hr. destruct Hr as (r0 & E & _).
      destruct (hok_inv _ _ _ _ _ _ _ (hok_mirror d) E) as (_ & E' & _). simpl in E'. subst d'.
      apply pgood_main; auto. eexists _, cl. apply (main_is_n m cl d a Ha).
    + apply run_pret in Hr. destruct Hr as (r0 & E & _).
      destruct (hok_inv _ _ _ _ _ _ _ (hok_stop_all d) E) as (_ & E' & _). simpl in E'. subst d'.
      apply pgood_main; auto. exists a, cl. exact Ha.
    + apply run_pret in Hr. destruct Hr as (r0 & E & _).
      destruct (hok_inv _ _ _ _ _ _ _ (hok_reset d) E) as (_ & E' & _). simpl in E'.
      destruct (0 <? s_n d)%Z; [auto|]. subst d'. split.
      * split; simpl.
        -- exists a, cl. exact Ha.
        -- apply H.
        -- rewrite app_length. simpl. lia.
        -- rewrite app_length. simpl. intros i Hi. destruct (Nat.eq_dec i (length (s_mirs d))) as [->|Hne].
           ++ unfold reset_to. rewrite mir_at_last. eexists _, _. split; [apply mir_new_mk|].
              split; [discriminate|]. split; [reflexivity|]. simpl. rewrite app_length. simpl. lia.
           ++ unfold reset_to. rewrite mir_at_app by lia. destruct (pi_mir m d H i ltac:(lia)) as (b0 & a0 & E0 & K1 & K2 & K3).
              exists b0, a0. split; [exact E0|]. split; [exact K1|]. split; [exact K2|]. simpl. rewrite app_length. lia.
      * split; simpl; rewrite ?app_length; try lia.
        -- intros i Hi. unfold reset_to. rewrite mir_at_app by lia. reflexivity.
        -- intros i Hi. unfold reset_to. rewrite mir_at_app by lia. auto.
        -- congruence.
        -- right. split; [reflexivity|]. unfold reset_to. rewrite mir_at_last. reflexivity.
    + apply run_pret in Hr. destruct Hr as (r0 & E & _).
      destruct (hok_inv _ _ _ _ _ _ _ (hok_force d) E) as (_ & E' & _). simpl in E'. subst d'.
      apply pgood_main; auto; simpl; [apply set_nth_length|]. exists a, cl. exact Ha.
    + apply run_pret in Hr. destruct Hr as (r0 & E & _). 
      apply (receive_good m (OnMain PReceive) t d r0 (idle d') ltac:(discriminate) H E).
    + apply run_pret in Hr. destruct Hr as (r0 & E & _).
      apply (wait_good m (OnMain (PWait fuel)) t fuel ltac:(discriminate) d r0 (idle d') H E).
  - (* pickling *)
    unfold mir_pickle in Hp. destruct (sclosed _); [discriminate|]. destruct (m_ref (mir_at d i)) eqn:Er; [discriminate|]. injection Hp as <-.
    destruct (pi_mir m d H i Hi) as (b & a & Hm & Ha & Hh & Hq). split.
    + split; simpl.
      * destruct (pi_main m d H) as (a0 & c0 & H0). exists a0, c0. exact H0.
      * apply H.
      * rewrite app_length. pose proof (pi_cur m d H). lia.
      * rewrite app_length. simpl. intros j Hj. destruct (Nat.eq_dec j (length (s_mirs d))) as [->|Hne].
        -- unfold add_mirror. rewrite mir_at_last, Hm. exists (mkmb None (b_has b) (b_q b) (length (s_mirs d)) 0), a.
           repeat split; auto.
        -- unfold add_mirror. rewrite mir_at_app by lia. apply (pi_mir m d H j). lia.
    + split; simpl; rewrite ?app_length; try lia; auto.
      * intros j Hj. unfold add_mirror. rewrite mir_at_app by lia. reflexivity.
      * intros j Hj. unfold add_mirror. rewrite mir_at_app by lia. auto.
Qed.

Lemma shist_pinv m xs : forall d d', pinv m d -> shist xs d d' -> pinv m d'.
Proof.
  induction xs as [|[t x] xs IH]; intros d d' H Hs; inversion Hs; subst; auto.
  eapply IH; [|eassumption]. eapply sstep_good; eassumption.
Qed.
Lemma preach_pinv m d : 1 <= m -> preach m d -> pinv m d.
Proof. intros Hm [xs Hs]. eapply shist_pinv; [apply pinv_fresh, Hm|exact Hs]. Qed.

(** *** Facts about histories *)
Lemma shist_noreset m xs : forall d d', pinv m d -> shist xs d d' -> no_reset xs ->
  s_cur d' = s_cur d /\ (s_state d = Some true -> s_state d' = Some true).
Proof.
  induction xs as [|[t x] xs IH]; intros d d' H Hs Hn; inversion Hs; subst; auto.
  inversion Hn; subst. destruct (sstep_good m t x d d1 H ltac:(assumption)) as [H1 F].
  destruct (sf_noreset x d d1 F ltac:(assumption)) as [F1 F2].
  destruct (IH d1 d' H1 ltac:(assumption) ltac:(assumption)) as [G1 G2]. split; [congruence|auto].
Qed.

Lemma shist_mono m xs : forall d d', pinv m d -> shist xs d d' ->
  length (s_mirs d) <= length (s_mirs d') /\ length (s_qs d) <= length (s_qs d') /\
  forall i, i < length (s_mirs d) -> m_q (mir_at d' i) = m_q (mir_at d i).
Proof.
  induction xs as [|[t x] xs IH]; intros d d' H Hs; inversion Hs; subst; auto.
  destruct (sstep_good m t x d d1 H ltac:(assumption)) as [H1 F]. destruct F as [F1 F2 F3 _ _ _].
  destruct (IH d1 d' H1 ltac:(assumption)) as (G1 & G2 & G3). repeat split; try lia.
  intros i Hi. rewrite G3, F3 by lia. reflexivity.
Qed.

Lemma shist_cur m N xs : forall d d', pinv m d -> shist xs d d' -> N <= length (s_qs d) -> N <= cur_q d -> N <= cur_q d'.
Proof.
  induction xs as [|[t x] xs IH]; intros d d' H Hs HN Hc; inversion Hs; subst; auto.
  pose proof (sstep_good m t x d d1 H ltac:(assumption)) as [H1 [F1 F2 F3 _ _ F6]].
  eapply (IH d1); eauto; [lia|]. unfold cur_q in *. destruct F6 as [->|[E ->]]; [|lia].
  rewrite F3; [exact Hc|]. apply (pi_cur m d H).
Qed.
