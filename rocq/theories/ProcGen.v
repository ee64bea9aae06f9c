(** * ProcGen: any programs of mirrors and wait() at the same time

    The lemmas behind C23 and C25 (ProcPoolProofs.v) for processes that run arbitrary
    programs of their mirror, not only sequences of calls. *)
From stdpp Require Import gmap.
From Coq Require Import List NArith ZArith Bool Arith Lia.
From Verif Require Import PyStr Prog ProgFacts PyIO Base Spec SpecFacts LineBuf LineBufFacts Locks Held Proc ProcSpec ProcFacts ProcMain ProcSeq ProcHist ProcProofs ProcSysProofs ProcTransp ProcMore ProcRun ProcPool ProcPoolProofs.
Import ListNotations.
Local Open Scope nat_scope.

Section Gen.
  Context {R : Type}.
  Variables (m : nat) (d : psys) (ws : list (nat * prog mcmd R)) (fin : nat -> R * menv) (wd : outcome unit -> R) (fuel : nat).
  Notation sent k := (e_q (snd (fin k))).
  Hypotheses (Hm : 1 <= m) (Hr : preach m d) (Hc : main_closed d = false)
             (Hnd : List.NoDup (map fst ws))
             (Hws : forall k w, ws !! k = Some w ->
               fst w < length (s_mirs d) /\ m_q (mir_at d (fst w)) = cur_q d /\ acqs (fun l => 4 <= l) (snd w) /\
               hok (snd w) (mkmenv (mir_at d (fst w)) [] 0 (s_state d)) [] (Good (fst (fin k))) (snd (fin k)))
             (Hf : length (inbox d) + list_sum (map (fun k => length (sent k)) (seq 0 (length ws))) < fuel).

  Definition gmain : prog pcmd R := bind (attempt (lp_wait fuel)) (fun r => Ret (wd r)).
  Let main0 := gmain.
  Let fino (k : nat) : outcome R * menv := (Good (fst (fin k)), snd (fin k)).

  Lemma g_ws k w : ws !! k = Some w ->
    fst w < length (s_mirs d) /\ m_q (mir_at d (fst w)) = cur_q d /\ acqs (fun l => 4 <= l) (snd w) /\
    hrun (snd w) (mkmenv (mir_at d (fst w)) [] 0 (s_state d)) [] = Some (fst (fino k), snd (fino k), []).
  Proof.
    intros H. destruct (Hws k w H) as (H1 & H2 & H3 & hs & E & Hh). repeat (split; [assumption|]).
    rewrite Hh in E by discriminate. exact E.
  Qed.
  Lemma g_q : cur_q d < length (s_qs d).
  Proof. apply (pinv_validq m d (preach_pinv m d Hm Hr)). Qed.
  Lemma g_monly : main_only main0.
  Proof. apply main_only_bind; [apply main_only_attempt, main_only_wait|simpl; auto]. Qed.
  Lemma g_macq : acqs (fun l => l < 4) main0.
  Proof. apply acqs_bind; [apply acqs_attempt, acqs_wait|simpl; auto]. Qed.

  (** wait() alone on any content of the queue *)
  Lemma g_main_alone q :
    match wait_cut q (s_n d) with
    | Some (h, rest) => q = h ++ rest /\ (length q < fuel -> exists d', hok main0 (set_queue q d) [] (Good (wd (Good tt))) d' /\
        s_mirs d' = s_mirs d /\ s_cur d' = s_cur d /\ queue d' = rest /\ received m d d' h)
    | None => length q < fuel -> exists d', hok main0 (set_queue q d) [] Block d'
    end.
  Proof.
    pose proof (preach_pinv m d Hm Hr) as Hp. pose proof (pinv_validq m d Hp) as Hv.
    pose proof (pinv_abs m d Hp Hc) as Ha. set (p := (mkslog (records d) (current d), s_n d)) in *.
    assert (Hv' : valid_q (set_queue q d)) by (rewrite valid_set_queue; exact Hv).
    assert (Ha' : main_is m false (set_queue q d) (abs_main m p)) by exact Ha.
    pose proof (queue_set_queue q d Hv) as Eq.
    pose proof (wstep_cut m q (abs_main m p)) as Hs. change (mn (abs_main m p)) with (s_n d) in Hs.
    destruct (wait_cut q (s_n d)) as [[h rest]|].
    - destruct Hs as [E Hs]. split; [exact E|]. intros Hl.
      pose proof (hok_wait_ok m q fuel (set_queue q d) _ _ _ Hv' Ha' Eq Hs ltac:(lia)) as Hok.
      rewrite set_queue_twice in Hok. eexists. split.
      + eapply hok_bind; [exact (hok_attempt _ _ _ _ _ Hok)|apply hok_ret].
      + split; [reflexivity|]. split; [reflexivity|]. split; [apply (queue_set_queue rest d Hv)|].
        rewrite rsteps_gmsgs. apply received_intro.
    - intros Hl. pose proof (hok_wait_block m q fuel (set_queue q d) _ Hv' Ha' Eq Hs Hl) as Hok.
      eexists. eapply hok_bind_block. exact (hok_attempt _ _ _ _ _ Hok).
  Qed.

  Lemma g_dst_set_queue q : dst d (s_mirs d) q (s_main d) (s_n d) = set_queue q d.
  Proof. reflexivity. Qed.

  Lemma g_disc q : exists r d', hok main0
    (mkps (s_mirs d) (set_nth (cur_q d) q (s_qs d)) (s_state d) (s_main d) (s_n d) (s_cur d) (s_maxlen d)) [] r d'.
  Proof.
    pose proof (preach_pinv m d Hm Hr) as Hp. pose proof (pinv_validq m d Hp) as Hv.
    pose proof (pinv_abs m d Hp Hc) as Ha.
    destruct (hok_wait_any m fuel (set_queue q d) _ ltac:(rewrite valid_set_queue; exact Hv) Ha) as (r & d' & H).
    pose proof (hok_attempt _ _ _ _ _ H) as H'.
    destruct r as [x|x|]; eexists _, _; [eapply hok_bind; [exact H'|apply hok_ret]..|eapply hok_bind_block; exact H'].
  Qed.

  Lemma gen_run sch ps' s' : sched_run sch (start ws main0, idle d) = Some (ps', s') ->
    exists lg taken,
      Forall (fun x => fst x < length ws) lg /\
      (forall k, k < length ws -> exists more, sent k = events_of k lg ++ more) /\
      inbox d ++ map snd lg = taken ++ inbox (dat s') /\
      (forall k w x, ws !! k = Some w -> ps' !! k = Some (Ret x) ->
         x = fst (fin k) /\ events_of k lg = sent k /\ mir_at (dat s') (fst w) = e_mir (snd (fin k))) /\
      (forall x, ps' !! length ws = Some (Ret x) ->
         x = wd (Good tt) /\ wait_cut (inbox d ++ map snd lg) (s_n d) = Some (taken, inbox (dat s')) /\
         received m d (dat s') taken) /\
      ((exists j c, cstep j (ps', s') = Some c) \/
       (forall k, k < length ws -> exists x, ps' !! k = Some (Ret x)) /\
       ((exists x, ps' !! length ws = Some (Ret x)) /\ lks s' = stdpp.base.empty \/
        wait_cut (inbox d ++ map snd lg) (s_n d) = None)) /\
      length ps' = S (length ws).
  Proof.
    intros Hs.
    pose proof (inv_init d ws main0 fino g_ws g_q g_monly g_macq g_disc) as I0.
    destruct (inv_sched d ws main0 fino Hnd g_ws g_q g_disc sch _ _ _ _ _ _ _ _ _ _ _ _ _ I0 Hs)
      as (lg & held & qs & qm & mirs & q & b & n & front & I).
    assert (Einb : inbox (dat s') = q).
    { rewrite (in_dat _ _ _ _ _ _ _ _ _ _ _ _ _ _ _ I). apply (dst_queue d g_q). apply (in_okm _ _ _ _ _ _ _ _ _ _ _ _ _ _ _ I). }
    pose proof (in_lg _ _ _ _ _ _ _ _ _ _ _ _ _ _ _ I) as Hlg.
    assert (Hpre : forall k, k < length ws -> exists more, sent k = events_of k lg ++ more).
    { intros k Hk.
      destruct (ws_qs d ws g_q k qs (in_len _ _ _ _ _ _ _ _ _ _ _ _ _ _ _ I) Hk) as (w2 & p & H2 & Hp).
      pose proof (in_run _ _ _ _ _ _ _ _ _ _ _ _ _ _ _ I k w2 p H2 Hp) as Hrun.
      destruct (hrun_frame _ _ _ _ _ _ _ _ Hrun) as (_ & m' & out & E & _).
      unfold fino in E. cbn [snd] in E. rewrite E. simpl. eauto. }
    assert (Hlen : length (inbox d ++ map snd lg) < fuel).
    { rewrite app_length, map_length.
      enough (length lg <= list_sum (map (fun k => length (sent k)) (seq 0 (length ws)))) by lia.
      rewrite (events_sum lg (length ws) Hlg). clear - Hpre.
      assert (G : forall l, (forall k, In k l -> k < length ws) ->
        list_sum (map (fun k => length (events_of k lg)) l) <= list_sum (map (fun k => length (sent k)) l)).
      { induction l as [|k l IH]; intros Hl; [simpl; lia|]. unfold list_sum in *. cbn [map fold_right].
        destruct (Hpre k (Hl k (or_introl eq_refl))) as [more E]. rewrite E, app_length.
        specialize (IH (fun j Hj => Hl j (or_intror Hj))). lia. }
      apply G. intros k Hk. apply in_seq in Hk. lia. }
    exists lg, front. split; [exact Hlg|]. split; [exact Hpre|].
    pose proof (in_front _ _ _ _ _ _ _ _ _ _ _ _ _ _ _ I) as Hfr. rewrite Einb. split; [exact Hfr|]. split.
    { intros k w x Hk Hx.
      destruct (ws_qs d ws g_q k qs (in_len _ _ _ _ _ _ _ _ _ _ _ _ _ _ _ I)) as (w2 & p & H2 & Hp).
      { apply lookup_lt_is_Some_1. eauto. }
      rewrite Hk in H2. injection H2 as <-.
      rewrite (in_ps _ _ _ _ _ _ _ _ _ _ _ _ _ _ _ I k _ p Hk Hp) in Hx.
      pose proof (in_run _ _ _ _ _ _ _ _ _ _ _ _ _ _ _ I k _ p Hk Hp) as Hrun.
      destruct p as [y|y|]; try discriminate. simpl in Hx. injection Hx as ->. simpl in Hrun.
      injection Hrun as E1 E2.
      split; [exact E1|]. rewrite <- E2. split; [reflexivity|].
      rewrite (in_dat _ _ _ _ _ _ _ _ _ _ _ _ _ _ _ I). reflexivity. }
    pose proof (g_main_alone (inbox d ++ map snd lg)) as Hma.
    pose proof (in_main _ _ _ _ _ _ _ _ _ _ _ _ _ _ _ I []) as Hmr. rewrite !app_nil_r in Hmr.
    rewrite g_dst_set_queue in Hmr. pose proof (in_pm _ _ _ _ _ _ _ _ _ _ _ _ _ _ _ I) as Hpm.
    split; [|split].
    - intros x Hx. rewrite Hpm in Hx. destruct qm as [y|y|]; try discriminate. simpl in Hx. injection Hx as ->.
      destruct (wait_cut (inbox d ++ map snd lg) (s_n d)) as [[h rest]|].
      + destruct Hma as [Eq Hma]. destruct (Hma Hlen) as (d' & (hs & E & Hh) & E1 & E2 & E3 & E4).
        rewrite E in Hmr. simpl in Hmr. injection Hmr as -> E5 _. split; [reflexivity|].
        assert (Eq2 : q = rest). { rewrite <- E3, <- E5. symmetry. apply (dst_queue d g_q _ q b n (okm_0 d)). }
        rewrite <- Eq2 in Eq |- *. rewrite Hfr in Eq. apply app_inv_tail in Eq. split.
        * rewrite Eq. reflexivity.
        * rewrite Eq. destruct E4 as (g & G1 & G2 & G3 & G4). exists g.
          rewrite <- E5 in G1, G2, G3, G4. rewrite (in_dat _ _ _ _ _ _ _ _ _ _ _ _ _ _ _ I). exact (conj G1 (conj G2 (conj G3 G4))).
      + destruct (Hma Hlen) as (d' & hs & E & _). rewrite E in Hmr. discriminate.
    - destruct (inv_progress d ws main0 fino g_ws g_q g_disc _ _ _ _ _ _ _ _ _ _ _ I) as [Hmv|[Hall Hend]]; [left; exact Hmv|right].
      assert (Hall' : forall k, k < length ws -> exists x, ps' !! k = Some (Ret x)).
      { intros k Hk.
        destruct (ws_qs d ws g_q k qs (in_len _ _ _ _ _ _ _ _ _ _ _ _ _ _ _ I) Hk) as (w2 & p & H2 & Hp).
        pose proof (Hall k p Hp) as Hfin.
        rewrite (in_ps _ _ _ _ _ _ _ _ _ _ _ _ _ _ _ I k _ p H2 Hp).
        pose proof (in_run _ _ _ _ _ _ _ _ _ _ _ _ _ _ _ I k _ p H2 Hp) as Hrun.
        destruct p as [y|y|]; [simpl; eauto| |discriminate]. exfalso. simpl in Hrun. discriminate. }
      split; [exact Hall'|]. rewrite g_dst_set_queue in Hend.
      destruct (wait_cut (inbox d ++ map snd lg) (s_n d)) as [[h rest]|]; [|right; reflexivity].
      destruct Hma as [_ Hma]. destruct (Hma Hlen) as (d' & (hs & E & _) & _).
      destruct Hend as [Hfin|(d2 & hs2 & E2)]; [|congruence]. left. split.
      + rewrite E in Hmr. destruct qm as [y|y|]; [rewrite Hpm; simpl; eauto|discriminate|discriminate].
      + eapply (inv_end d ws main0 fino g_q g_disc); eassumption.
    - exact (in_plen _ _ _ _ _ _ _ _ _ _ _ _ _ _ _ I).
  Qed.

  (** ** Every program sends exactly one end signal, at its end *)
  Hypotheses (Hi : inbox d = []) (Hn : s_n d = Z.of_nat (length ws)) (Hne : ws <> [])
             (He : forall k, k < length ws -> ends_once (sent k)).
  Let xss := map (fun k => sent k) (seq 0 (length ws)).
  Lemma g_xss k xs : xss !! k = Some xs -> k < length ws /\ xs = sent k /\ ends_once xs.
  Proof.
    unfold xss. rewrite lookup_map. intros H. destruct (seq 0 (length ws) !! k) as [j|] eqn:E; [|discriminate].
    simpl in H. injection H as <-. apply lookup_seq in E. destruct E as [-> E]. simpl. auto.
  Qed.
  Lemma g_xss_at k : k < length ws -> xss !! k = Some (sent k).
  Proof. intros H. unfold xss. rewrite lookup_map, lookup_seq_lt by exact H. reflexivity. Qed.
  Lemma g_xss_len : length xss = length ws.
  Proof. unfold xss. rewrite map_length. apply seq_length. Qed.
  Lemma g_pos : 1 <= length ws.
  Proof. clear - Hne. destruct ws; [congruence|simpl; lia]. Qed.

  Lemma gen_returned sch ps' s' x : sched_run sch (start ws main0, idle d) = Some (ps', s') ->
    ps' !! length ws = Some (Ret x) ->
    x = wd (Good tt) /\ inbox (dat s') = [] /\ s_n (dat s') = 0%Z /\
    exists lg, order_of xss lg /\ received m d (dat s') (map snd lg).
  Proof.
    intros Hs Hx. destruct (gen_run sch ps' s' Hs) as (lg & taken & H1 & H2 & H3 & _ & H5 & _).
    destruct (H5 x Hx) as (-> & Hcut & Hrec). split; [reflexivity|]. rewrite Hi in *. simpl in H3, Hcut.
    destruct (split_log lg taken (inbox (dat s')) H3) as (lg1 & lg2 & -> & E1 & E2).
    assert (Hxs : forall k xs, xss !! k = Some xs -> ends_once xs /\ exists more, xs = events_of k (lg1 ++ lg2) ++ more).
    { intros k xs Hk. destruct (g_xss k xs Hk) as (Hk' & -> & Ho). split; [exact Ho|]. apply (H2 k Hk'). }
    rewrite <- g_xss_len in H1. pose proof (plain_log xss _ H1 Hxs) as Hpl.
    pose proof (cut_ends _ _ _ _ Hpl Hcut) as Hends. rewrite Hn in Hends. pose proof g_pos as Hpos.
    destruct (all_ends xss lg1 lg2 H1 Hxs) as [-> Hall].
    { rewrite E1, g_xss_len. lia. }
    simpl in E2. rewrite <- E2. split; [reflexivity|].
    rewrite app_nil_r in *. destruct Hrec as (g & G1 & G2 & G3 & G4).
    assert (Hp1 : Forall (fun x => plain x = true) taken) by (rewrite <- E1; exact Hpl).
    pose proof (log_msgs_n _ _ _ _ _ Hp1 G1) as En. split; [rewrite En, Hn; lia|].
    exists lg1. split.
    - split; [exact H1|]. intros i cs Hics. rewrite lookup_nth in Hics. apply Hall, Hics.
    - rewrite E1. exists g. auto.
  Qed.

  Lemma gen_ends sch ps' s' : sched_run sch (start ws main0, idle d) = Some (ps', s') ->
    (forall j, cstep j (ps', s') = None) ->
    Forall (fun p => exists x, p = Ret x) ps' /\ lks s' = stdpp.base.empty.
  Proof.
    intros Hs Hno. destruct (gen_run sch ps' s' Hs) as (lg & taken & H1 & H2 & H3 & H4 & H5 & H6 & Hlen).
    destruct H6 as [(j & c & E)|[Hall H6]]; [rewrite Hno in E; discriminate|].
    destruct H6 as [[[x Hx] Hl]|Hcut].
    - split; [|exact Hl]. apply List.Forall_forall. intros p Hp. apply elem_of_list_In, elem_of_list_lookup_1 in Hp. destruct Hp as [k Hk].
      assert (Hlt : k < S (length ws)) by (rewrite <- Hlen; apply lookup_lt_is_Some_1; eauto).
      destruct (decide (k = length ws)) as [->|Hnk]; [exists x; congruence|].
      destruct (Hall k) as [y Hy]; [lia|]. exists y. congruence.
    - exfalso. rewrite Hi in Hcut. simpl in Hcut.
      assert (Hcomplete : forall k, k < length ws -> events_of k lg = sent k).
      { intros k Hk. destruct (Hall k Hk) as [y Hy]. destruct (lookup_lt_is_Some_2 ws k Hk) as [w Hwk]. apply (H4 k w y Hwk Hy). }
      assert (Hxs : forall k xs, xss !! k = Some xs -> ends_once xs /\ exists more, xs = events_of k lg ++ more).
      { intros k xs Hk. destruct (g_xss k xs Hk) as (Hk' & -> & Ho). split; [exact Ho|]. apply (H2 k Hk'). }
      pose proof H1 as H1'. rewrite <- g_xss_len in H1'. pose proof (cut_none _ _ (plain_log xss _ H1' Hxs) Hcut) as Hlt.
      rewrite (ends_sum lg (length ws) H1), Hn in Hlt. pose proof g_pos as Hpos.
      assert (G : forall l, (forall j, In j l -> j < length ws) -> list_sum (map (fun k => ends (events_of k lg)) l) = length l).
      { induction l as [|j l IH]; intros Hl; simpl; [reflexivity|].
        rewrite (Hcomplete j (Hl j (or_introl eq_refl))), IH by (intros i Hii; apply Hl; right; exact Hii).
        destruct (He j (Hl j (or_introl eq_refl))) as (pre & e & -> & Hpre & Hee). rewrite ends_app.
        assert (E0 : ends pre = 0). { clear - Hpre. unfold ends. induction Hpre as [|y l Hy _ IHl]; simpl; [reflexivity|]. destruct y; try discriminate; exact IHl. }
        unfold ends at 2. simpl. rewrite Hee, E0. simpl. lia. }
      rewrite G in Hlt; [rewrite seq_length in Hlt; lia|]. intros j Hj. apply in_seq in Hj. lia.
  Qed.

  (** The programs speak in whole lines. *)
  Lemma gen_lines (itemss : list (list item)) sch ps' s' x : current d = [] -> length itemss = length ws ->
    (forall k items, itemss !! k = Some items -> recorded (sent k) items) ->
    sched_run sch (start ws main0, idle d) = Some (ps', s') ->
    ps' !! length ws = Some (Ret x) ->
    exists li, order_of itemss li /\ records (dat s') = last_items m (records d ++ map snd li) /\ current (dat s') = [].
  Proof.
    intros Hcur Hlen Hrecd Hs Hx. destruct (gen_returned sch ps' s' x Hs Hx) as (_ & _ & _ & lg & [Hb Ho] & Hrec).
    rewrite g_xss_len in Hb.
    destruct (recorded_merge (fun k => k < length ws) lg (fun k => match itemss !! k with Some l => l | None => [] end) Hb) as (li & L1 & L2 & L3).
    { intros k. destruct (itemss !! k) as [items|] eqn:Ek.
      - rewrite (Ho k (sent k)); [apply Hrecd, Ek|]. rewrite lookup_nth. apply g_xss_at. rewrite <- Hlen. apply lookup_lt_is_Some_1. eauto.
      - replace (events_of k lg) with (@nil msg); [constructor|]. apply lookup_ge_None_1 in Ek. rewrite Hlen in Ek.
        clear - Hb Ek. unfold events_of. induction Hb as [|[j y] l Hj _ IH]; simpl; [reflexivity|].
        destruct (Nat.eqb j k) eqn:E; [|exact IH]. apply Nat.eqb_eq in E. simpl in Hj. lia. }
    exists li. split.
    - split; [rewrite Hlen; exact L1|]. intros i cs Hic. rewrite L2. rewrite lookup_nth in Hic. rewrite Hic. reflexivity.
    - destruct Hrec as (g & G1 & G2 & G3 & _). rewrite Hcur in G1. apply (recorded_log _ _ L3) in G1. subst g. auto.
  Qed.
End Gen.
