(** * PrintHost: printing into a LineHostMirror *)
From stdpp Require Import gmap.
From Coq Require Import List NArith ZArith Bool Arith Lia.
From Verif Require Import PyStr Prog ProgFacts PyIO Base Spec SpecFacts LineBuf LineBufFacts LineBufSpec LineBufProofs
  Atomic Json JsonSpec Host HostSpec HostFacts HostProofs HostCli HostCliSpec HostCliFacts HostCliProofs Ctx Print PrintSpec PrintProofs.
Import ListNotations.
Local Open Scope nat_scope.

Lemma stop_server_ok E m w g b : 1 <= m -> server E m (w_srv w) g b -> server E m (w_srv (stop_server E w)) g true.
Proof.
  intros Hm Hs. pose proof (served_snoc E m _ HStopAll 0 (srv_served _ _ _ _ _ Hs)) as H.
  unfold stop_server. cbn [w_srv]. destruct (server_abs E m _ g b Hm Hs) as (sd & Hd & Hj). rewrite Hd in *.
  rewrite run_h_call in *. cbn [snd dat] in *.
  change (snd (srun (h_call E HStopAll) (hsd m (absg m g) sd))) with (hsd m (absg m g) (jput k_closed (JBool true) sd)) in *.
  apply server_mk; [exact H|apply jget_jput].
Qed.

Section Mirror.
  Variables (E : henv) (M : hmir) (m : nat) (g0 : slog) (v0 : text).
  Hypotheses (HM : has_rlock M) (Hm : 1 <= m).
  Notation write := (fun data => @on ccmd world nat (clisem E) (hm_write M data)).
  Notation exit_ := (fun e => @on ccmd world unit (clisem E) (hm_close M e)).

  Lemma on_write data w r w' : call E 0 (OnMir M (HWrite data)) w = (r, mkst w' ∅) ->
    exists x, write data w = (x, w') /\ r = match x with Good n => Good (CNat n) | Fail e => Fail e | Block => Block end.
  Proof.
    unfold call, ev_run. cbn [c_call m_call]. unfold as_cres, on. rewrite run_bind.
    destruct (run 0 (hm_write M data) (mkst w ∅)) as [x s]. destruct x; intros [= <- ->]; eexists; split; reflexivity.
  Qed.
  Lemma on_close e w r w' : call E 0 (OnMir M (HClose e)) w = (r, mkst w' ∅) ->
    exists x, exit_ e w = (x, w') /\ r = match x with Good n => Good CUnit | Fail e => Fail e | Block => Block end.
  Proof.
    unfold call, ev_run. cbn [c_call m_call]. unfold as_cres, on. rewrite run_bind.
    destruct (run 0 (hm_close M e) (mkst w ∅)) as [x s]. destruct x as [[]| |]; intros [= <- ->]; eexists; split; reflexivity.
  Qed.

  Lemma mcalls_snoc ag cs x ms rs x1 c ms' r x2 : mcalls_do ag cs x ms rs x1 -> mcall_does ag c x1 ms' r x2 ->
    mcalls_do ag (cs ++ [c]) x (ms ++ ms') (rs ++ [r]) x2.
  Proof.
    induction 1; intros H2; cbn.
    - rewrite <- (app_nil_r ms'). econstructor; [exact H2|constructor].
    - rewrite <- app_assoc. econstructor; eauto.
  Qed.

  (** What the writes have done so far. *)
  Definition did (w0 : world) (ts : list text) (w : world) : Prop :=
    exists v ms rs g, mcalls_do (hm_aggr M) (map HWrite ts) (Some v0) ms rs (Some v) /\ hmsg_steps E ms g0 g /\
      (hm_aggr M = true -> v = []) /\
      server E m (w_srv w) g false /\ w_faults w = [] /\ mirror_is M (Some v) w /\ others_same M w0 w.

  Lemma did_nil w : server E m (w_srv w) g0 false -> w_faults w = [] -> mirror_is M (Some v0) w -> (hm_aggr M = true -> v0 = []) ->
    did w [] w.
  Proof.
    intros. exists v0, [], [], g0. split; [constructor|]. split; [constructor|]. repeat (split; [assumption|]). intros j _. reflexivity.
  Qed.

  Lemma next_nil a fs : next_request [] a fs -> a = Delivered /\ fs = [].
  Proof. intros H. inversion H; auto. Qed.

  Lemma did_write w0 ts w data : did w0 ts w -> True -> exists n w1, write data w = (Good n, w1) /\ did w0 (ts ++ [data]) w1.
  Proof using HM Hm.
    intros (v & ms & rs & g & H1 & H2 & Hag & H3 & H4 & H5 & H6) _.
    destruct (write_faults E M HM 0 m data v g w Hm H3 ltac:(rewrite H4; constructor) H5)
      as (ok & taken & sent & v' & g' & r & w' & A1 & A2 & A3 & A4 & A5 & A6 & A7 & A8).
    destruct (on_write _ _ _ _ A2) as (x & Hx & Hr).
    assert (Hd : ok = true /\ w_faults w' = [] /\ (hm_aggr M = true -> v' = []) /\
                 mcall_does (hm_aggr M) (HWrite data) (Some v) (map says_text sent) (Good (CNat (length data))) (Some v')).
    { rewrite H4 in A1.
      inversion A1 as [a f1 Ha Hn E1 E2 E3 E4 E5|f1 Ha Hb Hn E1 E2 E3 E4 E5|f1 a f2 Ha Hb Hn1 Hn2 E1 E2 E3 E4 E5|f1 a f2 Ha Hn1 Hn2 E1 E2 E3 E4 E5]; subst.
      - apply next_nil in Hn as [-> _]. congruence.
      - apply next_nil in Hn as [_ Ef]. rewrite Ha. split; [reflexivity|]. split; [exact Ef|]. split; [discriminate|].
        apply md_hold; auto.
      - apply next_nil in Hn1 as [_ ->]. apply next_nil in Hn2 as [-> Ef]. rewrite Ha.
        split; [reflexivity|]. split; [exact Ef|]. split; [discriminate|]. apply md_send; auto.
      - apply next_nil in Hn1 as [_ ->]. apply next_nil in Hn2 as [-> Ef]. rewrite Ha.
        split; [reflexivity|]. split; [exact Ef|]. split; [intros _; apply Hag, Ha|]. apply md_at_once; auto. }
    destruct Hd as (-> & F & Hag' & Hd). cbn [write_result] in A3. subst r.
    destruct x as [n| |]; try discriminate. exists n, w'. split; [exact Hx|].
    exists v', (ms ++ map says_text sent), (rs ++ [Good (CNat (length data))]), g'. rewrite map_app. cbn [map].
    split; [eapply mcalls_snoc; eassumption|]. split; [eapply steps_app; eassumption|].
    split; [exact Hag'|]. split; [exact A5|]. split; [exact F|]. split; [exact A6|].
    intros j Hj. rewrite (A7 j Hj). apply H6, Hj.
  Qed.

  (** Stopped. *)
  Definition stuck (w0 w : world) : Prop :=
    w_faults w = [] /\ w_mir w = w_mir w0 /\ forall g, server E m (w_srv w0) g false -> server E m (w_srv w) g true.

  Lemma stuck_again w0 w (n : nat) : stuck w0 w -> stuck w0 (stop_server E w).
  Proof using Hm. intros (H1 & H2 & H3). split; [exact H1|]. split; [exact H2|]. intros g Hg. eapply stop_server_ok; eauto. Qed.
  Lemma stuck_now w0 ts w (n : nat) : did w0 ts w -> stuck w (stop_server E w).
  Proof using Hm.
    intros (v & ms & rs & g & H1 & H2 & Hag & H3 & H4 & H5 & H6). split; [exact H4|]. split; [reflexivity|].
    intros g' Hg. eapply stop_server_ok; eauto.
  Qed.
  Lemma stuck_write w0 w data : (exists ts w00, did w00 ts w0) /\ stuck w0 w ->
    exists w1, write data w = (Fail StopIteration, w1) /\ ((exists ts w00, did w00 ts w0) /\ stuck w0 w1).
  Proof using HM.
    intros [Hd (H1 & H2 & H3)]. pose proof Hd as (ts & w00 & v & ms & rs & g & K1 & K2 & Kag & K3 & K4 & K5 & K6).
    assert (Hv : mirror_is M (Some v) w) by (unfold mirror_is in *; rewrite H2; exact K5).
    pose proof (stopped_write E M HM 0 data v w H1 (srv_flag _ _ _ _ _ (H3 g K3)) Hv) as Hc.
    destruct (on_write _ _ _ _ Hc) as (x & Hx & Hr). destruct x; try discriminate. injection Hr as <-.
    exists w. split; [exact Hx|]. split; [exact Hd|]. split; auto.
  Qed.

  Lemma c_with_host k exc b s w r s' w' : well_nested b -> ~ In k (entered b) ->
    server E m (w_srv w) g0 false -> w_faults w = [] -> mirror_is M (Some v0) w -> (hm_aggr M = true -> v0 = []) ->
    kexec (host_mirror k E M (fun _ w => w) exc) (KWith (Buf k) b) s w = (r, s', w') ->
    exists l ms rs g, told exc (Some k) (Some k) b l r /\ all_good l /\ r <> Hangs /\ out s' = out s /\ err s' = err s /\
      mcalls_do (hm_aggr M) (map HWrite (texts_to k l) ++ [HClose (exc_value r)]) (Some v0) ms rs None /\
      hmsg_steps E ms g0 g /\ server E m (w_srv w') g false /\ mirror_is M None w' /\ others_same M w w'.
  Proof using HM Hm.
    intros Hn Hk Hs Hf Hv Hag Ek. unfold host_mirror in Ek.
    destruct (with_alone _ _ _ _ _ _ _ _ _ _ _ Hn Hk Ek) as (l & r0 & w1 & H1 & H2 & _ & H4).
    assert (Hw : within (fun _ => True) (entered b) l).
    { eapply told_within; [|exact H1]. apply List.Forall_forall. auto. }
    destruct (alone_effects k _ _ _ _ did (fun _ => True) l did_write (fun _ _ _ _ H => H) (entered b) Hk Hw w [] w w1 (did_nil w Hs Hf Hv Hag) H2)
      as [Hg (v & ms & rs & g & K1 & K2 & Kag & K3 & K4 & K5 & K6)]. cbn [app] in K1.
    pose proof (told_good _ _ _ _ _ _ H1 Hg) as Hr0. destruct (H4 Hr0) as (Ho & Hrr & x & Hx & Hrx).
    destruct (close_up E M HM 0 m (exc_value r0) v g false w1 Hm K3 K4 K5 Kag ltac:(discriminate))
      as (g' & w2 & C1 & C2 & C3 & C4 & C5 & C6).
    destruct (on_close _ _ _ _ C2) as (y & Hy & Hry). rewrite Hx in Hy. injection Hy as -> ->.
    destruct y as [u| |]; try discriminate. cbn [after_call] in Hrx. subst r.
    exists l, (ms ++ says_line v ++ [close_says (exc_value r0)]), (rs ++ [Good CUnit]), g'.
    repeat (split; [assumption|]). split.
    { eapply mcalls_snoc; [exact K1|]. destruct (exc_value r0); constructor. }
    split; [eapply steps_app; eassumption|]. split; [exact C3|]. split; [exact C5|].
    intros j Hj. rewrite (C6 j Hj). apply K6, Hj.
  Qed.

  (** The stop signal arrives inside the block. *)
  Lemma c_stop_host k exc b s w r s' w' : well_nested b -> ~ In k (entered b) ->
    server E m (w_srv w) g0 false -> w_faults w = [] -> mirror_is M (Some v0) w -> (hm_aggr M = true -> v0 = []) ->
    kexec (host_mirror k E M (fun _ => stop_server E) exc) (KWith (Buf k) b) s w = (r, s', w') ->
    exists l r0, told exc (Some k) (Some k) b l r0 /\ r <> Hangs /\ out s' = out s /\ err s' = err s /\
    forall l1 n l2, l = l1 ++ Happened n :: l2 -> quiet l1 ->
    exists v ms rs g, mcalls_do (hm_aggr M) (map HWrite (texts_to k l1)) (Some v0) ms rs (Some v) /\ hmsg_steps E ms g0 g /\ all_good l1 /\
      (forall o data x, In (Wrote o data x) l2 -> x = if o =? k then Fail StopIteration else Good (length data)) /\
      (v <> [] -> (forall e, exc_value r0 = Some e -> ex_cls e <> ExcStopIteration) ->
         r = Throws (exc StopIteration) /\ server E m (w_srv w') g true /\ mirror_is M (Some v) w') /\
      (v = [] \/ (exists e, exc_value r0 = Some e /\ ex_cls e = ExcStopIteration) ->
         r = r0 /\ mirror_is M None w' /\
         exists ms' g', mcall_does (hm_aggr M) (HClose (exc_value r0)) (Some v) ms' (Good CUnit) None /\
           hmsg_steps E ms' g g' /\ server E m (w_srv w') g' true).
  Proof using HM Hm.
    intros Hn Hk Hs Hf Hv Hag Ek. unfold host_mirror in Ek.
    destruct (with_alone _ _ _ _ _ _ _ _ _ _ _ Hn Hk Ek) as (l & r0 & w1 & H1 & H2 & _ & H4).
    assert (Hw : within (fun _ => True) (entered b) l).
    { eapply told_within; [|exact H1]. apply List.Forall_forall. auto. }
    destruct (stop_generic k _ _ (fun _ => stop_server E) exc did (fun w0 w => (exists ts w00, did w00 ts w0) /\ stuck w0 w)
       did_write stuck_write
       ltac:(intros x ts y n Hd; split; [eauto|eapply stuck_now; eauto])
       ltac:(intros x y n [Hd Hst]; split; [exact Hd|apply stuck_again; auto])
       (entered b) l Hk Hw w w1 (did_nil w Hs Hf Hv Hag) H2) as (Hsplit & Hquiet & Hnh).
    pose proof (Hnh _ _ _ _ H1) as Hr0. destruct (H4 Hr0) as (Ho & Hrr & x & Hx & Hrx).
    (* what close does, stopped or not *)
    assert (Hclose : forall v g st, server E m (w_srv w1) g st -> w_faults w1 = [] -> mirror_is M (Some v) w1 -> (hm_aggr M = true -> v = []) ->
       (st = true /\ v <> [] /\ (forall e, exc_value r0 = Some e -> ex_cls e <> ExcStopIteration) /\ x = Fail StopIteration /\ w' = w1) \/
       (~ (st = true /\ v <> [] /\ (forall e, exc_value r0 = Some e -> ex_cls e <> ExcStopIteration)) /\
        (exists u, x = Good u) /\ mirror_is M None w' /\ exists g', hmsg_steps E (says_line v ++ [close_says (exc_value r0)]) g g' /\ server E m (w_srv w') g' st)).
    { intros v g st S1 S2 S3 S4.
      assert (Hdec : (st = true /\ v <> [] /\ (forall e, exc_value r0 = Some e -> ex_cls e <> ExcStopIteration)) \/
                     (st = true -> v = [] \/ exists e, exc_value r0 = Some e /\ ex_cls e = ExcStopIteration)).
      { destruct st; [|right; discriminate]. destruct v; [right; auto|]. destruct (exc_value r0) as [e|].
        - destruct (is_stop e) eqn:Ee.
          + right. intros _. right. exists e. split; [reflexivity|]. unfold is_stop in Ee. destruct (ex_cls e); congruence.
          + left. split; [reflexivity|]. split; [discriminate|]. intros e' [= <-] Hc. unfold is_stop in Ee. rewrite Hc in Ee. discriminate.
        - left. split; [reflexivity|]. split; [discriminate|]. discriminate. }
      destruct Hdec as [(-> & Hne & Hx1)|Hd].
      - left. split; [reflexivity|]. split; [exact Hne|]. split; [exact Hx1|].
        pose proof (close_stopped E M HM 0 (exc_value r0) v w1 S2 (srv_flag _ _ _ _ _ S1) S3 Hne Hx1) as Hc.
        destruct (on_close _ _ _ _ Hc) as (y & Hy & Hry). rewrite Hx in Hy. injection Hy as -> ->.
        destruct y; try discriminate. injection Hry as <-. auto.
      - right. split.
        { intros (-> & Hne & Hx1). destruct (Hd eq_refl) as [?|(e & He & Hc)]; [congruence|]. exact (Hx1 e He Hc). }
        destruct (close_up E M HM 0 m (exc_value r0) v g st w1 Hm S1 S2 S3 S4 Hd) as (g' & w2 & C1 & C2 & C3 & C4 & C5 & C6).
        destruct (on_close _ _ _ _ C2) as (y & Hy & Hry). rewrite Hx in Hy. injection Hy as -> ->.
        destruct y as [u| |]; try discriminate. split; [eauto|]. split; [exact C5|]. eauto. }
    assert (Hxb : x <> Block).
    { assert (Hany : exists v g st, server E m (w_srv w1) g st /\ w_faults w1 = [] /\ mirror_is M (Some v) w1 /\ (hm_aggr M = true -> v = [])).
      { destruct (first_event l) as [(l1 & n & l2 & El & HQ)|HQ].
        - destruct (Hsplit _ _ _ El HQ) as (w2 & _ & (v & ms & rs & g & K1 & K2 & Kag & K3 & K4 & K5 & K6) & [_ (S1 & S2 & S3)] & _).
          exists v, g, true. split; [apply S3, K3|]. split; [exact S1|]. split; [|exact Kag]. unfold mirror_is in *. rewrite S2. exact K5.
        - destruct (Hquiet HQ) as [_ (v & ms & rs & g & K1 & K2 & Kag & K3 & K4 & K5 & K6)]. exists v, g, false. auto. }
      destruct Hany as (v & g & st & S1 & S2 & S3 & S4).
      destruct (Hclose v g st S1 S2 S3 S4) as [(_ & _ & _ & -> & _)|(_ & [u ->] & _)]; discriminate. }
    exists l, r0. split; [exact H1|]. split; [rewrite Hrx; destruct x; [assumption|discriminate|congruence]|].
    split; [exact Ho|]. split; [exact Hrr|]. intros l1 n l2 El HQ.
    destruct (Hsplit _ _ _ El HQ) as (w2 & Hg & (v & ms & rs & g & K1 & K2 & Kag & K3 & K4 & K5 & K6) & [_ (S1 & S2 & S3)] & Hl2).
    assert (Hv1 : mirror_is M (Some v) w1) by (unfold mirror_is in *; rewrite S2; exact K5).
    specialize (Hclose v g true (S3 g K3) S1 Hv1 Kag).
    exists v, ms, rs, g. repeat (split; [assumption|]). split.
    - intros Hne Hx1. destruct Hclose as [(_ & _ & _ & -> & ->)|(Hno & _)]; [|exfalso; apply Hno; auto].
      split; [exact Hrx|]. split; [apply S3, K3|exact Hv1].
    - intros Hd. destruct Hclose as [(_ & Hne & Hx1 & _)|(_ & [u ->] & Hc & g' & G1 & G2)].
      { exfalso. destruct Hd as [?|(e & He & Hc)]; [congruence|]. exact (Hx1 e He Hc). }
      split; [exact Hrx|]. split; [exact Hc|]. eexists _, g'. split; [|split; [exact G1|exact G2]].
      destruct (exc_value r0); constructor.
  Qed.
End Mirror.
