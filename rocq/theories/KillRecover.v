(** * KillRecover: what force_stop() does after processes were killed (lemmas for C101) *)
From stdpp Require Import gmap.
From Coq Require Import List NArith ZArith Bool Arith Lia.
From Verif Require Import PyStr Prog ProgFacts PyIO Base Spec LineBuf Locks Held Stable Proc ProcSpec ProcFacts ProcMain ProcSeq ProcHist ProcProofs ProcSysProofs ProcRun ProcPool ProcPoolProofs CountSpec CountProofs StopProofs Kill KillFacts KillProcSpec KillProc.
Import ListNotations.
Local Open Scope prog_scope.
Local Open Scope nat_scope.

(** ** One thread goes on alone while the others hold locks that it does not use *)
Section Mid.
  Context {C : Type -> Type} {D : Type} `{!Sem C D}.
  Notation cnt := (count_occ Nat.eq_dec).
  Lemma hrun_run_mid {A} (P : nat -> Prop) t (p : prog C A) : forall d hs r d' hs' held k,
    hrun p d hs = Some (r, d', hs') -> lock_inv held k -> held t = hs -> acqs P p -> Forall P hs ->
    (forall l j, P l -> j <> t -> cnt (held j) l = 0) ->
    exists k', run t p (mkst d k) = (r, mkst d' k') /\ lock_inv (upd held t hs') k' /\ forall l, ~ P l -> k' !! l = k !! l.
  Proof.
    induction p as [a|e|X c k0 IHk h IHh]; intros d hs r d' hs' held k Hp Hl Hh Ha Hs Ho; simpl in *.
    - injection Hp as <- <- <-. exists k. split; [reflexivity|]. split; [|auto]. eapply lock_inv_ext; [|exact Hl].
      intros j. unfold upd. destruct (Nat.eqb_spec j t) as [->|]; auto.
    - injection Hp as <- <- <-. exists k. split; [reflexivity|]. split; [|auto]. eapply lock_inv_ext; [|exact Hl].
      intros j. unfold upd. destruct (Nat.eqb_spec j t) as [->|]; auto.
    - assert (Hupd : forall h1 h2, forall j, upd (upd held t h1) t h2 j = upd held t h2 j).
      { intros h1 h2 j. unfold upd. destruct (j =? t); reflexivity. }
      assert (Ho' : forall h1 l j, P l -> j <> t -> cnt (upd held t h1 j) l = 0).
      { intros h1 l j Hl' Hj. rewrite upd_ne by exact Hj. auto. }
      destruct Ha as (Hc & Hk & Hh').
      destruct c as [l m|l|X c]; simpl.
      + destruct (allowedb hs l m) eqn:Ea; [|discriminate]. apply allowedb_may in Ea. rewrite <- Hh in Ea.
        destruct (acq_free held k t l m Hl Ea) as [k1 E1]; [intros j Hj; auto|].
        rewrite E1. destruct (acq_inv _ _ _ _ _ _ _ Hl (proj1 Ea) E1 ltac:(discriminate)) as [_ Hl1]. rewrite Hh in Hl1.
        destruct (IHk tt d (l :: hs) r d' hs' (upd held t (l :: hs)) k1) as (k' & G1 & G2 & G3); auto.
        { apply upd_eq. }
        exists k'. split; [exact G1|]. split; [eapply lock_inv_ext; [|exact G2]; apply Hupd|].
        intros l' Hl'. rewrite G3 by exact Hl'. unfold lock_acq in E1.
        assert (l <> l') by congruence.
        destruct m, (k !! l) as [[o n|os]|]; try (destruct (reent l && (o =? t))); try discriminate;
          injection E1 as <-; apply lookup_insert_ne; auto.
      + destruct hs as [|l' hs0]; [discriminate|]. destruct (Nat.eqb_spec l' l) as [->|]; [|discriminate].
        destruct (lock_rel t l k) as [r1 k1] eqn:E1.
        destruct (rel_inv _ _ _ _ hs0 _ _ Hl Hh E1) as [-> Hl1]. inversion Hs as [|? ? Hs1 Hs2]; subst.
        destruct (IHk tt d hs0 r d' hs' (upd held t hs0) k1) as (k' & G1 & G2 & G3); auto.
        { apply upd_eq. }
        exists k'. split; [exact G1|]. split; [eapply lock_inv_ext; [|exact G2]; apply Hupd|].
        intros l' Hl'. rewrite G3 by exact Hl'. unfold lock_rel in E1. assert (l <> l') by congruence.
        destruct (k !! l) as [[o [|[|n]]|os]|]; [..|destruct (remove1 t os)|]; try discriminate;
          injection E1 as <-; rewrite ?lookup_delete_ne, ?lookup_insert_ne by auto; reflexivity.
      + destruct (cexec c d) as [[x|e|] d1]; [eauto|eauto|]. injection Hp as <- <- <-. exists k. split; [reflexivity|].
        split; [|auto]. eapply lock_inv_ext; [|exact Hl]. intros j. unfold upd. destruct (Nat.eqb_spec j t) as [->|]; auto.
  Qed.
End Mid.

(** ** The main process does not look at the mirrors *)
Section Frame.
  Variable d : psys.
  Hypothesis q_ok : cur_q d < length (s_qs d).
  Lemma main_frame {A} (p : prog pcmd A) : main_only p -> forall mirs q b n hs r d' hs', okm d mirs ->
    hrun p (dst d (s_mirs d) q b n) hs = Some (r, d', hs') -> r <> Block ->
    exists q' b' n', d' = dst d (s_mirs d) q' b' n' /\ hrun p (dst d mirs q b n) hs = Some (r, dst d mirs q' b' n', hs').
  Proof using q_ok.
    induction p as [a|e|X c k IHk h IHh]; intros Hm mirs q b n hs r d' hs' Ho E Hb; simpl in E |- *.
    - injection E as <- <- <-. eauto 6.
    - injection E as <- <- <-. eauto 6.
    - destruct Hm as (Hc & Hk & Hh). destruct c as [l m|l|X c]; simpl in E |- *.
      + destruct (allowedb hs l m); [|discriminate]. apply (IHk tt (Hk tt) _ _ _ _ _ _ _ _ Ho E Hb).
      + destruct hs as [|l' hs0]; [discriminate|]. destruct (l' =? l); [|discriminate]. apply (IHk tt (Hk tt) _ _ _ _ _ _ _ _ Ho E Hb).
      + change (@cexec pcmd psys psem X c) with (@pexec X c) in E |- *.
        destruct (pexec c (dst d (s_mirs d) q b n)) as [r1 d1] eqn:Ec.
        destruct (main_step d q_ok c _ _ _ _ _ _ (okm_0 d) Hc Ec) as [[-> _]|(Hnb & fr & q1 & b1 & n1 & -> & _ & Hf)].
        { injection E as <- <- <-. congruence. }
        pose proof (Hf mirs [] Ho) as Hm'. rewrite !app_nil_r in Hm'. rewrite Hm'.
        destruct r1 as [x|e|]; [..|congruence].
        * apply (IHk x (Hk x) _ _ _ _ _ _ _ _ Ho E Hb).
        * apply (IHh e (Hh e) _ _ _ _ _ _ _ _ Ho E Hb).
  Qed.
End Frame.

(** ** No mirror sends a message of an unknown type *)
Definition known (x : msg) : Prop := x <> QOther.
Definition puts_m (X : Type) (c : mcmd X) : Prop := match c with MPut m _ _ => known m | _ => True end.
Definition puts_p (X : Type) (c : pcmd X) : Prop := match c with PPut m => known m | _ => True end.
Definition puts_s (X : Type) (c : scmd X) : Prop := match c with SM _ c => puts_m _ c | SP c => puts_p _ c end.
Ltac kn := repeat first
  [ assumption
  | lazymatch goal with |- known _ => first [assumption|discriminate] end
  | match goal with H : forall A p, allops _ p -> allops _ (with_m p) |- allops _ (with_m _) => apply H end
  | match goal with
    | H : forall _, allops _ (?f _) |- allops _ (?f _) => apply H
    | H : forall _, known _ -> allops _ (?f _) |- allops _ (?f _) => apply H
    | H : forall _ _, allops _ (on_main _) |- allops _ (on_main _) => apply H
    end
  | lazymatch goal with
    | |- allops _ (bind _ _) => apply allops_bind; [|intros ?]
    | |- allops _ (with_lock _ _ _) => apply allops_with
    | |- allops _ (op _) => apply allops_op; first [exact I|discriminate|assumption]
    | |- allops _ (Ret _) => exact I
    | |- allops _ (Raise _) => exact I
    | |- allops _ (if ?b then _ else _) => destruct b
    | |- allops _ (match ?o with _ => _ end) => destruct o
    end ].
Lemma kn_call c : allops puts_m (lm_call c).
Proof.
  assert (Hm : forall A (p : prog mcmd A), allops puts_m p -> allops puts_m (with_m p)) by (intros A p H; unfold with_m, lm_lock; kn).
  assert (Hput : forall m, known m -> allops puts_m (lm_put m)) by (intros m Hk; unfold lm_put; kn).
  assert (Hc : allops puts_m (with_m (mop MClosed))) by (apply Hm; kn).
  assert (Hd : forall data, allops puts_m (lm_send_data data)) by (intros data; unfold lm_send_data; kn).
  assert (Hb : forall data, allops puts_m (lm_write_body data)) by (intros data; unfold lm_write_body; cbv zeta; kn).
  assert (Hw : allops puts_m lm_writable) by (apply Hm; kn).
  assert (Hr : allops puts_m lm_readable) by (apply Hm; kn).
  assert (Hn : allops puts_m lm_new_line) by (apply Hm; kn).
  assert (Hs : forall m, known m -> allops puts_m (lm_send_signal m)) by (intros m Hk; unfold lm_send_signal; kn).
  assert (Hcl : allops puts_m lm_clear) by (apply Hm; kn).
  assert (Hcc : allops puts_m (with_m (mop MClose))) by (apply Hm; kn).
  destruct c; cbn [lm_call]; unfold mret; (apply allops_bind; [|intros ?; exact I]);
    unfold lm_write, lm_read, lm_close, lm_flush, lm_closed, lm_send_eof, lm_send_error, lm_send_warning, lm_fileno, lm_seek, lm_isatty, lm_seekable;
    kn.
Qed.
Lemma kn_on_main {A} (p : prog bcmd A) : allops puts_p (on_main p).
Proof.
  unfold on_main. induction p as [a|e|X c k IHk h IHh]; [exact I|exact I|].
  destruct c as [l m|l|X c]; simpl; (split; [exact I|split; auto]).
Qed.
Lemma kn_lp c : allops puts_p (lp_call c).
Proof.
  assert (Hon : forall A (p : prog bcmd A), allops puts_p (on_main p)) by (intros A p; apply kn_on_main).
  assert (Hcc : allops puts_p lp_check_close) by (unfold lp_check_close; kn).
  assert (Hrc : allops puts_p lp_receive).
  { unfold lp_receive. apply allops_with, allops_bind; [kn|]. intros m. destruct m; kn. }
  assert (Hwt : forall fuel, allops puts_p (lp_wait fuel)).
  { induction fuel as [|f IH]; cbn [lp_wait]; [exact I|]. apply allops_bind; [exact Hrc|]. intros [|]; [exact IH|exact I]. }
  destruct c as [c| | | | | |fuel]; cbn [lp_call]; unfold pret; [destruct c; try apply Hon|..];
    try (apply allops_bind; [|intros ?; exact I]); unfold lp_write, lp_len, lp_maxlen, lp_mirror, lp_stop_all, lp_reset, lp_force_stop; kn.
Qed.
Lemma kn_sys_m {A} i (p : prog mcmd A) : allops puts_m p -> allops puts_s (sys_m i p).
Proof.
  unfold sys_m. induction p as [a|e|X c k IHk h IHh]; [auto|auto|]. intros (H1 & H2 & H3). destruct c as [l m|l|X c]; simpl; auto.
Qed.
Lemma kn_sys_p {A} (p : prog pcmd A) : allops puts_p p -> allops puts_s (sys_p p).
Proof.
  unfold sys_p. induction p as [a|e|X c k IHk h IHh]; [auto|auto|]. intros (H1 & H2 & H3). destruct c as [l m|l|X c]; simpl; auto.
Qed.
Lemma kn_run {C D} `{!Sem C D} (P : forall X, C X -> Prop) (K : D -> Prop)
    (Hc : forall X (c : C X) d r d', P X c -> K d -> cexec c d = (r, d') -> K d') {A} t (p : prog C A) :
  allops P p -> forall s r s', K (dat s) -> run t p s = (r, s') -> K (dat s').
Proof.
  induction p as [a|e|X c k IHk h IHh]; intros Ha s r s' Hk E; simpl in E; [injection E as _ <-; exact Hk|injection E as _ <-; exact Hk|].
  destruct Ha as (H1 & H2 & H3).
  assert (Hst : forall o s1, exec t c s = (o, s1) -> K (dat s1)).
  { intros o s1 Ec. destruct c as [l m|l|X c]; simpl in Ec.
    - destruct (lock_acq _ _ _ _ _) as [o' k']. injection Ec as _ <-. exact Hk.
    - destruct (lock_rel _ _ _) as [o' k']. injection Ec as _ <-. exact Hk.
    - destruct (cexec c (dat s)) as [o' d'] eqn:Ecc. injection Ec as _ <-. exact (Hc _ _ _ _ _ H1 Hk Ecc). }
  destruct (exec t c s) as [[x|e|] s1] eqn:Ec; [eapply (IHk x (H2 x)); [|exact E]; eapply Hst; reflexivity|eapply (IHh e (H3 e)); [|exact E]; eapply Hst; reflexivity|].
  injection E as _ <-. eapply Hst; reflexivity.
Qed.
Definition known_q (e : menv) : Prop := Forall known (e_q e).
Definition known_qs (d : psys) : Prop := Forall (Forall known) (s_qs d).
Lemma known_nth i (qs : list (list msg)) : Forall (Forall known) qs -> Forall known (nth i qs []).
Proof. intros H. destruct (nth_in_or_default i qs []) as [Hin| ->]; [rewrite List.Forall_forall in H; auto|constructor]. Qed.
Lemma known_set i q (qs : list (list msg)) : Forall (Forall known) qs -> Forall known q -> Forall (Forall known) (set_nth i q qs).
Proof.
  intros H Hq. apply List.Forall_forall. intros x Hx. apply in_set_nth in Hx as [->|Hx]; [exact Hq|]. rewrite List.Forall_forall in H. auto.
Qed.
Lemma known_mexec {X} (c : mcmd X) e r e' : puts_m X c -> known_q e -> mexec c e = (r, e') -> known_q e'.
Proof.
  intros Hp Hk E. destruct (StopProofs.mexec_keeps _ _ _ _ E) as (_ & _ & Eq). unfold known_q. rewrite Eq. apply Forall_app. split; [exact Hk|].
  unfold StopProofs.posted. destruct c; try constructor. destruct r; constructor; [exact Hp|constructor].
Qed.
Lemma known_sexec X (c : scmd X) d r d' : puts_s X c -> known_qs d -> sexec c d = (r, d') -> known_qs d'.
Proof.
  intros Hp Hk E. destruct c as [i X c|X c]; simpl in E, Hp.
  - destruct (mexec c (get_menv i d)) as [r' e] eqn:Em. injection E as <- <-. apply known_set; [exact Hk|].
    apply (known_mexec _ _ _ _ Hp) in Em; [exact Em|]. unfold known_q. simpl. apply known_nth, Hk.
  - destruct c; simpl in E; try (injection E as <- <-; exact Hk).
    + destruct (bexec c (s_main d)) as [r' b]. injection E as <- <-. exact Hk.
    + pose proof (known_nth (cur_q d) _ Hk) as Hq. destruct (nth (cur_q d) (s_qs d) []) as [|m q]; injection E as <- <-; [exact Hk|].
      apply known_set; [exact Hk|]. inversion Hq; assumption.
    + injection E as <- <-. apply known_set; [exact Hk|]. apply Forall_app. split; [apply known_nth, Hk|]. constructor; [exact Hp|constructor].
    + injection E as <- <-. unfold known_qs. simpl. apply Forall_app. split; [exact Hk|]. repeat constructor.
Qed.
Lemma preach_known m d : preach m d -> known_qs d.
Proof.
  intros [xs H]. assert (H0 : known_qs (lp_fresh m)) by (unfold known_qs; simpl; repeat constructor).
  induction H as [d|t x xs d d1 d2 Hs _ IH]; [exact H0|]. apply IH. clear IH.
  destruct Hs as [i c r d d' _ Hr _|c r d d' Hr _|i m' d Hi Hp].
  - exact (kn_run puts_s known_qs known_sexec _ _ (kn_sys_m _ _ (kn_call c)) _ _ _ (H0 : known_qs (dat (idle d))) Hr).
  - exact (kn_run puts_s known_qs known_sexec _ _ (kn_sys_p _ (kn_lp c)) _ _ _ (H0 : known_qs (dat (idle d))) Hr).
  - exact H0.
Qed.
Lemma emitted_known d w : Forall known (emitted d w).
Proof.
  unfold emitted, alone. change (known_q (dat (snd (runs 0 (map lm_call (snd w)) (idle (mkmenv (mir_at d (fst w)) [] 0 (s_state d))))))).
  assert (G : forall cs s, known_q (dat s) -> known_q (dat (snd (runs 0 (map lm_call cs) s)))).
  { induction cs as [|c cs IH]; intros s Hs; [exact Hs|]. cbn [map runs].
    destruct (run 0 (lm_call c) s) as [r s1] eqn:E.
    pose proof (kn_run puts_m known_q (fun X c d r d' => known_mexec c d r d') 0 _ (kn_call c) _ _ _ Hs E) as H1.
    specialize (IH s1 H1). destruct (runs 0 (map lm_call cs) s1) as [rs s2]. exact IH. }
  apply G. constructor.
Qed.

(** ** wait() ends with no mirror left *)
Lemma cut_n xs : Forall known xs -> forall n h r g g' n', wait_cut xs n = Some (h, r) -> log_msgs h (g, n) (g', n') -> (n' <= 0)%Z.
Proof.
  induction 1 as [|x xs Hx _ IH]; intros n h r g g' n' E Hl; [discriminate|]. cbn [wait_cut] in E.
  destruct x; cbn [is_data is_end] in E.
  - destruct (wait_cut xs n) as [[h' r']|] eqn:Ew; [|discriminate]. injection E as <- <-.
    inversion Hl as [|? ? ? [g1 n1] ? H1 H2]; subst. inversion H1; subst. eapply IH; [exact Ew|exact H2].
  - destruct (Z.ltb_spec 1 n).
    + destruct (wait_cut xs (n - 1)%Z) as [[h' r']|] eqn:Ew; [|discriminate]. injection E as <- <-.
      inversion Hl as [|? ? ? [g1 n1] ? H1 H2]; subst. inversion H1; subst. eapply IH; [exact Ew|exact H2].
    + injection E as <- <-. inversion Hl as [|? ? ? [g1 n1] ? H1 H2]; subst. inversion H1; subst. inversion H2; subst. lia.
  - destruct (wait_cut xs n) as [[h' r']|] eqn:Ew; [|discriminate]. injection E as <- <-.
    inversion Hl as [|? ? ? [g1 n1] ? H1 H2]; subst. inversion H1; subst. eapply IH; [exact Ew|exact H2].
  - destruct (Z.ltb_spec 1 n).
    + destruct (wait_cut xs (n - 1)%Z) as [[h' r']|] eqn:Ew; [|discriminate]. injection E as <- <-.
      inversion Hl as [|? ? ? [g1 n1] ? H1 H2]; subst. inversion H1; subst. eapply IH; [exact Ew|exact H2].
    + injection E as <- <-. inversion Hl as [|? ? ? [g1 n1] ? H1 H2]; subst. inversion H1; subst. inversion H2; subst. lia.
  - injection E as <- <-. inversion Hl as [|? ? ? [g1 n1] ? H1 H2]; subst. inversion H1; subst. inversion H2; subst. lia.
  - congruence.
Qed.

(** ** force_stop() at any time *)
Section Recover.
  Variables (m : nat) (d : psys) (work : list (nat * list mcall)) (fuel : nat).
  Hypotheses (Hm : 1 <= m) (Hr : preach m d) (Hc : main_closed d = false)
             (Hw : work_ok d work) (Hf : fuel_ok d work fuel).
  Variables (evs : list event) (ps : list (prog scmd presult)) (s : st psys) (dead : list nat).
  Hypothesis Hk : krun stay evs ((processes work (S fuel), idle d), []) = Some ((ps, s), dead).

  Lemma sent_known ps' s' lg taken : sent_so_far m d work ps' s' lg taken -> Forall known (inbox d ++ map snd lg).
  Proof.
    intros (H1 & H2 & _). apply Forall_app. split; [unfold inbox; apply known_nth, (preach_known m), Hr|].
    apply List.Forall_forall. intros x Hx. apply in_map_iff in Hx as ([k y] & <- & Hin). simpl.
    rewrite List.Forall_forall in H1. pose proof (H1 _ Hin) as Hlt. simpl in Hlt.
    destruct (lookup_lt_is_Some_2 work k Hlt) as [w Hwk]. destruct (H2 k w Hwk) as [more E].
    pose proof (emitted_known d w) as Hkn. rewrite E in Hkn. apply Forall_app in Hkn as [Hkn _].
    rewrite List.Forall_forall in Hkn. apply Hkn. unfold events_of. apply in_map_iff. exists (k, y). split; [reflexivity|].
    apply filter_In. split; [exact Hin|apply Nat.eqb_refl].
  Qed.
  Lemma sent_short ps' s' lg taken : sent_so_far m d work ps' s' lg taken -> length (inbox d ++ map snd lg) < fuel.
  Proof.
    intros (H1 & H2 & _). rewrite app_length, map_length. unfold fuel_ok in Hf.
    enough (length lg <= list_sum (map (fun w => length (emitted d w)) work)) by lia.
    rewrite (events_sum lg (length work) H1).
    assert (G : forall work' n, (forall k w, work' !! k = Some w -> exists more, emitted d w = events_of (n + k) lg ++ more) ->
      list_sum (map (fun k => length (events_of k lg)) (seq n (length work'))) <= list_sum (map (fun w => length (emitted d w)) work')).
    { induction work' as [|w work' IH]; intros n H; [simpl; lia|]. unfold list_sum in *. cbn [length seq map fold_right].
      destruct (H 0 w eq_refl) as [more E]. rewrite Nat.add_0_r in E. rewrite E, app_length.
      specialize (IH (S n)). assert (G : forall k w, work' !! k = Some w -> exists more, emitted d w = events_of (S n + k) lg ++ more).
      { intros k w' Hk'. destruct (H (S k) w' Hk') as [more' E']. rewrite Nat.add_succ_r in E'. exists more'. exact E'. }
      specialize (IH G). lia. }
    apply (G work 0). exact H2.
  Qed.

  Lemma recovers t : ~ In (length work) dead ->
    exists lg taken p d1 s2, sent_so_far m d work ps s lg taken /\
      run t (sys_p lp_force_stop) s = (Good tt, mkst d1 (lks s)) /\
      ps !! length work = Some p /\
      run (length work) p (mkst d1 (lks s)) = (Good (Waited (Good tt)), s2) /\
      match wait_cut (inbox d ++ map snd lg) (s_n d) with
      | None => received m d (dat s2) (inbox d ++ map snd lg ++ [QStop]) /\ inbox (dat s2) = []
      | Some (h, r) => received m d (dat s2) h /\ inbox (dat s2) = r ++ [QStop]
      end /\
      (s_n (dat s2) <= 0)%Z /\
      (forall l, lks s2 !! l = if 4 <=? l then lks s !! l else None).
  Proof.
    intros Hd.
    assert (Hf' : fuel_ok d work (S fuel)) by (unfold fuel_ok in *; lia).
    destruct (c23_main m d work (S fuel) Hm Hr Hc Hw Hf' _ _ _ (killed_is_stopped _ _ _ _ _ Hk))
      as (lg & taken & held & qm & mirs & q & b & n & (H1 & _) & H2 & H3 & H4 & H5 & H6 & H7 & H8 & H9 & H10).
    pose proof (h_q m d Hm Hr) as Hq. pose proof (sent_known _ _ _ _ H1) as Hkn. pose proof (sent_short _ _ _ _ H1) as Hsh.
    exists lg, taken, (sys_p qm), (dst d mirs (q ++ [QStop]) b n).
    assert (E1 : run t (sys_p lp_force_stop) s = (Good tt, mkst (dst d mirs (q ++ [QStop]) b n) (lks s))).
    { rewrite run_sys_p. destruct s as [ds ks]. cbn [dat lks] in H5 |- *. rewrite H5.
      change (run t lp_force_stop (mkst (dst d mirs q b n) ks)) with
        (Good tt, mkst (set_queue (queue (dst d mirs q b n) ++ [QStop]) (dst d mirs q b n)) ks).
      unfold queue, set_queue. rewrite (dst_queue d Hq mirs q b n H6), (dst_curq d mirs q b n H6).
      unfold dst. cbn [s_qs s_mirs s_state s_main s_n s_cur s_maxlen]. rewrite set_nth_set_nth. reflexivity. }
    specialize (H10 [QStop]). rewrite app_assoc in H10.
    pose proof (main_alone m d (S fuel) Hm Hr Hc ((inbox d ++ map snd lg) ++ [QStop])) as Hma.
    assert (Hl : length ((inbox d ++ map snd lg) ++ [QStop]) < S fuel) by (rewrite app_length; simpl; lia).
    assert (Hx : exists h r, wait_cut ((inbox d ++ map snd lg) ++ [QStop]) (s_n d) = Some (h, r) /\
      match wait_cut (inbox d ++ map snd lg) (s_n d) with
      | None => h = inbox d ++ map snd lg ++ [QStop] /\ r = []
      | Some (h0, r0) => h = h0 /\ r = r0 ++ [QStop]
      end).
    { destruct (wait_cut (inbox d ++ map snd lg) (s_n d)) as [[h r]|] eqn:Ew.
      - rewrite (cut_app _ _ _ _ [QStop] Ew). eauto 6.
      - rewrite (cut_stop_none _ _ Ew). rewrite <- app_assoc. eauto 6. }
    destruct Hx as (h & r & Ecut & Hhr). rewrite Ecut in Hma. destruct Hma as [_ Hma].
    destruct (Hma Hl) as (d' & (hs & E & Hh) & _ & _ & E3 & E4). rewrite (Hh ltac:(discriminate)) in E. rewrite E in H10.
    destruct (main_frame d Hq qm H3 mirs _ _ _ _ _ _ _ H6 H10 ltac:(discriminate)) as (q' & b' & n' & -> & Er).
    destruct (hrun_run_mid (fun l => l < 4) (length work) qm _ _ _ _ _ held (lks s) Er H7 eq_refl H4 H8) as (k' & G1 & G2 & G3).
    { intros l j Hl' Hj. apply count_occ_not_In. intros Hin. specialize (H9 j Hj). rewrite List.Forall_forall in H9. specialize (H9 _ Hin). lia. }
    exists (mkst (dst d mirs q' b' n') k'). split; [exact H1|]. split; [exact E1|]. split; [exact H2|]. split; [rewrite run_sys_p; exact G1|].
    assert (Eq' : inbox (dst d mirs q' b' n') = q') by (apply (dst_queue d Hq _ _ _ _ H6)).
    assert (Er' : r = q') by (rewrite <- E3; apply (dst_queue d Hq _ _ _ _ (okm_0 d))).
    assert (Hrec : received m d (dst d mirs q' b' n') h) by exact E4.
    cbn [dat lks]. rewrite Eq', <- Er'. split.
    { destruct (wait_cut (inbox d ++ map snd lg) (s_n d)) as [[h0 r0]|]; destruct Hhr as [Eh Erh]; rewrite <- Eh; auto. }
    split.
    - destruct Hrec as (g & Hg & _). refine (cut_n _ _ _ _ _ _ _ _ Ecut Hg). apply Forall_app. split; [exact Hkn|]. repeat constructor. discriminate.
    - intros l. destruct (Nat.leb_spec 4 l) as [Hle|Hlt]; [apply G3; lia|].
      specialize (G2 l). destruct (k' !! l) as [[o c|os]|]; [..|reflexivity]; exfalso.
      + destruct G2 as (A1 & A2 & _). unfold upd in A2. destruct (Nat.eqb_spec o (length work)) as [->|Ho]; [simpl in A2; lia|].
        specialize (H9 o Ho). rewrite List.Forall_forall in H9. assert (Hin : In l (held o)) by (apply (count_occ_In Nat.eq_dec); lia).
        specialize (H9 _ Hin). lia.
      + destruct G2 as (_ & A1 & A2). destruct os as [|o os]; [congruence|]. specialize (A2 o). rewrite cnt_cons_eq in A2.
        unfold upd in A2. destruct (Nat.eqb_spec o (length work)) as [->|Ho]; [simpl in A2; lia|].
        specialize (H9 o Ho). rewrite List.Forall_forall in H9. assert (Hin : In l (held o)) by (apply (count_occ_In Nat.eq_dec); lia).
        specialize (H9 _ Hin). lia.
  Qed.
End Recover.

(** ** reset_states() while other locks are held *)
Lemma reset_mid t s : (s_n (dat s) <= 0)%Z -> lks s !! STL = None ->
  run t (sys_p lp_reset) s = (Good tt, mkst (reset_to (dat s)) (lks s)).
Proof.
  intros Hn Hl. rewrite run_sys_p. destruct s as [ds ks]. cbn [dat lks] in *.
  unfold lp_reset, with_lock, acquire, release. cbn [bind op run exec cexec psem pexec dat lks].
  replace (0 <? s_n ds)%Z with false by (symmetry; apply Z.ltb_ge; exact Hn).
  cbn [bind op run exec cexec psem pexec dat lks try_finally]. unfold lock_acq. rewrite Hl.
  cbn [bind op run exec cexec psem pexec dat lks try_finally]. unfold lock_rel. rewrite lookup_insert.
  cbn [bind op run exec cexec psem pexec dat lks try_finally]. rewrite delete_insert by exact Hl. reflexivity.
Qed.
Lemma reset_stuck t s x : (s_n (dat s) <= 0)%Z -> lks s !! STL = Some x -> exists s', run t (sys_p lp_reset) s = (Block, s').
Proof.
  intros Hn Hl. rewrite run_sys_p. destruct s as [ds ks]. cbn [dat lks] in *.
  unfold lp_reset, with_lock, acquire, release. cbn [bind op run exec cexec psem pexec dat lks].
  replace (0 <? s_n ds)%Z with false by (symmetry; apply Z.ltb_ge; exact Hn).
  cbn [bind op run exec cexec psem pexec dat lks try_finally]. unfold lock_acq. rewrite Hl. destruct x; [|eauto].
  change (reent STL) with false. cbn [andb]. eauto.
Qed.
Lemma reset_to_new d : s_state (reset_to d) = Some false /\ is_closed (mir_at (reset_to d) (s_cur (reset_to d))) = false /\
  held (mir_at (reset_to d) (s_cur (reset_to d))) = [] /\ inbox (reset_to d) = [] /\ s_main (reset_to d) = s_main d /\ s_n (reset_to d) = s_n d.
Proof.
  unfold inbox. assert (E : mir_at (reset_to d) (s_cur (reset_to d)) = mir_new (length (s_mirs d)) (length (s_qs d)) false None true) by apply mir_at_last.
  rewrite E. simpl. repeat split. rewrite app_nth2 by lia. rewrite Nat.sub_diag. reflexivity.
Qed.

Lemma recovery m d work fuel evs ps s dead t t' : 1 <= m -> preach m d -> main_closed d = false -> work_ok d work -> fuel_ok d work fuel ->
  krun stay evs ((processes work (S fuel), idle d), []) = Some ((ps, s), dead) -> ~ In (length work) dead ->
  exists lg taken p d1 s2, sent_so_far m d work ps s lg taken /\
    run t (sys_p lp_force_stop) s = (Good tt, mkst d1 (lks s)) /\
    ps !! length work = Some p /\
    run (length work) p (mkst d1 (lks s)) = (Good (Waited (Good tt)), s2) /\
    match wait_cut (inbox d ++ map snd lg) (s_n d) with
    | None => received m d (dat s2) (inbox d ++ map snd lg ++ [QStop]) /\ inbox (dat s2) = []
    | Some (h, r) => received m d (dat s2) h /\ inbox (dat s2) = r ++ [QStop]
    end /\
    (s_n (dat s2) <= 0)%Z /\ lks s2 !! LL = None /\ lks s2 !! CFG = None /\
    match lks s !! STL with
    | None => exists d3, run t' (sys_p lp_reset) s2 = (Good tt, mkst d3 (lks s2)) /\
        s_state d3 = Some false /\ is_closed (mir_at d3 (s_cur d3)) = false /\ ProcSpec.held (mir_at d3 (s_cur d3)) = [] /\
        inbox d3 = [] /\ s_main d3 = s_main (dat s2) /\ s_n d3 = s_n (dat s2)
    | Some _ => exists s3, run t' (sys_p lp_reset) s2 = (Block, s3)
    end.
Proof.
  intros Hm Hr Hc Hw Hf Hk Hd. destruct (recovers m d work fuel Hm Hr Hc Hw Hf evs ps s dead Hk t Hd) as (lg & taken & p & d1 & s2 & H1 & H2 & H3 & H4 & H5 & H6 & H7).
  exists lg, taken, p, d1, s2. do 6 (split; [assumption|]). split; [exact (H7 LL)|]. split; [exact (H7 CFG)|].
  pose proof (H7 STL) as Hs. simpl in Hs. destruct (lks s !! STL) as [x|].
  - apply (reset_stuck t' s2 x H6 Hs).
  - exists (reset_to (dat s2)). split; [apply (reset_mid t' s2 H6 Hs)|]. apply reset_to_new.
Qed.
