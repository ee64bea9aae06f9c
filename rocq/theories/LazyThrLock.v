(** * LazyThrLock: threads that use layered lazy modules never wait for each other for ever *)
From stdpp Require Import gmap strings.
From Coq Require Import String.
From Coq Require Import List Bool Arith Lia.
From Verif Require Import Prog ProgFacts Locks LocksOk Lazy LazyThr LazyThrSpec LazyThrProofs LazyThrMain.
Import ListNotations.
Local Open Scope nat_scope.

Definition dep_okb (X : Type) (c : tcmd X) : X -> bool :=
  match c in tcmd X return X -> bool with
  | TDeps i => fun ds => forallb (fun d => d <? i) ds
  | _ => fun _ => true
  end.
Definition deps_low (w : tworld) : Prop := forall i m d, t_mods w !! i = Some m -> In d (t_deps m) -> d < i.

Lemma texec_noblock X (c : tcmd X) w : fst (texec c w) <> Block.
Proof.
  destruct c; simpl; unfold on_mod, on_la; try (destruct (t_mods w !! i) as [m|]); try (destruct (t_las w !! k) as [l|]); simpl; try discriminate.
  - apply tget_noblock.
  - destruct (tcls_eqb (t_cls m) KUtils); discriminate.
Qed.
Lemma dep_ok X (c : tcmd X) w x w' : deps_low w -> texec c w = (Good x, w') -> dep_okb X c x = true.
Proof.
  intros Hw. destruct c; try reflexivity. simpl. unfold on_mod. destruct (t_mods w !! i) as [m|] eqn:E; [|discriminate].
  intros [= <- _]. apply forallb_forall. intros d Hd. apply Nat.ltb_lt. eapply Hw; eauto.
Qed.
Lemma dep_step X (c : tcmd X) w r w' : deps_low w -> texec c w = (r, w') -> deps_low w'.
Proof.
  intros Hw.
  assert (Hm : forall i (f : tmod -> outcome X * tmod), (forall m, t_deps (snd (f m)) = t_deps m \/ t_deps (snd (f m)) = []) ->
    on_mod i f w = (r, w') -> deps_low w').
  { intros i f Hf. unfold on_mod. destruct (t_mods w !! i) as [m|] eqn:E; [|intros [= _ <-]; exact Hw].
    specialize (Hf m). destruct (f m) as [r1 m1]. simpl in Hf. intros [= _ <-]. intros j mj d. simpl.
    destruct (decide (j = i)) as [->|Hne].
    - rewrite list_lookup_insert by (eapply lookup_lt_Some; exact E). intros [= <-]. destruct Hf as [->| ->]; [apply Hw; exact E|intros []].
    - rewrite list_lookup_insert_ne by auto. apply Hw. }
  assert (Hl : forall k (f : tla -> outcome X * tla), on_la k f w = (r, w') -> deps_low w').
  { intros k f. unfold on_la. destruct (t_las w !! k) as [l|]; [|intros [= _ <-]; exact Hw]. destruct (f l). intros [= _ <-]. exact Hw. }
  destruct c; cbn [texec]; try (apply Hm; simpl; auto; fail); try (apply Hl).
  destruct (on_mod i (fun m => (Good (t_attrs m), mkt (t_cls m) true Running (t_attrs m) (t_deps m))) w) as [r0 w0] eqn:E.
  intros [= <- <-]. unfold deps_low. simpl. unfold on_mod in E. destruct (t_mods w !! i) as [m|] eqn:Em; injection E as <- <-; [|exact Hw].
  simpl. intros j mj d. destruct (decide (j = i)) as [->|Hne].
  - rewrite list_lookup_insert by (eapply lookup_lt_Some; exact Em). intros [= <-]. exact (Hw i m d Em).
  - rewrite list_lookup_insert_ne by auto. apply Hw.
Qed.

Section Lock.
  Variable code : nat -> list tstmt.
  Hypothesis uses_low : forall i j a, In (TUse j a) (code i) \/ In (TFrom j a) (code i) -> j <= i.
  Notation wlo := (wlo dep_okb).

  Definition above (i : nat) (hs : list nat) : Prop := Forall (fun x => lk i <= x) hs.
  Definition pmod (c : pcall) : nat := match c with PGet i _ | PCall _ i _ | PForce i => i end.

  Lemma wlo_catch {A} b hs (p : prog tcmd A) f : wlo b hs p -> (forall e, wlo b b (f e)) -> wlo b hs (catch p f).
  Proof using. induction 1; intros Hf; simpl; auto; constructor; auto. Qed.
  Lemma above_le i j hs : j <= i -> above i hs -> above j hs.
  Proof using. unfold above, lk. intros Hij. apply List.Forall_impl. intros x. lia. Qed.
  Lemma above_acq i hs : above i hs -> may_acq hs (lk i) Ex.
  Proof using.
    intros H. split; [discriminate|]. destruct (in_dec Nat.eq_dec (lk i) hs) as [Hin|Hn].
    - right. split; [reflexivity|]. split; [|exact Hin]. unfold reent, lk. rewrite Nat.add_1_r, Nat.odd_succ, Nat.even_mul. reflexivity.
    - left. apply List.Forall_forall. intros x Hx. unfold above in H. rewrite List.Forall_forall in H. specialize (H x Hx).
      destruct (decide (x = lk i)) as [->|]; [contradiction|lia].
  Qed.

  Lemma wlo_step (rec : pcall -> prog tcmd lval) :
    (forall c hs, above (pmod c) hs -> wlo hs hs (rec c)) -> forall c hs, above (pmod c) hs -> wlo hs hs (tstep code rec c).
  Proof using uses_low.
    intros Hrec.
    assert (Hbody : forall i hs ss, above i hs -> (forall s, In s ss -> In s (code i)) -> wlo hs hs (tbody rec i ss)).
    { intros i hs ss Ha. induction ss as [|[a n|j a|j a|e] ss IH]; intros Hss; simpl; [constructor|..].
      - constructor; [intros x _; apply IH; intros s Hs; apply Hss; right; exact Hs|intros e; constructor].
      - apply wlo_bind; [|intros v; apply IH; intros s Hs; apply Hss; right; exact Hs].
        apply Hrec. simpl. eapply above_le; [|exact Ha]. eapply uses_low. left. apply Hss. left. reflexivity.
      - apply wlo_bind; [|intros v; apply IH; intros s Hs; apply Hss; right; exact Hs]. apply wlo_catch; [|intros e; constructor].
        apply Hrec. simpl. eapply above_le; [|exact Ha]. eapply uses_low. right. apply Hss. left. reflexivity.
      - constructor. }
    assert (Himp : forall i a hs, above i hs -> wlo hs hs (timp code rec i a)).
    { intros i a hs Ha. unfold timp. apply wlo_bind.
      - apply wlo_with; [apply above_acq, Ha|]. assert (Ha' : above i (lk i :: hs)) by (constructor; [lia|exact Ha]).
        unfold timp_locked. apply wlo_opbind. intros [] _; [constructor| |constructor].
        apply wlo_opbind. intros [] _; [apply wlo_opbind; intros v _; constructor|].
        apply wlo_opbind. intros up _. apply wlo_bind; [apply wlo_catch|].
        + apply Hbody; [exact Ha'|auto].
        + intros e. apply wlo_opbind. intros u _. constructor.
        + intros u. apply wlo_opbind. intros u' _. constructor.
      - intros [v|]; [constructor|]. apply Hrec, Ha. }
    assert (Heach : forall i hs ds, above i hs -> Forall (fun d => d < i) ds -> wlo hs hs (teach rec ds)).
    { intros i hs ds Ha. induction 1 as [|d ds Hd _ IH]; cbn [teach]; [constructor|].
      assert (Hd' : above d hs) by (eapply above_le; [|exact Ha]; lia).
      apply wlo_bind; [|intros b; apply wlo_bind; [|intros u; exact IH]].
      - unfold tisinst. apply wlo_opbind. intros [] _; [constructor|..].
        + apply wlo_catch; [apply wlo_bind; [apply Hrec, Hd'|intros v; constructor]|intros e; destruct (is_attr_err e); constructor].
        + apply wlo_catch; [apply wlo_bind; [apply Hrec, Hd'|intros v; constructor]|intros e; destruct (is_attr_err e); constructor].
      - destruct b; [|constructor]. apply wlo_bind; [apply Hrec, Hd'|intros v]. apply wlo_bind; [apply Hrec, Hd'|intros v'; constructor]. }
    assert (Hdeps : forall i hs, above i hs -> wlo hs hs (tload_deps rec i)).
    { intros i hs Ha. unfold tload_deps. apply wlo_opbind. intros ds Hds. simpl in Hds. apply wlo_bind; [|intros u; apply wlo_single].
      apply (Heach i); [exact Ha|]. apply List.Forall_forall. intros d Hd. rewrite forallb_forall in Hds. apply Nat.ltb_lt. auto. }
    assert (Hrest : forall i a hs, above i hs -> wlo hs hs (tutils_rest code rec i a)).
    { intros i a hs Ha. unfold tutils_rest. apply wlo_opbind. intros u _. apply wlo_bind; [apply Hdeps, Ha|intros u'].
      apply wlo_bind; [apply Hrec, Ha|intros v]. apply wlo_bind; [|intros u''; apply Himp, Ha].
      destruct v as [n|[]|c|]; try apply wlo_single. constructor. }
    assert (Hmeth : forall c i a hs, above i hs -> wlo hs hs (tmeth code rec c i a)).
    { intros c i a hs Ha. destruct c; cbn [tmeth]; [|apply Himp, Ha|apply wlo_single].
      unfold tutils. destruct (String.eqb a "__path__"); [constructor|]. destruct (Lazy.protected a); [|apply Hrest, Ha].
      constructor; [intros x _; constructor|]. intros e. destruct (is_attr_err e); [apply Hrest, Ha|constructor]. }
    intros c hs Ha. destruct c as [i a|c i a|i]; cbn [tstep pmod] in *.
    - apply wlo_opbind. intros c _. apply Hmeth, Ha.
    - apply Hmeth, Ha.
    - unfold tforce. apply wlo_opbind. intros u _. apply wlo_bind; [apply Hdeps, Ha|intros u']. apply Himp, Ha.
  Qed.
  Lemma wlo_go f : forall c hs, above (pmod c) hs -> wlo hs hs (tgo code f c).
  Proof using uses_low. induction f as [|f IH]; intros c hs Ha; [constructor|]. apply wlo_step; assumption. Qed.

  Lemma above_nil i : above i [].
  Proof using. constructor. Qed.
  Lemma wlo_call f c : wlo [] [] (tcall_prog code f c).
  Proof using uses_low.
    destruct c as [i a|i|k]; cbn [tcall_prog]; [apply wlo_go, above_nil|apply wlo_bind; [|intros v]; apply wlo_go, above_nil|].
    unfold tload_module. apply wlo_opbind. intros [[i a] [v|]] _; [constructor|]. apply wlo_bind; [apply wlo_go, above_nil|intros g].
    apply wlo_bind; [destruct g; try constructor; apply wlo_go, above_nil|intros v].
    apply wlo_opbind. intros u _. apply wlo_opbind. intros u' _. constructor.
  Qed.
  Lemma wlo_tthread f cs : wlo [] [] (tthread code f cs).
  Proof using uses_low.
    unfold tthread, thread. apply wlo_thread. apply List.Forall_map, List.Forall_forall. intros c _. apply wlo_call.
  Qed.
End Lock.

Lemma lazy_progress code mods las fuel css sch ps s :
  layered code mods -> sched_run sch (map (tthread code fuel) css, mkst (tinit mods las) ∅) = Some (ps, s) ->
  (Forall (fun p => finished p = true) ps /\ lks s = ∅) \/ exists i c, cstep i (ps, s) = Some c.
Proof.
  intros [Hu Hd] Hr.
  apply (@lock_progress_ok tcmd tworld tsem dep_okb deps_low dep_ok dep_step texec_noblock _ (map (tthread code fuel) css) (tinit mods las) sch ps s); [|..|exact Hr].
  - intros i m d Hm Hin. simpl in Hm. apply map_at in Hm. destruct Hm as ([ats ds] & E & ->). simpl in Hin. eapply Hd; eauto.
  - apply List.Forall_map, List.Forall_forall. intros cs _. apply wlo_tthread, Hu.
Qed.
