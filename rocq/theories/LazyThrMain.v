(** * LazyThrMain: threads that use lazy modules: every execution *)
From stdpp Require Import gmap strings.
From Coq Require Import String.
From Coq Require Import List Bool Arith Lia.
From Verif Require Import Prog ProgFacts Rely Lazy LazyThr LazyThrSpec LazyThrInv LazyThrProofs.
Import ListNotations.
Local Open Scope nat_scope.

Section Thr.
  Variable code : nat -> list tstmt.
  Variable mods0 : list (gmap string nat * list nat).
  Variable las0 : list (nat * string).
  Notation inv := (inv code mods0 las0).
  Notation TR := (TR code mods0 las0).
  Notation G := (guar TR).
  Notation W := (wp TR).
  Notation trefl := (TR_refl code mods0 las0).
  Notation ttrans := (TR_trans code mods0 las0).
  Notation dp t i s := (depth t i (lks s)).
  Notation Pre := (Pre code mods0 las0).

  (** ** Lazy attributes *)
  Lemma la_change t k l l' s : inv s -> t_las (dat s) !! k = Some l -> la_ok las0 (t_mods (dat s)) k l' ->
    G t s (mkst (mktw (t_mods (dat s)) (<[k := l']> (t_las (dat s))) (begun (dat s))) (lks s)) /\
    TR t s (mkst (mktw (t_mods (dat s)) (<[k := l']> (t_las (dat s))) (begun (dat s))) (lks s)).
  Proof.
    intros Hi Hl Ho. pose proof Hi as [HL HM HA HN HB].
    assert (H : forall u, TR u s (mkst (mktw (t_mods (dat s)) (<[k := l']> (t_las (dat s))) (begun (dat s))) (lks s))).
    { intros u _. split; [|split; [reflexivity|split]].
      - constructor; simpl; auto. intros k' l1 H1. destruct (decide (k' = k)) as [->|Hne].
        + rewrite list_lookup_insert in H1 by (eapply lookup_lt_Some; exact Hl). injection H1 as <-. exact Ho.
        + rewrite list_lookup_insert_ne in H1 by auto. auto.
      - intros j m Hm. exists m. split; [exact Hm|apply mrel_refl].
      - split; simpl; [reflexivity|apply insert_length]. }
    split; [intros u _; apply H|apply H].
  Qed.

  Lemma wp_la t k v (f : lval -> tla -> tla) (c : tcmd unit) i a s (Q : outcome unit -> st tworld -> Prop) :
    (forall w, texec c w = on_la k (fun l => (Good tt, f v l)) w) ->
    (forall l, la_mod (f v l) = la_mod l /\ la_attr (f v l) = la_attr l /\
       forall v', la_obj (f v l) = Some v' \/ la_pub (f v l) = Some v' -> v' = v \/ la_obj l = Some v' \/ la_pub l = Some v') ->
    las0 !! k = Some (i, a) -> inv s -> (opens a -> value_ok (t_mods (dat s)) i a v) ->
    (forall r s', TR t s s' -> r = Good tt \/ r = Fail AttributeError -> Q r s') ->
    W t (op c) Q s.
  Proof.
    intros Hc Hf Hk Hi Hv HQ. apply wp_op. intros s1 H1. pose proof (H1 Hi) as (Hi1 & _ & HM1 & _). simpl. rewrite Hc. unfold on_la.
    destruct (t_las (dat s1) !! k) as [l|] eqn:El.
    - destruct (i_las _ _ _ s1 Hi1 k l El) as [Ek Hl]. rewrite Hk in Ek. injection Ek as -> ->.
      destruct (Hf l) as (E1 & E2 & E3).
      destruct (la_change t k l (f v l) s1 Hi1 El) as [HG HT].
      { split; [congruence|]. rewrite E1, E2. intros Ho v' Hv'. destruct (E3 v' Hv') as [->|H]; [|auto].
        eapply (value_ok_rel (fun j => dp t j s)); [exact HM1|auto]. }
      split; [exact HG|]. intros s3 H3. apply HQ; [|auto]. eapply ttrans; [exact H1|]. eapply ttrans; [exact HT|exact H3].
    - assert (Es : mkst (dat s1) (lks s1) = s1) by (destruct s1; reflexivity). rewrite Es.
      split; [apply guar_same|]. intros s3 H3. apply HQ; [eapply ttrans; eauto|auto].
  Qed.

  (** ** The calls of threads *)
  Notation wants := (wants las0).
  Notation target := (target las0).
  Definition raises (f : nat) (c : tcall) (r : outcome lval) : Prop :=
    forall e, r = Fail e -> exc code e \/ (e = TypeError /\ exists k, c = Attr k) \/
      (e = OutOfFuel /\ ~ (layered code mods0 /\ exists i, target c i /\ 2 * i + 3 <= f)).
  Definition Free (t : nat) (s : st tworld) : Prop := inv s /\ forall j, dp t j s = 0.
  Lemma Free_Pre t s : Free t s -> Pre t s.
  Proof. intros [Hi Hd]. split; [exact Hi|]. intros j m _ H. rewrite Hd in H. lia. Qed.
  Lemma Free_R t s s' : Free t s -> TR t s s' -> Free t s'.
  Proof. intros [Hi Hd] H. destruct (H Hi) as (Hi' & Hd' & _). split; [exact Hi'|]. intros j. rewrite Hd'. apply Hd. Qed.

  Lemma raised_raises f c (P : Prop) r i : raised code mods0 P r -> target c i -> (2 * i + 3 <= f -> P) -> raises f c r.
  Proof.
    intros H Ht HP e E. destruct (H e E) as [He|[-> Hn]]; [left; exact He|right; right]. split; [reflexivity|].
    intros [Hl (j & Hj & Hf)]. apply Hn. split; [exact Hl|]. apply HP. enough (j = i) by (subst; exact Hf).
    destruct c as [i' a'|i'|k]; simpl in *; [congruence|congruence|]. destruct Ht as [a1 E1], Hj as [a2 E2]. congruence.
  Qed.

  Lemma wp_call f t c s0 : Free t s0 ->
    W t (tcall_prog code f c) (fun r s' => TR t s0 s' /\ raises f c r /\
      (forall i a v, wants c i a -> opens a -> r = Good v -> value_ok (t_mods (dat s')) i a v) /\
      (forall i a, c = Access i a -> exact i a s0 r)) s0.
  Proof.
    intros HF. pose proof (Free_Pre t s0 HF) as HP. pose proof (spec_go code mods0 las0 f) as Hgo.
    destruct c as [i a|i|k]; cbn [tcall_prog].
    - eapply wp_mono; [|apply (Hgo t (PGet i a) s0 HP I)]. intros r s1 (H1 & Hr & Hs & Hex & _). split; [exact H1|].
      split; [eapply raised_raises; [exact Hr|reflexivity|simpl; lia]|]. split.
      + intros i' a' v [<- <-] Ho E. apply Hs; [auto|apply HF|exact E].
      + intros i' a' [= <- <-]. exact Hex.
    - apply wp_bind; [exact trefl|]. eapply wp_mono; [|apply (Hgo t (PGet i "force_load"%string) s0 HP I)].
      intros r s1 (H1 & Hr & _). destruct r as [v|e|]; cbn [follows]; [| |exact I].
      2: { split; [exact H1|]. split; [eapply raised_raises; [exact Hr|reflexivity|simpl; lia]|]. split; [intros i' a' v' []|intros i' a'; discriminate]. }
      pose proof (Free_R t s0 s1 HF H1) as HF1. eapply wp_mono; [|apply (Hgo t (PForce i) s1 (Free_Pre t s1 HF1) I)].
      intros r s2 (H2 & Hr2 & _). split; [eapply ttrans; eauto|]. split; [eapply raised_raises; [exact Hr2|reflexivity|simpl; lia]|].
      split; [intros i' a' v' []|intros i' a'; discriminate].
    - unfold tload_module. apply wp_bind; [exact trefl|]. eapply wp_read; [apply rd_la|apply HF|]. intros s1 H1 Hi1 _ s2 H2. cbv beta.
      pose proof (ttrans t _ _ _ H1 H2) as H02.
      destruct (t_las (dat s1) !! k) as [l|] eqn:El; cbn [follows].
      2: { split; [exact H02|]. split; [intros e [= <-]; left; left; reflexivity|]. split; [intros; discriminate|intros i' a'; discriminate]. }
      destruct (i_las _ _ _ s1 Hi1 k l El) as [Ek Hl]. destruct l as [i a o p]. simpl in Ek, Hl. cbn [la_mod la_attr la_obj].
      assert (Hend : forall v s3, TR t s0 s3 -> (opens a -> value_ok (t_mods (dat s3)) i a v) ->
        TR t s0 s3 /\ raises f (Attr k) (Good v) /\
        (forall i' a' v', wants (Attr k) i' a' -> opens a' -> Good v = Good v' -> value_ok (t_mods (dat s3)) i' a' v') /\
        (forall i' a', Attr k = Access i' a' -> exact i' a' s0 (Good v))).
      { intros v s3 H3 Hv. split; [exact H3|]. split; [intros e; discriminate|]. split; [|intros i' a'; discriminate].
        intros i' a' v' Hw Ho [= <-]. simpl in Hw. rewrite Ek in Hw. injection Hw as <- <-. auto. }
      destruct o as [v|].
      + intros s3 H3. pose proof (ttrans t _ _ _ H02 H3) as H03. apply Hend; [exact H03|]. intros Ho.
        pose proof (ttrans t _ _ _ H2 H3) as H13. destruct (H13 Hi1) as (_ & _ & HM & _).
        eapply (value_ok_rel (fun j => dp t j s1)); [exact HM|]. apply Hl; auto.
      + pose proof (Free_R t s0 s2 HF H02) as HF2.
        assert (Hbad : forall e s3, TR t s0 s3 -> raises f (Attr k) (Fail e) ->
          TR t s0 s3 /\ raises f (Attr k) (Fail e) /\
          (forall i' a' v', wants (Attr k) i' a' -> opens a' -> Fail e = Good v' -> value_ok (t_mods (dat s3)) i' a' v') /\
          (forall i' a', Attr k = Access i' a' -> exact i' a' s0 (Fail e))).
        { intros e s3 H3 He. split; [exact H3|]. split; [exact He|]. split; [intros; discriminate|intros i' a'; discriminate]. }
        assert (Htar : target (Attr k) i) by (exists a; exact Ek).
        apply wp_bind; [exact trefl|].
        eapply wp_mono; [|apply (Hgo t (PGet i "__getattribute__"%string) s2 (Free_Pre t s2 HF2) I)].
        intros g s3 (H3 & Hr3 & _ & _ & Hk3). pose proof (ttrans t _ _ _ H02 H3) as H03. pose proof (Free_R t s0 s3 HF H03) as HF3.
        destruct g as [g|e|]; cbn [follows]; [| |exact I].
        2: { apply Hbad; [exact H03|]. eapply raised_raises; [exact Hr3|exact Htar|simpl; lia]. }
        apply wp_bind; [exact trefl|].
        assert (Hty : W t (Raise TypeError) (follows TR t (fun v => bind (op (TPub k v)) (fun _ => bind (op (TSetLa k v)) (fun _ => Ret v)))
          (fun r s' => TR t s0 s' /\ raises f (Attr k) r /\
            (forall i' a' v', wants (Attr k) i' a' -> opens a' -> r = Good v' -> value_ok (t_mods (dat s')) i' a' v') /\
            (forall i' a', Attr k = Access i' a' -> exact i' a' s0 r))) s3).
        { intros s4 H4. cbn [follows]. apply Hbad; [eapply ttrans; eauto|]. intros e [= <-]. right. left. eauto. }
        destruct g as [n|c|c|]; [exact Hty|exact Hty| |exact Hty].
        assert (Hc : callable (PCall c i a) s3).
        { destruct c; simpl; [exact I|apply (Hk3 KImp); [right; reflexivity|discriminate]|apply (Hk3 KMod); [right; reflexivity|reflexivity]]. }
        eapply wp_mono; [|apply (Hgo t (PCall c i a) s3 (Free_Pre t s3 HF3) Hc)].
        intros r s4 (H4 & Hr4 & Hs4). pose proof (ttrans t _ _ _ H03 H4) as H04. pose proof (Free_R t s0 s4 HF H04) as HF4.
        destruct r as [v|e|]; cbn [follows]; [| |exact I].
        2: { apply Hbad; [exact H04|]. eapply raised_raises; [exact Hr4|exact Htar|]. simpl. destruct c; [lia| |lia].
             intros Hf. split; [lia|]. left. split; [lia|exact Hc]. }
        assert (Hv4 : opens a -> value_ok (t_mods (dat s4)) i a v).
        { intros Ho. destruct c; [apply Hs4; [exact Ho|apply HF3|reflexivity]|apply Hs4; [apply HF3|reflexivity]|apply Hs4; [apply HF3|reflexivity]]. }
        apply wp_bind; [exact trefl|].
        apply (wp_la t k v (fun v l => mkla (la_mod l) (la_attr l) (la_obj l) (Some v)) (TPub k v) i a); [reflexivity| |exact Ek|apply HF4|exact Hv4|].
        { intros l. simpl. split; [reflexivity|]. split; [reflexivity|]. intros v' [H|H]; [auto|left; congruence]. }
        intros r s5 H5 Hr5. pose proof (ttrans t _ _ _ H04 H5) as H05. pose proof (Free_R t s0 s5 HF H05) as HF5.
        assert (Hv5 : opens a -> value_ok (t_mods (dat s5)) i a v).
        { intros Ho. destruct (H5 (proj1 HF4)) as (_ & _ & HM & _). eapply (value_ok_rel (fun j => dp t j s4)); [exact HM|auto]. }
        destruct r as [u|e|]; cbn [follows]; [| |exact I].
        2: { apply Hbad; [exact H05|]. intros e' [= <-]. left. left. destruct Hr5; congruence. }
        apply wp_bind; [exact trefl|].
        apply (wp_la t k v (fun v l => mkla (la_mod l) (la_attr l) (Some v) (la_pub l)) (TSetLa k v) i a); [reflexivity| |exact Ek|apply HF5|exact Hv5|].
        { intros l. simpl. split; [reflexivity|]. split; [reflexivity|]. intros v' [H|H]; [left; congruence|auto]. }
        intros r s6 H6 Hr6. pose proof (ttrans t _ _ _ H05 H6) as H06.
        destruct r as [u'|e|]; cbn [follows]; [| |exact I].
        2: { apply Hbad; [exact H06|]. intros e' [= <-]. left. left. destruct Hr6; congruence. }
        intros s7 H7. pose proof (ttrans t _ _ _ H6 H7) as H57. apply Hend; [eapply ttrans; [exact H05|exact H57]|].
        intros Ho. destruct (H57 (proj1 HF5)) as (_ & _ & HM & _). eapply (value_ok_rel (fun j => dp t j s5)); [exact HM|auto].
  Qed.

  (** ** Threads *)
  Definition K (f t : nat) (done : list (tcall * outcome lval)) (s : st tworld) : Prop :=
    Free t s /\
    (forall n c r, done !! n = Some (c, r) -> raises f c r /\
       forall i a v, wants c i a -> opens a -> r = Good v -> value_ok (t_mods (dat s)) i a v) /\
    (forall n1 n2 c1 i a1 v a2 r2, n1 < n2 -> done !! n1 = Some (c1, Good v) -> wants c1 i a1 -> opens a1 ->
       done !! n2 = Some (Access i a2, r2) -> r2 <> Fail OutOfFuel -> a2 <> "__class__"%string ->
       at_mod s i (fun m => settled m /\ says (t_attrs m) a2 r2)).

  Lemma at_keep t s s' i a r : inv s -> TR t s s' -> at_mod s i (fun m => settled m /\ says (t_attrs m) a r) ->
    at_mod s' i (fun m => settled m /\ says (t_attrs m) a r).
  Proof.
    intros Hi H (m & Em & Hs & Hy). destruct (at_settled code mods0 las0 t s s' i (t_attrs m) Hi H) as (m' & E' & Hs' & Ea); [exists m; auto|].
    exists m'. rewrite Ea. auto.
  Qed.
  Lemma K_R f t done s s' : TR t s s' -> K f t done s -> K f t done s'.
  Proof.
    intros H (HF & H1 & H2). destruct (H (proj1 HF)) as (_ & _ & HM & _). split; [eapply Free_R; eauto|]. split.
    - intros n c r Hn. destruct (H1 n c r Hn) as [Hr Hv]. split; [exact Hr|]. intros i a v Hw Ho E.
      eapply (value_ok_rel (fun j => dp t j s)); [exact HM|eauto].
    - intros. eapply at_keep; [exact (proj1 HF)|exact H|eauto].
  Qed.
  Lemma snoc_lookup {X} (l : list X) x n y : (l ++ [x]) !! n = Some y -> (n < length l /\ l !! n = Some y) \/ (n = length l /\ y = x).
  Proof using.
    intros H. destruct (decide (n < length l)) as [Hl|Hl].
    - left. rewrite lookup_app_l in H by exact Hl. auto.
    - right. rewrite lookup_app_r in H by lia. destruct (n - length l) as [|k] eqn:E; [injection H as <-; split; [lia|reflexivity]|destruct k; discriminate].
  Qed.
  Lemma K_call f t c done s : K f t done s -> W t (tcall_prog code f c) (fun r s' => K f t (done ++ [(c, r)]) s') s.
  Proof.
    intros HK. pose proof HK as (HF & H1 & H2). eapply wp_mono; [|apply (wp_call f t c s HF)].
    intros r s' (HT & Hra & Hv & Hex). destruct (K_R f t done s s' HT HK) as (HF' & H1' & H2'). split; [exact HF'|]. split.
    - intros n c' r' Hn. apply snoc_lookup in Hn. destruct Hn as [[_ Hn]|[_ [= -> ->]]]; [eauto|]. split; [exact Hra|exact Hv].
    - intros n1 n2 c1 i a1 v a2 r2 Hlt Hn1 Hw Ho Hn2 Hf Ha. apply snoc_lookup in Hn1, Hn2.
      destruct Hn1 as [[Hl1 Hn1]|[-> E1]].
      2: { destruct Hn2 as [[Hl2 _]|[-> _]]; lia. }
      destruct Hn2 as [[_ Hn2]|[-> E2]]; [eauto|]. injection E2 as <- <-.
      destruct (proj2 (H1 n1 c1 (Good v) Hn1) i a1 v Hw Ho eq_refl) as (m & Em & Hs & _).
      eapply at_keep; [exact (proj1 HF)|exact HT|]. exists m. split; [exact Em|]. split; [exact Hs|].
      apply (Hex i a2 eq_refl); [exists m; auto|exact Hf|exact Ha].
  Qed.

  Lemma map_at {X Y} (f : X -> Y) l n y : map f l !! n = Some y -> exists x, l !! n = Some x /\ y = f x.
  Proof using.
    intros H. pose proof (eq_trans (eq_sym (list_lookup_fmap f l n)) H) as E. clear H.
    destruct (l !! n) as [x|]; [|discriminate]. injection E as <-. eauto.
  Qed.
  Lemma inv_init : inv (mkst (tinit mods0 las0) ∅).
  Proof.
    constructor; simpl.
    - intros i. rewrite lookup_empty. exact I.
    - intros i m Hm. apply map_at in Hm. destruct Hm as ([ats ds] & E & ->).
      exists ats, ds. simpl. split; [exact E|]. split; [reflexivity|]. split; [auto|]. split; [reflexivity|discriminate].
    - intros k l Hl. apply map_at in Hl. destruct Hl as ([i a] & E & ->).
      split; [exact E|]. simpl. intros _ v [H|H]; discriminate.
    - apply List.NoDup_nil.
    - intros i. split; [intros []|]. intros (m & Hm & Hr). apply map_at in Hm. destruct Hm as ([ats ds] & E & ->). simpl in Hr. congruence.
  Qed.

  Section Execution.
    Variable fuel : nat.
    Variable css : list (list tcall).
    Variables (sch : list nat) (ps : list (prog tcmd (list (outcome lval)))) (s : st tworld).
    Hypothesis Hrun : sched_run sch (map (tthread code fuel) css, mkst (tinit mods0 las0) ∅) = Some (ps, s).

    Definition ends_with (t : nat) (r : outcome (list (outcome lval))) (s' : st tworld) : Prop :=
      forall cs, css !! t = Some cs -> exists done, r = Good (map snd done) /\ map fst done = cs /\ K fuel t done s'.
    Lemma reached_wp : inv s /\ forall t p, ps !! t = Some p -> W t p (ends_with t) s.
    Proof using Hrun.
      assert (Hgo := wp_sched TR trefl ttrans ends_with
        inv (fun u s1 s2 H Hi => proj1 (H Hi)) sch (map (tthread code fuel) css) _ ps s inv_init).
      match type of Hgo with ?P -> _ => assert (Hstart : P) end.
      { intros t p Hp. apply map_at in Hp. destruct Hp as (cs & E & ->).
        unfold tthread, thread.
        eapply wp_mono; [|eapply (wp_thread TR trefl ttrans t (tcall_prog code fuel) (K fuel t) (fun rs s1 s2 => K_R fuel t rs s1 s2) (fun rs c s1 => K_call fuel t c rs s1) cs [])].
        + intros r s1 (done & -> & E1 & HK) cs' Hc'. rewrite E in Hc'. injection Hc' as <-. exists done. auto.
        + split; [split; [exact inv_init|]|].
          * intros j. unfold depth. simpl. rewrite lookup_empty. reflexivity.
          * split; intros n; intros; [rewrite lookup_nil in H; discriminate|rewrite lookup_nil in H0; discriminate]. }
      exact (Hgo Hstart Hrun).
    Qed.
    Lemma reached : inv s /\ forall t cs rs, css !! t = Some cs -> ps !! t = Some (Ret rs) ->
      exists done, rs = map snd done /\ map fst done = cs /\ K fuel t done s.
    Proof using Hrun.
      destruct reached_wp as [Hi Hw]. split; [exact Hi|]. intros t cs rs Hc Hp. pose proof (wp_end TR trefl t (Ret rs) _ s (Hw t _ Hp)) as H. simpl in H.
        destruct (H cs Hc) as (done & [= ->] & E & HK). exists done. auto.
    Qed.

    Lemma once : List.NoDup (begun (dat s)).
    Proof using Hrun. apply (i_nodup _ _ _ s (proj1 reached)). Qed.

    Lemma ends i m : t_mods (dat s) !! i = Some m -> settled m -> ended code mods0 s i (t_attrs m).
    Proof using Hrun.
      intros Hm [b Hb]. destruct (i_mods _ _ _ s (proj1 reached) i m Hm) as (ats & ds & A & _ & _ & D). rewrite Hb in D.
      exists m, ats, ds. split; [exact Hm|]. split; [exact A|]. split; [reflexivity|].
      destruct b; [left; split; [exact Hb|apply D]|right; split; [exact Hb|apply D]].
    Qed.

    Lemma told_at t n c r : told css ps t n c r -> exists done, K fuel t done s /\ done !! n = Some (c, r) /\
      forall n' c' r', told css ps t n' c' r' -> done !! n' = Some (c', r').
    Proof using Hrun.
      intros H. pose proof H as (cs & rs & Hc & Hp & _). destruct (proj2 reached t cs rs Hc Hp) as (done & -> & <- & HK).
      assert (HH : forall n' c' r', told css ps t n' c' r' -> done !! n' = Some (c', r')).
      { intros n' c' r' (cs' & rs' & Hc' & Hp' & H1 & H2). rewrite Hc in Hc'. injection Hc' as <-. rewrite Hp in Hp'. injection Hp' as <-.
        apply map_at in H1, H2. destruct H1 as ([c1 r1] & E1 & ->), H2 as ([c2 r2] & E2 & ->). rewrite E1 in E2. injection E2 as <- <-. exact E1. }
      exists done. auto.
    Qed.

    Lemma answer_right t n c i a v : told css ps t n c (Good v) -> wants c i a -> opens a ->
      exists ats, ended code mods0 s i ats /\ says ats a (Good v).
    Proof using Hrun.
      intros H Hw Ho. destruct (told_at t n c _ H) as (done & (_ & H1 & _) & Hn & _).
      destruct (proj2 (H1 n c _ Hn) i a v Hw Ho eq_refl) as (m & Em & Hs & Hy). exists (t_attrs m).
      split; [apply ends; assumption|]. apply Hy. intros ->. destruct Ho. discriminate.
    Qed.

    Lemma answer_same t n c t' n' c' i a v v' : opens a ->
      told css ps t n c (Good v) -> wants c i a -> told css ps t' n' c' (Good v') -> wants c' i a ->
      forall k, v = VVal k -> v' = VVal k.
    Proof using Hrun.
      intros Ho H1 W1 H2 W2 k ->. destruct (answer_right t n c i a _ H1 W1 Ho) as (ats & (m & in1 & ds1 & E1 & _ & A1 & _) & S1).
      destruct (answer_right t' n' c' i a _ H2 W2 Ho) as (ats' & (m' & in2 & ds2 & E2 & _ & A2 & _) & S2).
      rewrite E1 in E2. injection E2 as <-. rewrite A1 in A2. subst ats'. unfold says in S1, S2.
      destruct (ats !! a) as [x|]; [congruence|]. destruct (Lazy.provided a); [|discriminate].
      destruct S1 as (w & [= <-] & Hn). destruct (Hn k eq_refl).
    Qed.

    Lemma answer_exact t n1 n2 c1 i a1 v a2 r2 : n1 < n2 -> told css ps t n1 c1 (Good v) -> wants c1 i a1 -> opens a1 ->
      told css ps t n2 (Access i a2) r2 -> r2 <> Fail OutOfFuel -> a2 <> "__class__"%string ->
      exists ats, ended code mods0 s i ats /\ says ats a2 r2.
    Proof using Hrun.
      intros Hlt H1 Hw Ho H2 Hf Ha. destruct (told_at t n1 c1 _ H1) as (done & (_ & _ & HK) & Hn & Hall).
      destruct (HK n1 n2 c1 i a1 v a2 r2 Hlt Hn Hw Ho (Hall _ _ _ H2) Hf Ha) as (m & Em & Hs & Hy). exists (t_attrs m).
      split; [apply ends; assumption|exact Hy].
    Qed.

    Lemma exceptions t n c e : told css ps t n c (Fail e) ->
      e = AttributeError \/ (exists j, In (TRaise e) (code j)) \/ (e = ImportError /\ exists i j a, In (TFrom j a) (code i)) \/ (e = TypeError /\ exists k, c = Attr k) \/ e = OutOfFuel.
    Proof using Hrun.
      intros H. destruct (told_at t n c _ H) as (done & (_ & H1 & _) & Hn & _).
      destruct (proj1 (H1 n c _ Hn) e eq_refl) as [[He|[He|He]]|[He|[He _]]]; auto 6.
    Qed.
    Lemma no_out_of_fuel t n c i : told css ps t n c (Fail OutOfFuel) -> layered code mods0 ->
      (forall j, ~ In (TRaise OutOfFuel) (code j)) -> target c i -> i < length mods0 -> depth_for (length mods0) <= fuel -> False.
    Proof using Hrun.
      intros H Hl Hno Ht Hi Hf. destruct (told_at t n c _ H) as (done & (_ & H1 & _) & Hn & _).
      destruct (proj1 (H1 n c _ Hn) _ eq_refl) as [[He|[[j He]|[He _]]]|[[He _]|[_ He]]]; [discriminate|exact (Hno j He)|discriminate|discriminate|].
      apply He. split; [exact Hl|]. exists i. split; [exact Ht|]. unfold depth_for in Hf. lia.
    Qed.

    Lemma attribute_right k l v : t_las (dat s) !! k = Some l -> opens (la_attr l) -> la_obj l = Some v \/ la_pub l = Some v ->
      las0 !! k = Some (la_mod l, la_attr l) /\ exists ats, ended code mods0 s (la_mod l) ats /\ says ats (la_attr l) (Good v).
    Proof using Hrun.
      intros Hk Ho Hv. destruct (i_las _ _ _ s (proj1 reached) k l Hk) as [E H]. split; [exact E|].
      destruct (H Ho v Hv) as (m & Em & Hs & Hy). exists (t_attrs m). split; [apply ends; assumption|].
      apply Hy. intros Ea. rewrite Ea in Ho. destruct Ho. discriminate.
    Qed.

    (** What has ended stays as it is. *)
    Lemma stays sch2 ps2 s2 i m : sched_run sch2 (ps, s) = Some (ps2, s2) -> t_mods (dat s) !! i = Some m -> t_run m <> Fresh -> t_run m <> Running ->
      exists m2, t_mods (dat s2) !! i = Some m2 /\ t_run m2 = t_run m /\ t_attrs m2 = t_attrs m /\ (t_cls m = KImp -> t_cls m2 = KImp).
    Proof using Hrun.
      intros H2 Hm Hf Hr. destruct reached_wp as [Hi Hw].
      assert (Hs : settled m) by (destruct (t_run m) as [| |b] eqn:E; [congruence|congruence|exists b; exact E]).
      destruct (wp_sched TR trefl ttrans ends_with
        (fun s' => inv s' /\ exists m2, t_mods (dat s') !! i = Some m2 /\ t_run m2 = t_run m /\ t_attrs m2 = t_attrs m /\ (t_cls m = KImp -> t_cls m2 = KImp))) with (sch := sch2) (ps := ps) (s := s) (ps' := ps2) (s' := s2)
        as [[_ H] _]; [|split; [exact Hi|exists m; auto]|exact Hw|exact H2|exact H].
      intros u s1 s1' HT (Hi1 & m1 & E1 & A & B & D). destruct (HT Hi1) as (Hi' & _ & HM & _). split; [exact Hi'|].
      destruct (HM i m1 E1) as (m2 & E2 & (_ & R2 & _)). exists m2. split; [exact E2|].
      destruct R2 as (R2a & R2b & R2c); [destruct Hs as [b Hb]; exists b; congruence|]. split; [congruence|]. split; [congruence|auto].
    Qed.
  End Execution.
End Thr.
