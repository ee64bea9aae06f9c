(** * LazyThrProofs: the methods of lazy modules, whatever the other threads do *)
From stdpp Require Import gmap strings.
From Coq Require Import String.
From Coq Require Import List Bool Arith Lia.
From Verif Require Import Prog ProgFacts Rely Lazy LazyThr LazyThrSpec LazyThrInv.
Import ListNotations.
Local Open Scope nat_scope.

Section Thr.
  Variable code : nat -> list tstmt.
  Variable mods0 : list (gmap string nat * list nat).
  Variable las0 : list (nat * string).
  Notation inv := (inv code mods0 las0).
  Notation TR := (TR code mods0 las0).
  Notation G := (guar TR).
  Notation W := (wp TR).
  Notation trefl := (TR_refl code mods0 las0).
  Notation ttrans := (TR_trans code mods0 las0).
  Notation dp t i s := (depth t i (lks s)).

  Definition at_mod (s : st tworld) (i : nat) (P : tmod -> Prop) : Prop := exists m, t_mods (dat s) !! i = Some m /\ P m.
  Definition not_utils (m : tmod) : Prop := t_cls m <> KUtils.

  (** The thread holds only locks of modules whose code it is running. *)
  Definition Pre (t : nat) (s : st tworld) : Prop :=
    inv s /\ forall j m, t_mods (dat s) !! j = Some m -> 0 < dp t j s -> t_run m = Running.

  Lemma back_mod w w' i m' : same_size w w' -> t_mods w' !! i = Some m' -> exists m, t_mods w !! i = Some m.
  Proof using.
    intros [H _] E. apply lookup_lt_Some in E. rewrite H in E. apply lookup_lt_is_Some_2 in E. destruct E as [m E]. eauto.
  Qed.
  Lemma rel_at d w w' i m' : same_size w w' -> mods_rel d w w' -> t_mods w' !! i = Some m' ->
    exists m, t_mods w !! i = Some m /\ mrel (d i) m m'.
  Proof using.
    intros Hz Hr E. destruct (back_mod w w' i m' Hz E) as [m Em]. destruct (Hr i m Em) as (m1 & E1 & H1).
    rewrite E in E1. injection E1 as <-. eauto.
  Qed.

  Lemma Pre_R t s s' : Pre t s -> TR t s s' -> Pre t s'.
  Proof.
    intros [Hi Hh] H. destruct (H Hi) as (Hi' & Hd & Hm & Hz). split; [exact Hi'|].
    intros j m' Hj. rewrite Hd. intros Hp. destruct (rel_at _ _ _ j m' Hz Hm Hj) as (m & Em & (H1 & _)).
    destruct (H1 Hp) as (E & _). rewrite E. eauto.
  Qed.
  Lemma at_not_utils t s s' i : inv s -> TR t s s' -> at_mod s i not_utils -> at_mod s' i not_utils.
  Proof.
    intros Hi H (m & Hm & Hu). destruct (H Hi) as (_ & _ & Hr & _). destruct (Hr i m Hm) as (m' & E & (_ & _ & _ & H4)).
    exists m'. split; [exact E|apply H4, Hu].
  Qed.
  Lemma at_settled t s s' i ats : inv s -> TR t s s' -> at_mod s i (fun m => settled m /\ t_attrs m = ats) ->
    at_mod s' i (fun m => settled m /\ t_attrs m = ats).
  Proof.
    intros Hi H (m & Hm & Hs & Ha). destruct (H Hi) as (_ & _ & Hr & _). destruct (Hr i m Hm) as (m' & E & (_ & H2 & _)).
    destruct (H2 Hs) as (E1 & E2 & _). exists m'. split; [exact E|]. split; [destruct Hs as [b Hb]; exists b; congruence|congruence].
  Qed.
  Lemma at_stuck t s s' i : inv s -> TR t s s' -> at_mod s i (fun m => settled m /\ t_cls m = KImp) ->
    at_mod s' i (fun m => settled m /\ t_cls m = KImp).
  Proof.
    intros Hi H (m & Hm & Hs & Ha). destruct (H Hi) as (_ & _ & Hr & _). destruct (Hr i m Hm) as (m' & E & (_ & H2 & _)).
    destruct (H2 Hs) as (E1 & E2 & E3). exists m'. split; [exact E|]. split; [destruct Hs as [b Hb]; exists b; congruence|auto].
  Qed.

  (** ** What a module object answers *)
  Lemma tget_says m a : not_utils m -> a <> "__class__"%string -> says (t_attrs m) a (tget m a).
  Proof using.
    intros Hu Ha. unfold says, tget. destruct (String.eqb_spec a "__class__"); [contradiction|].
    destruct (t_attrs m !! a) as [n'|]; [reflexivity|].
    destruct (String.eqb_spec a "__getattribute__") as [->|]; [simpl; eexists; split; [reflexivity|discriminate]|].
    destruct (provided a); [eexists; split; [reflexivity|discriminate]|].
    destruct (tcls_eqb (t_cls m) KUtils) eqn:E; [|rewrite andb_false_r; reflexivity].
    destruct (t_cls m) eqn:E1; try discriminate. destruct (Hu E1).
  Qed.
  Lemma tget_quick m a : a = "__class__"%string \/ a = "__name__"%string -> exists v, tget m a = Good v.
  Proof using.
    intros [->| ->]; unfold tget; simpl; [eauto|]. destruct (t_attrs m !! "__name__"%string); eauto.
  Qed.
  Lemma tget_noblock m a : tget m a <> Block.
  Proof using.
    unfold tget. destruct (String.eqb a "__class__"); [discriminate|]. destruct (t_attrs m !! a); [discriminate|].
    destruct (String.eqb a "__getattribute__"); [discriminate|]. destruct (provided a); [discriminate|]. destruct (_ && _); discriminate.
  Qed.
  Lemma tget_fail m a e : tget m a = Fail e -> e = AttributeError.
  Proof using.
    unfold tget. destruct (String.eqb a "__class__"); [discriminate|]. destruct (t_attrs m !! a); [discriminate|].
    destruct (String.eqb a "__getattribute__"); [discriminate|]. destruct (provided a); [discriminate|]. destruct (_ && _); congruence.
  Qed.
  Lemma settled_not_utils s i m : inv s -> t_mods (dat s) !! i = Some m -> settled m -> not_utils m.
  Proof.
    intros Hi Hm [b Hb]. destruct (i_mods _ _ _ s Hi i m Hm) as (ats & ds & _ & _ & _ & H). rewrite Hb in H.
    unfold not_utils. destruct b; [apply H|]. destruct H as [H _]. congruence.
  Qed.

  (** ** Exceptions and depth *)
  Definition exc (e : exn) : Prop :=
    e = AttributeError \/ (exists j, In (TRaise e) (code j)) \/ (e = ImportError /\ exists i j a, In (TFrom j a) (code i)).
  Definition quick (a : string) : Prop := a = "__class__"%string \/ a = "__name__"%string.
  Definition enough_imp (f t i : nat) (a : string) (s : st tworld) : Prop :=
    (2 * i + 1 <= f /\ at_mod s i not_utils) \/ (2 * i + 2 <= f /\ quick a) \/
    0 < dp t i s \/ at_mod s i (fun m => settled m /\ t_cls m = KImp).
  Definition enough (f t : nat) (c : pcall) (s : st tworld) : Prop :=
    match c with
    | PGet i a => 2 * i + 3 <= f \/ (2 * i + 2 <= f /\ (quick a \/ at_mod s i not_utils)) \/
                  (1 <= f /\ (at_mod s i settled \/ 0 < dp t i s))
    | PCall KMod i a => 1 <= f
    | PCall KImp i a => 1 <= f /\ enough_imp (pred f) t i a s
    | PCall KUtils i a => 2 * i + 3 <= f
    | PForce i => 2 * i + 3 <= f
    end.
  Definition raised (P : Prop) (r : outcome lval) : Prop :=
    forall e, r = Fail e -> exc e \/ (e = OutOfFuel /\ ~ (layered code mods0 /\ P)).
  Definition seen (i : nat) (a : string) (r : outcome lval) (s : st tworld) : Prop :=
    forall v, r = Good v -> value_ok (t_mods (dat s)) i a v.
  Definition exact (i : nat) (a : string) (s0 : st tworld) (r : outcome lval) : Prop :=
    forall ats, at_mod s0 i (fun m => settled m /\ t_attrs m = ats) -> r <> Fail OutOfFuel -> a <> "__class__"%string -> says ats a r.

  (** Only a module of that class says so. *)
  Definition kind (i : nat) (r : outcome lval) (s : st tworld) : Prop :=
    forall c, r = Good (VCls c) \/ r = Good (VMeth c) ->
      (c <> KUtils -> at_mod s i not_utils) /\ (c = KMod -> at_mod s i settled).

  Definition Post (f t : nat) (c : pcall) (s0 : st tworld) (r : outcome lval) (s' : st tworld) : Prop :=
    TR t s0 s' /\ raised (enough f t c s0) r /\
    match c with
    | PGet i a => (opens a \/ at_mod s0 i not_utils -> dp t i s0 = 0 -> seen i a r s') /\ exact i a s0 r /\ kind i r s'
    | PCall KUtils i a => opens a -> dp t i s0 = 0 -> seen i a r s'
    | PCall _ i a => dp t i s0 = 0 -> seen i a r s'
    | PForce i => True
    end.
  Definition callable (c : pcall) (s : st tworld) : Prop :=
    match c with
    | PCall KMod i a => at_mod s i settled
    | PCall KImp i a => at_mod s i not_utils
    | _ => True
    end.
  Definition spec (f : nat) (rec : pcall -> prog tcmd lval) : Prop :=
    forall t c s0, Pre t s0 -> callable c s0 -> W t (rec c) (Post f t c s0) s0.

  Lemma kind_fail i e s : kind i (Fail e) s.
  Proof using. intros c [H|H]; discriminate. Qed.
  Lemma kind_R t i r s s' : inv s -> TR t s s' -> kind i r s -> kind i r s'.
  Proof.
    intros Hi H Hk c Hc. destruct (Hk c Hc) as [H1 H2]. split.
    - intros Hn. eapply at_not_utils; eauto.
    - intros Hn. destruct (H2 Hn) as (m & Em & Hs). destruct (at_settled t s s' i (t_attrs m) Hi H) as (m' & E' & Hs' & _); [exists m; auto|].
      exists m'. auto.
  Qed.
  Lemma kind_get s i m a : inv s -> t_mods (dat s) !! i = Some m -> kind i (tget m a) s.
  Proof.
    intros Hi Hm c Hc. assert (E : c = t_cls m).
    { unfold tget in Hc. destruct (String.eqb a "__class__"); [destruct Hc; congruence|]. destruct (t_attrs m !! a); [destruct Hc; discriminate|].
      destruct (String.eqb a "__getattribute__"); [destruct Hc; congruence|]. destruct (provided a); [destruct Hc; discriminate|].
      destruct (_ && _); destruct Hc; discriminate. }
    subst c. split; [intros Hn; exists m; auto|]. intros Hn. exists m. split; [exact Hm|].
    destruct (i_mods _ _ _ s Hi i m Hm) as (ats & ds & _ & _ & _ & D). destruct (t_run m) as [| |b] eqn:Er; [destruct D; congruence|destruct D; congruence|].
    exists b. exact Er.
  Qed.

  (** ** Commands *)
  Lemma wp_read {X} t (c : tcmd X) (f : tworld -> outcome X) (Q : outcome X -> st tworld -> Prop) s :
    (forall w, texec c w = (f w, w)) -> inv s ->
    (forall s1, TR t s s1 -> inv s1 -> f (dat s1) <> Block -> forall s3, TR t s1 s3 -> Q (f (dat s1)) s3) ->
    W t (op c) Q s.
  Proof.
    intros Hc Hi H. apply wp_op. intros s1 H1. simpl. rewrite Hc.
    specialize (H s1 H1 (proj1 (H1 Hi))).
    assert (Es : mkst (dat s1) (lks s1) = s1) by (destruct s1; reflexivity). rewrite Es.
    destruct (f (dat s1)) as [x|e|]; [|split; [apply guar_same|intros s3; apply H; discriminate]|exact I].
    split; [apply guar_same|]. intros s3. apply H. discriminate.
  Qed.

  Lemma rd_type i w : texec (TType i) w = (match t_mods w !! i with Some m => Good (t_cls m) | None => Fail AttributeError end, w).
  Proof using. apply (on_mod_read i (fun m => Good (t_cls m))). Qed.
  Lemma rd_get i a w : texec (TGet i a) w = (match t_mods w !! i with Some m => tget m a | None => Fail AttributeError end, w).
  Proof using. apply (on_mod_read i (fun m => tget m a)). Qed.
  Lemma rd_meth i w : texec (TMeth i) w =
    (match t_mods w !! i with Some m => if tcls_eqb (t_cls m) KUtils then Good tt else Fail AttributeError | None => Fail AttributeError end, w).
  Proof using. apply (on_mod_read i (fun m => if tcls_eqb (t_cls m) KUtils then Good tt else Fail AttributeError)). Qed.
  Lemma rd_deps i w : texec (TDeps i) w = (match t_mods w !! i with Some m => Good (t_deps m) | None => Fail AttributeError end, w).
  Proof using. apply (on_mod_read i (fun m => Good (t_deps m))). Qed.
  Lemma rd_loading i w : texec (TIsLoading i) w = (match t_mods w !! i with Some m => Good (t_loading m) | None => Fail AttributeError end, w).
  Proof using. apply (on_mod_read i (fun m => Good (t_loading m))). Qed.
  Lemma rd_la k w : texec (TLa k) w = (match t_las w !! k with Some l => Good (la_mod l, la_attr l, la_obj l) | None => Fail AttributeError end, w).
  Proof using.
    simpl. unfold on_la. destruct (t_las w !! k) as [l|] eqn:E; [|reflexivity].
    rewrite list_insert_id by exact E. destruct w; reflexivity.
  Qed.

  (** A change of module [i] that thread [t] may make and that it sees like the change of another. *)
  Lemma mod_change t i m m' s : inv s -> t_mods (dat s) !! i = Some m ->
    (forall u, mrel (dp u i s) m m') -> mod_ok code mods0 i m' (lks s !! lk i) ->
    (t_run m = Fresh -> t_run m' = Fresh) ->
    G t s (put_mod i m' (begun (dat s)) s) /\ TR t s (put_mod i m' (begun (dat s)) s).
  Proof.
    intros Hi Hm Hr Ho Hf.
    assert (Hb : begun (dat s) = match t_run m, t_run m' with Fresh, Fresh => begun (dat s) | Fresh, _ => begun (dat s) ++ [i] | _, _ => begun (dat s) end).
    { destruct (t_run m); auto. rewrite Hf by reflexivity. reflexivity. }
    assert (HG : forall t', G t' s (put_mod i m' (begun (dat s)) s)).
    { intros t'. apply (put_mod_guar code mods0 las0 t' i m m'); auto. }
    split; [apply HG|]. apply (HG (S t)). lia.
  Qed.

  Lemma wp_nodeps t i s (Q : outcome unit -> st tworld -> Prop) : inv s ->
    (forall r s', TR t s s' -> r = Good tt \/ r = Fail AttributeError -> Q r s') -> W t (op (TNoDeps i)) Q s.
  Proof.
    intros Hi H. apply wp_op. intros s1 H1. pose proof (proj1 (H1 Hi)) as Hi1. simpl. unfold on_mod.
    destruct (t_mods (dat s1) !! i) as [m|] eqn:Em.
    - destruct (mod_change t i m (mkt (t_cls m) (t_loading m) (t_run m) (t_attrs m) []) s1 Hi1 Em) as [HG HT].
      + intros u. unfold mrel. simpl. auto.
      + destruct (i_mods _ _ _ s1 Hi1 i m Em) as (ats & ds & A & B & C & D). exists ats, ds. simpl. tauto.
      + auto.
      + split; [exact HG|]. intros s3 H3. apply H; [|auto]. eapply ttrans; [exact H1|]. eapply ttrans; [exact HT|exact H3].
    - assert (Es : mkst (dat s1) (lks s1) = s1) by (destruct s1; reflexivity). rewrite Es.
      split; [apply guar_same|]. intros s3 H3. apply H; [eapply ttrans; eauto|auto].
  Qed.

  Lemma wp_toimp t i s (Q : outcome unit -> st tworld -> Prop) : inv s ->
    (forall r s', TR t s s' -> (r = Good tt -> at_mod s' i not_utils) -> r = Good tt \/ r = Fail AttributeError -> Q r s') ->
    W t (op (TToImp i)) Q s.
  Proof.
    intros Hi H. apply wp_op. intros s1 H1. pose proof (proj1 (H1 Hi)) as Hi1. simpl. unfold on_mod.
    destruct (t_mods (dat s1) !! i) as [m|] eqn:Em.
    - destruct (mod_change t i m (mkt KImp (t_loading m) (t_run m) (t_attrs m) (t_deps m)) s1 Hi1 Em) as [HG HT].
      + intros u. unfold mrel. simpl. split; [auto|]. split; [auto|]. split; [auto|]. intros _. discriminate.
      + destruct (i_mods _ _ _ s1 Hi1 i m Em) as (ats & ds & A & B & C & D). exists ats, ds. simpl.
        split; [exact A|]. split; [exact B|]. split; [exact C|].
        destruct (t_run m) as [| |[]]; [|exact (conj eq_refl (proj2 D))| |exact (conj eq_refl (proj2 D))].
        * split; [apply D|discriminate].
        * split; [apply D|discriminate].
      + auto.
      + split; [exact HG|]. intros s3 H3. apply H; [eapply ttrans; [exact H1|]; eapply ttrans; [exact HT|exact H3]| |auto].
        intros _. apply (at_not_utils t _ s3 i) in H3; [exact H3|exact (proj1 (HT Hi1))|].
        eexists. split; [simpl; apply list_lookup_insert; eapply lookup_lt_Some; exact Em|]. unfold not_utils. simpl. discriminate.
    - assert (Es : mkst (dat s1) (lks s1) = s1) by (destruct s1; reflexivity). rewrite Es.
      split; [apply guar_same|]. intros s3 H3. apply H; [eapply ttrans; eauto|discriminate|auto].
  Qed.

  Lemma wp_catch {A} t (p : prog tcmd A) (f : exn -> prog tcmd A) (Q : outcome A -> st tworld -> Prop) : forall s,
    W t p (fun r s' => match r with Fail e => W t (f e) Q s' | _ => Q r s' end) s -> W t (catch p f) Q s.
  Proof.
    induction p as [a|e|X c k IHk h IHh]; simpl; intros s H.
    - exact H.
    - apply (H s (trefl t s)).
    - intros s1 H1. specialize (H s1 H1). destruct (exec t c s1) as [[x|e|] s2]; [| |exact I];
        (destruct H as [Hg Hw]; split; [exact Hg|auto]).
  Qed.

  (** ** Under the lock of module [i]: [s1] is the state before the lock was acquired *)
  Definition RL (t i : nat) (s1 s : st tworld) : Prop :=
    inv s /\ dp t i s = S (dp t i s1) /\ (forall j, j <> i -> dp t j s = dp t j s1) /\
    mods_rel (fun j => dp t j s1) (dat s1) (dat s) /\ same_size (dat s1) (dat s).
  Lemma RL_R t i s1 s s' : RL t i s1 s -> TR t s s' -> RL t i s1 s'.
  Proof.
    intros (Hi & Hd & Hj & Hm & Hz) H. destruct (H Hi) as (Hi' & Hd' & Hm' & Hz').
    split; [exact Hi'|]. split; [rewrite Hd'; exact Hd|]. split; [intros j Hne; rewrite Hd'; auto|].
    split; [|eapply same_size_trans; eauto]. eapply mods_rel_trans; [|exact Hm|exact Hm'].
    intros j. simpl. intros Hp. destruct (decide (j = i)) as [->|Hne]; [lia|]. rewrite Hj by exact Hne. exact Hp.
  Qed.
  Lemma RL_Pre t i s1 s : Pre t s1 -> RL t i s1 s -> at_mod s i (fun m => t_run m = Running) -> Pre t s.
  Proof.
    intros [Hi1 Hh] (Hi & Hd & Hj & Hm & Hz) (mi & Hmi & Hr). split; [exact Hi|].
    intros j m E Hp. destruct (decide (j = i)) as [->|Hne].
    - rewrite Hmi in E. injection E as <-. exact Hr.
    - rewrite Hj in Hp by exact Hne. destruct (rel_at _ _ _ j m Hz Hm E) as (m1 & E1 & (H1 & _)).
      destruct (H1 Hp) as (-> & _). eauto.
  Qed.
  (** A change of module [i] by the thread that holds its lock. *)
  Lemma RL_change t i s1 s m m' : RL t i s1 s -> t_mods (dat s) !! i = Some m ->
    mrel 0 m m' -> (forall m1, t_mods (dat s1) !! i = Some m1 -> mrel (dp t i s1) m1 m') ->
    mod_ok code mods0 i m' (lks s !! lk i) ->
    let b := match t_run m, t_run m' with Fresh, Fresh => begun (dat s) | Fresh, _ => begun (dat s) ++ [i] | _, _ => begun (dat s) end in
    G t s (put_mod i m' b s) /\ RL t i s1 (put_mod i m' b s) /\ t_mods (dat (put_mod i m' b s)) !! i = Some m'.
  Proof.
    intros (Hi & Hd & Hj & Hm & Hz) Em H0 H1 Ho b. split; [|split].
    - apply (put_mod_guar code mods0 las0 t i m m'); auto. intros u Hu.
      rewrite (depth_other t u) by (auto; lia). exact H0.
    - split; [apply (put_mod_inv code mods0 las0 i m m'); auto|]. split; [exact Hd|]. split; [exact Hj|].
      destruct (put_mod_rel i m m' b s (fun _ => 0) Em H0) as [HM HZ]. split; [|eapply same_size_trans; eauto].
      intros j mj Ej. destruct (decide (j = i)) as [->|Hne].
      + exists m'. split; [rewrite (put_mod_lookup i m) by exact Em; rewrite decide_True by reflexivity; reflexivity|]. apply H1, Ej.
      + destruct (Hm j mj Ej) as (m2 & E2 & R2). exists m2. split; [|exact R2].
        rewrite (put_mod_lookup i m) by exact Em. rewrite decide_False by exact Hne. exact E2.
    - rewrite (put_mod_lookup i m) by exact Em. rewrite decide_True by reflexivity. reflexivity.
  Qed.

  (** While the code of module [i] is running. *)
  Definition running (i : nat) (ats : gmap string nat) (s : st tworld) : Prop :=
    at_mod s i (fun m => t_run m = Running /\ t_attrs m = ats).
  Lemma running_R t i s1 s s' ats : RL t i s1 s -> running i ats s -> TR t s s' -> running i ats s'.
  Proof.
    intros (Hi & Hd & _) (m & Hm & Hr & Ha) H. destruct (H Hi) as (_ & _ & Hm' & _).
    destruct (Hm' i m Hm) as (m' & E & (H1 & _)). destruct (H1 ltac:(simpl in *; lia)) as (E1 & E2 & _).
    exists m'. split; [exact E|]. split; congruence.
  Qed.
  Lemma running_Pre t i s1 s ats : Pre t s1 -> RL t i s1 s -> running i ats s -> Pre t s.
  Proof.
    intros H1 H2 (m & Hm & Hr & _). eapply RL_Pre; [exact H1|exact H2|]. exists m. auto.
  Qed.

  Definition body_raised (f i : nat) {X} (r : outcome X) : Prop :=
    forall e, r = Fail e -> exc e \/ (e = OutOfFuel /\ ~ (layered code mods0 /\ 2 * i + 1 <= f)).

  Lemma defs_snoc y pre : forall ats, defs (pre ++ [y]) ats = defs [y] (defs pre ats).
  Proof using. induction pre as [|x pre IH]; intros ats; [reflexivity|]. destruct x; apply IH. Qed.

  Lemma wp_tbody f rec t i s1 ats0 : spec f rec -> Pre t s1 -> dp t i s1 = 0 ->
    (forall m1, t_mods (dat s1) !! i = Some m1 -> t_run m1 = Fresh /\ exists ds, mods0 !! i = Some (ats0, ds)) ->
    forall ss pre s, code i = pre ++ ss -> RL t i s1 s -> running i (defs pre ats0) s ->
    W t (tbody rec i ss) (fun r s' => RL t i s1 s' /\ body_raised f i r /\
      exists pre' post', code i = pre' ++ post' /\ running i (defs pre' ats0) s' /\ (r = Good tt -> post' = [])) s.
  Proof.
    intros Hrec HP Hd0 Hm0. induction ss as [|x ss IH]; intros pre s Hc HL Hr.
    - simpl. intros s2 H2. split; [eapply RL_R; eauto|]. split; [intros e; discriminate|].
      exists pre, []. split; [exact Hc|]. split; [eapply running_R; eauto|auto].
    - assert (Hdefs : forall y, defs (pre ++ [y]) ats0 = defs [y] (defs pre ats0)).
      { intros y. apply defs_snoc. }
      assert (Hc' : code i = (pre ++ [x]) ++ ss) by (rewrite <- app_assoc; exact Hc).
      destruct x as [a n|j a|j a|e]; cbn [tbody].
      + apply wp_bind; [exact trefl|]. apply wp_op. intros s2 H2.
        pose proof (RL_R t i s1 s s2 HL H2) as HL2. pose proof (running_R t i s1 s s2 _ HL Hr H2) as (m & Em & Er & Ea).
        pose (m' := mkt (t_cls m) (t_loading m) (t_run m) (<[a := n]> (t_attrs m)) (t_deps m)).
        assert (H0 : mrel 0 m m').
        { unfold mrel. simpl. split; [lia|]. split; [intros [b Hb]; congruence|]. auto. }
        destruct (RL_change t i s1 s2 m m' HL2 Em H0) as (HG & HL3 & E3).
        * intros m1 E1. destruct (Hm0 m1 E1) as [Hf _]. rewrite Hd0. unfold mrel. simpl.
          destruct HL2 as (_ & _ & _ & HM & _). destruct (HM i m1 E1) as (m2 & E2 & (_ & _ & _ & H4)).
          rewrite Em in E2. injection E2 as <-. split; [lia|]. split; [intros [b Hb]; congruence|]. split; [rewrite Er; discriminate|exact H4].
        * destruct HL2 as (Hi2 & _). destruct (i_mods _ _ _ s2 Hi2 i m Em) as (ats & ds & A & B & C & D). exists ats, ds. simpl.
          rewrite Er in *. auto.
        * simpl in HG, HL3. unfold m' in *. simpl in *. rewrite Er in *. unfold on_mod. rewrite Em. rewrite Er.
          split; [exact HG|]. intros s3 H3.
          apply (IH (pre ++ [TDef a n]) s3); [exact Hc'|eapply RL_R; [exact HL3|exact H3]|].
          rewrite Hdefs. simpl. eapply running_R; [exact HL3| |exact H3].
          eexists. split; [exact E3|]. simpl. split; [reflexivity|congruence].
      + apply wp_bind; [exact trefl|]. pose proof (running_Pre t i s1 s _ HP HL Hr) as HPs.
        eapply wp_mono; [|apply (Hrec t (PGet j a) s HPs I)]. intros r s2 (H2 & Hra & _).
        pose proof (RL_R t i s1 s s2 HL H2) as HL2. pose proof (running_R t i s1 s s2 _ HL Hr H2) as Hr2.
        destruct r as [v|e|]; simpl; [|split; [exact HL2|]|exact I].
        * apply (IH (pre ++ [TUse j a]) s2); [exact Hc'|exact HL2|]. rewrite Hdefs. exact Hr2.
        * split; [|exists pre, (TUse j a :: ss); split; [exact Hc|]; split; [exact Hr2|discriminate]].
          intros e' [= <-]. destruct (Hra e eq_refl) as [He|[-> Hn]]; [left; exact He|right]. split; [reflexivity|].
          intros [Hlay Hf]. apply Hn. split; [exact Hlay|]. simpl.
          assert (Hji : j <= i) by (apply (proj1 Hlay i j a); left; rewrite Hc; apply in_elt).
          destruct (decide (j = i)) as [->|Hne]; [right; right|left; lia]. split; [lia|]. right.
          destruct HL as (_ & Hd & _). lia.
      + apply wp_bind; [exact trefl|]. apply wp_catch. pose proof (running_Pre t i s1 s _ HP HL Hr) as HPs.
        eapply wp_mono; [|apply (Hrec t (PGet j a) s HPs I)]. intros r s2 (H2 & Hra & _).
        pose proof (RL_R t i s1 s s2 HL H2) as HL2. pose proof (running_R t i s1 s s2 _ HL Hr H2) as Hr2.
        destruct r as [v|e|]; simpl; [| |exact I].
        * apply (IH (pre ++ [TFrom j a]) s2); [exact Hc'|exact HL2|]. rewrite Hdefs. exact Hr2.
        * intros s3 H3. split; [eapply RL_R; eauto|]. split; [|exists pre, (TFrom j a :: ss); split; [exact Hc|]; split; [eapply running_R; eauto|discriminate]].
          intros e' [= <-]. destruct (is_attr_err e) eqn:Eae.
          { left. right. right. split; [reflexivity|]. exists i, j, a. rewrite Hc. apply in_elt. }
          destruct (Hra e eq_refl) as [He|[-> Hn]]; [left; exact He|right]. split; [reflexivity|].
          intros [Hlay Hf]. apply Hn. split; [exact Hlay|]. simpl.
          assert (Hji : j <= i) by (apply (proj1 Hlay i j a); right; rewrite Hc; apply in_elt).
          destruct (decide (j = i)) as [->|Hne]; [right; right|left; lia]. split; [lia|]. right.
          destruct HL as (_ & Hd & _). lia.
      + simpl. intros s2 H2. split; [eapply RL_R; eauto|]. split.
        * intros e' [= <-]. left. right. left. exists i. rewrite Hc. apply in_elt.
        * exists pre, (TRaise e :: ss). split; [exact Hc|]. split; [eapply running_R; eauto|discriminate].
  Qed.

  Definition idle_mod (i : nat) (s : st tworld) : Prop := forall m, t_mods (dat s) !! i = Some m -> t_run m <> Running.
  Lemma own_R t i s1 s s' m' : RL t i s1 s -> TR t s s' -> t_mods (dat s') !! i = Some m' ->
    exists m, t_mods (dat s) !! i = Some m /\ t_run m' = t_run m /\ t_attrs m' = t_attrs m /\ (t_cls m = KImp -> t_cls m' = KImp).
  Proof.
    intros (Hi & Hd & _) H E. destruct (H Hi) as (_ & _ & Hm & Hz). destruct (rel_at _ _ _ i m' Hz Hm E) as (m & Em & (H1 & _)).
    exists m. split; [exact Em|]. apply H1. simpl in *. lia.
  Qed.
  Lemma idle_R t i s1 s s' : RL t i s1 s -> TR t s s' -> idle_mod i s -> idle_mod i s'.
  Proof.
    intros HL H Hn m' E. destruct (own_R t i s1 s s' m' HL H E) as (m & Em & -> & _). apply Hn, Em.
  Qed.
  (** From the state before the lock was acquired. *)
  Lemma RL_at t i s1 s m : RL t i s1 s -> t_mods (dat s) !! i = Some m ->
    exists m1, t_mods (dat s1) !! i = Some m1 /\ mrel (dp t i s1) m1 m.
  Proof. intros (_ & _ & _ & Hm & Hz) E. apply (rel_at _ _ _ i m Hz Hm E). Qed.
  Lemma RL_missing t i s1 s P : RL t i s1 s -> t_mods (dat s) !! i = None -> ~ at_mod s1 i P.
  Proof. intros (_ & _ & _ & Hm & _) E (m & Em & _). destruct (Hm i m Em) as (m' & E' & _). congruence. Qed.

  Definition locked_post (f t i : nat) (a : string) (s1 : st tworld) (r : outcome (option lval)) (s' : st tworld) : Prop :=
    match r with
    | Good (Some v) => (dp t i s1 = 0 -> value_ok (t_mods (dat s')) i a v) /\ exact i a s1 (Good v) /\ kind i (Good v) s'
    | Good None => dp t i s1 = 0 /\ ~ at_mod s1 i (fun m => settled m /\ t_cls m = KImp) /\
                   (at_mod s' i settled \/ at_mod s1 i (fun m => t_cls m = KUtils))
    | Fail e => (exc e \/ (e = OutOfFuel /\ ~ (layered code mods0 /\ 2 * i + 1 <= f) /\ dp t i s1 = 0 /\ ~ at_mod s1 i settled)) /\
                exact i a s1 (Fail e)
    | Block => True
    end.

  Lemma wp_locked f rec t i a s1 s : spec f rec -> Pre t s1 -> RL t i s1 s -> (dp t i s1 = 0 -> idle_mod i s) ->
    W t (timp_locked code rec i a) (fun r s' => RL t i s1 s' /\ (dp t i s1 = 0 -> idle_mod i s') /\ locked_post f t i a s1 r s') s.
  Proof.
    intros Hrec HP HL Hn. unfold timp_locked. apply wp_bind; [exact trefl|].
    eapply wp_read; [apply rd_type|apply HL|]. intros s2 H2 Hi2 _ s3 H3. cbv beta.
    pose proof (RL_R t i s1 s s2 HL H2) as HL2. pose proof (RL_R t i s1 s2 s3 HL2 H3) as HL3.
    assert (Hn3 : dp t i s1 = 0 -> idle_mod i s3).
    { intros Hd. eapply idle_R; [exact HL2|exact H3|]. eapply idle_R; [exact HL|exact H2|auto]. }
    destruct (t_mods (dat s2) !! i) as [m2|] eqn:E2; cbn [follows].
    2: { split; [exact HL3|]. split; [exact Hn3|]. split; [left; left; reflexivity|].
         intros ats Hs. destruct (RL_missing t i s1 s2 _ HL2 E2 Hs). }
    destruct (RL_at t i s1 s2 m2 HL2 E2) as (m1 & E1 & (R1 & R2 & R3 & R4)).
    pose proof (i_mods _ _ _ s2 Hi2 i m2 E2) as (ats2 & ds2 & A2 & B2 & C2 & D2).
    assert (Hdz : t_cls m2 <> KImp -> dp t i s1 = 0).
    { intros Hc. destruct (dp t i s1) as [|d] eqn:Ed; [reflexivity|]. destruct (R1 ltac:(lia)) as (Er & _).
      pose proof (proj2 HP i m1 E1 ltac:(lia)) as Hrun. rewrite Hrun in Er. rewrite Er in D2. destruct D2. contradiction. }
    assert (Hnst : t_cls m2 <> KImp -> ~ at_mod s1 i (fun m => settled m /\ t_cls m = KImp)).
    { intros Hc (m & Em & Hs & Hk). rewrite E1 in Em. injection Em as <-. destruct (R2 Hs) as (_ & _ & H). auto. }
    destruct (t_cls m2) eqn:Ec; cbv iota.
    - intros s4 H4. split; [eapply RL_R; eauto|]. split; [intros Hd; eapply idle_R; eauto|].
      split; [apply Hdz; discriminate|]. split; [apply Hnst; discriminate|]. right. exists m1. split; [exact E1|].
      destruct (t_cls m1) eqn:Ec1; [reflexivity|exfalso; apply R4; [discriminate|reflexivity]..].
    - apply wp_bind; [exact trefl|]. eapply wp_read; [apply rd_loading|apply HL3|]. intros s4 H4 Hi4 _ s5 H5. cbv beta.
      pose proof (ttrans t _ _ _ H3 H4) as H24.
      pose proof (RL_R t i s1 s3 s4 HL3 H4) as HL4. pose proof (RL_R t i s1 s4 s5 HL4 H5) as HL5.
      assert (Hn5 : dp t i s1 = 0 -> idle_mod i s5).
      { intros Hd. eapply idle_R; [exact HL4|exact H5|]. eapply idle_R; [exact HL3|exact H4|auto]. }
      destruct (t_mods (dat s4) !! i) as [m4|] eqn:E4; cbn [follows].
      2: { split; [exact HL5|]. split; [exact Hn5|]. split; [left; left; reflexivity|].
           intros ats Hs. destruct (RL_missing t i s1 s4 _ HL4 E4 Hs). }
      destruct (own_R t i s1 s2 s4 m4 HL2 H24 E4) as (m2' & E2' & Er4 & Ea4 & Ec4).
      rewrite E2 in E2'. injection E2' as <-. specialize (Ec4 Ec).
      pose proof (i_mods _ _ _ s4 Hi4 i m4 E4) as (ats4 & ds4 & A4 & B4 & C4 & D4). rewrite B4.
      destruct (t_run m4) as [| |ok] eqn:Erun; cbv iota.
      + (* the code has not been started *)
        assert (Hd0 : dp t i s1 = 0).
        { destruct (dp t i s1) as [|d] eqn:Ed; [reflexivity|]. destruct (R1 ltac:(lia)) as (Er & _).
          pose proof (proj2 HP i m1 E1 ltac:(lia)) as Hrun. congruence. }
        assert (Hf1 : t_run m1 = Fresh).
        { destruct (t_run m1) eqn:Ef; [reflexivity|exfalso; apply R3; congruence..]. }
        assert (Hns : ~ at_mod s1 i settled).
        { intros (m & Em & [b Hb]). rewrite E1 in Em. injection Em as <-. congruence. }
        assert (Hex : forall r, exact i a s1 r).
        { intros r ats (m & Em & Hs & _). destruct Hns. exists m. auto. }
        apply wp_bind; [exact trefl|]. apply wp_op. intros s6 H6. pose proof (RL_R t i s1 s5 s6 HL5 H6) as HL6.
        pose proof (ttrans t _ _ _ H5 H6) as H46. simpl. unfold on_mod.
        destruct (t_mods (dat s6) !! i) as [m6|] eqn:E6; simpl.
        2: { assert (Es : mkst (mktw (t_mods (dat s6)) (t_las (dat s6)) (begun (dat s6))) (lks s6) = s6) by (destruct s6 as [[] ?]; reflexivity).
             rewrite Es. split; [apply guar_same|]. intros s7 H7. split; [eapply RL_R; eauto|].
             split; [intros Hd; eapply idle_R; [exact HL6|exact H7|]; eapply idle_R; [exact HL5|exact H6|auto]|].
             split; [left; left; reflexivity|apply Hex]. }
        destruct (own_R t i s1 s4 s6 m6 HL4 H46 E6) as (m4' & E4' & Er6 & Ea6 & Ec6).
        rewrite E4 in E4'. injection E4' as <-. specialize (Ec6 Ec4). destruct D4 as [D4 _].
        destruct (RL_at t i s1 s6 m6 HL6 E6) as (m1' & E1' & (_ & _ & _ & R46)). rewrite E1 in E1'. injection E1' as <-.
        pose (m7 := mkt (t_cls m6) true Running (t_attrs m6) (t_deps m6)).
        destruct (RL_change t i s1 s6 m6 m7 HL6 E6) as (HG & HL7 & E7).
        { unfold mrel. simpl. split; [lia|]. split; [intros [b Hb]; congruence|]. split; [discriminate|auto]. }
        { intros m E. rewrite E1 in E. injection E as <-. rewrite Hd0. unfold mrel. simpl. split; [lia|].
          split; [intros [b Hb]; congruence|]. split; [discriminate|exact R46]. }
        { destruct HL6 as (Hi6 & Hd6 & _). destruct (i_mods _ _ _ s6 Hi6 i m6 E6) as (ats6 & ds6 & A6 & B6 & C6 & D6).
          exists ats6, ds6. simpl. split; [exact A6|]. split; [reflexivity|]. split; [exact C6|]. split; [exact Ec6|].
          rewrite Hd0 in Hd6. unfold depth in Hd6. destruct (lks s6 !! lk i) as [[o n|os]|]; try discriminate.
          destruct (o =? t); [|discriminate]. subst n. eauto. }
        simpl in HG, HL7, E7. rewrite Er6, Erun in HG, HL7. simpl in HG, HL7, E7.
        unfold put_mod, m7 in *.
        split; [exact HG|]. intros s8 H8. rewrite Ea6, D4.
        assert (Hat : exists ds, mods0 !! i = Some (ats4, ds)) by eauto.
        assert (HR7 : running i ats4 (mkst (mktw (<[i := m7]> (t_mods (dat s6))) (t_las (dat s6)) (begun (dat s6) ++ [i])) (lks s6))).
        { exists m7. split; [exact E7|]. split; [reflexivity|]. simpl. congruence. }
        pose proof (RL_R t i s1 _ s8 HL7 H8) as HL8. pose proof (running_R t i s1 _ s8 _ HL7 HR7 H8) as HR8.
        apply wp_bind; [exact trefl|]. apply wp_catch.
        assert (Hm0 : forall m, t_mods (dat s1) !! i = Some m -> t_run m = Fresh /\ exists ds, mods0 !! i = Some (ats4, ds)).
        { intros m E. rewrite E1 in E. injection E as <-. auto. }
        eapply wp_mono; [|apply (wp_tbody f rec t i s1 ats4 Hrec HP Hd0 Hm0 (code i) [] s8 eq_refl HL8 HR8)].
        intros r s9 (HL9 & Hra & pre' & post' & Hcode & HR9 & Hdone).
        destruct r as [u|e|]; [|..|exact I].
        * (* the code has returned *)
          destruct u. rewrite (Hdone eq_refl), app_nil_r in Hcode. subst pre'. cbn [follows].
          intros s10 H10.
          pose proof (RL_R t i s1 _ s10 HL9 H10) as HL10. pose proof (running_R t i s1 _ s10 _ HL9 HR9 H10) as (m10 & E10 & Er10 & Ea10).
          simpl. unfold on_mod. rewrite E10.
          destruct (RL_at t i s1 s10 m10 HL10 E10) as (m1' & E1' & (_ & _ & _ & R410)). rewrite E1 in E1'. injection E1' as <-.
          pose (m11 := mkt KMod (t_loading m10) (Over true) (ats4 ∪ t_attrs m10) (t_deps m10)).
          destruct (RL_change t i s1 s10 m10 m11 HL10 E10) as (HG11 & HL11 & E11).
          { unfold mrel. simpl. split; [lia|]. split; [intros [b Hb]; congruence|]. split; discriminate. }
          { intros m E. rewrite E1 in E. injection E as <-. rewrite Hd0. unfold mrel. simpl. split; [lia|].
            split; [intros [b Hb]; congruence|]. split; discriminate. }
          { destruct HL10 as (Hi10 & _). destruct (i_mods _ _ _ s10 Hi10 i m10 E10) as (ats10 & ds10 & A10 & B10 & C10 & D10).
            rewrite A4 in A10. injection A10 as <- <-. exists ats4, ds4. simpl. split; [exact A4|].
            rewrite Er10 in B10. split; [exact B10|]. split; [exact C10|]. split; [unfold loaded; congruence|discriminate]. }
          simpl in HG11, HL11, E11. rewrite Er10 in HG11, HL11. simpl in HG11, HL11, E11.
          unfold put_mod, m11 in *. split; [exact HG11|]. intros s13 H1113.
          split; [eapply RL_R; [exact HL11|exact H1113]|]. split.
          { intros _. eapply idle_R; [exact HL11|exact H1113|]. intros m E. simpl in E. rewrite E11 in E. injection E as <-. discriminate. }
          split; [exact Hd0|]. split; [intros (m & Em & Hs & _); destruct Hns; exists m; auto|]. left.
          destruct (at_settled t _ s13 i (ats4 ∪ t_attrs m10) (proj1 HL11) H1113) as (m & Em & Hs & _).
          { eexists. split; [exact E11|]. split; [exists true; reflexivity|reflexivity]. }
          exists m. auto.
        * (* the code has raised *)
          intros s10 H10.
          pose proof (RL_R t i s1 _ s10 HL9 H10) as HL10. pose proof (running_R t i s1 _ s10 _ HL9 HR9 H10) as (m10 & E10 & Er10 & Ea10).
          simpl. unfold on_mod. rewrite E10.
          destruct (RL_at t i s1 s10 m10 HL10 E10) as (m1' & E1' & (_ & _ & _ & R410)). rewrite E1 in E1'. injection E1' as <-.
          pose (m11 := mkt (t_cls m10) (t_loading m10) (Over false) (t_attrs m10) (t_deps m10)).
          destruct (RL_change t i s1 s10 m10 m11 HL10 E10) as (HG11 & HL11 & E11).
          { unfold mrel. simpl. split; [lia|]. split; [intros [b Hb]; congruence|]. split; [discriminate|auto]. }
          { intros m E. rewrite E1 in E. injection E as <-. rewrite Hd0. unfold mrel. simpl. split; [lia|].
            split; [intros [b Hb]; congruence|]. split; [discriminate|exact R410]. }
          { destruct HL10 as (Hi10 & _). destruct (i_mods _ _ _ s10 Hi10 i m10 E10) as (ats10 & ds10 & A10 & B10 & C10 & D10).
            rewrite A4 in A10. injection A10 as <- <-. exists ats4, ds4. simpl. split; [exact A4|].
            rewrite Er10 in B10, D10. split; [exact B10|]. split; [exact C10|]. split; [apply D10|]. exists pre', post'. auto. }
          simpl in HG11, HL11, E11. rewrite Er10 in HG11, HL11. simpl in HG11, HL11, E11.
          unfold put_mod, m11 in *. split; [exact HG11|]. intros s13 H1113.
          split; [eapply RL_R; [exact HL11|exact H1113]|]. split.
          { intros _. eapply idle_R; [exact HL11|exact H1113|]. intros m E. simpl in E. rewrite E11 in E. injection E as <-. discriminate. }
          split; [|apply Hex]. destruct (Hra e eq_refl) as [He|[-> Hno]]; [left; exact He|right]. auto.
      + (* its code is running: this thread is running it *)
        apply wp_bind; [exact trefl|]. eapply wp_read; [apply rd_get|apply HL5|]. intros s6 H6 Hi6 _ s7 H7. cbv beta.
        pose proof (RL_R t i s1 s5 s6 HL5 H6) as HL6. pose proof (RL_R t i s1 s6 s7 HL6 H7) as HL7.
        pose proof (ttrans t _ _ _ H5 H6) as H46.
        assert (Hd : dp t i s1 <> 0).
        { intros Hd. assert (H := idle_R t i s1 s3 s4 HL3 H4 (Hn3 Hd) m4 E4). congruence. }
        assert (Hex : forall r, exact i a s1 r).
        { intros r ats (m & Em & [b Hb] & _). rewrite E1 in Em. injection Em as <-.
          rewrite (proj2 HP i m1 E1 ltac:(lia)) in Hb. discriminate. }
        destruct (t_mods (dat s6) !! i) as [m6|] eqn:E6; cbn [follows].
        2: { split; [exact HL7|]. split; [congruence|]. split; [left; left; reflexivity|apply Hex]. }
        destruct (tget m6 a) as [v|e|] eqn:Eg; cbn [follows].
        * intros s8 H8. split; [eapply RL_R; eauto|]. split; [congruence|]. split; [congruence|]. split; [apply Hex|].
          rewrite <- Eg. eapply (kind_R t i _ s6); [exact Hi6|eapply ttrans; [exact H7|exact H8]|]. apply kind_get; assumption.
        * split; [exact HL7|]. split; [congruence|]. split; [left; left; apply (tget_fail m6 a e Eg)|apply Hex].
        * exact I.
      + (* its code has ended *)
        apply wp_bind; [exact trefl|]. eapply wp_read; [apply rd_get|apply HL5|]. intros s6 H6 Hi6 _ s7 H7. cbv beta.
        pose proof (RL_R t i s1 s5 s6 HL5 H6) as HL6. pose proof (RL_R t i s1 s6 s7 HL6 H7) as HL7.
        pose proof (ttrans t _ _ _ H5 H6) as H46.
        assert (Hn7 : dp t i s1 = 0 -> idle_mod i s7).
        { intros Hd. eapply idle_R; [exact HL5|eapply ttrans; [exact H6|exact H7]|auto]. }
        destruct (at_settled t s4 s6 i (t_attrs m4) Hi4 H46) as (m6 & E6 & Hs6 & Ea6).
        { exists m4. split; [exact E4|]. split; [exists ok; exact Erun|reflexivity]. }
        rewrite E6. pose proof (settled_not_utils s6 i m6 Hi6 E6 Hs6) as Hu6.
        assert (Hex : forall r, tget m6 a = r -> exact i a s1 r).
        { intros r <- ats (m & Em & Hs & Hats) _ Ha. rewrite E1 in Em. injection Em as <-. destruct (R2 Hs) as (_ & Ex & _).
          replace ats with (t_attrs m6) by congruence. apply tget_says; assumption. }
        destruct (tget m6 a) as [v|e|] eqn:Eg; cbn [follows].
        * intros s8 H8. pose proof (RL_R t i s1 s7 s8 HL7 H8) as HL8. split; [exact HL8|].
          split; [intros Hd; eapply idle_R; [exact HL7|exact H8|auto]|]. split; [|split; [apply Hex; first [exact Eg|reflexivity]|]].
          2: { rewrite <- Eg. eapply (kind_R t i _ s6); [exact Hi6|eapply ttrans; [exact H7|exact H8]|]. apply kind_get; assumption. }
          intros _.
          destruct (at_settled t s6 s8 i (t_attrs m6) Hi6 (ttrans t _ _ _ H7 H8)) as (m8 & E8 & Hs8 & Ea8).
          { exists m6. auto. }
          exists m8. split; [exact E8|]. split; [exact Hs8|]. intros Ha. rewrite Ea8, <- Eg. apply tget_says; assumption.
        * split; [exact HL7|]. split; [exact Hn7|]. split; [left; left; apply (tget_fail m6 a e Eg)|apply Hex; first [exact Eg|reflexivity]].
        * exact I.
    - intros s4 H4. split; [eapply RL_R; eauto|]. split; [intros Hd; eapply idle_R; eauto|].
      split; [apply Hdz; discriminate|]. split; [apply Hnst; discriminate|]. left.
      assert (Hs : settled m2).
      { destruct (t_run m2) as [| |b] eqn:Er2; [destruct D2; congruence|destruct D2; congruence|exists b; exact Er2]. }
      destruct (at_settled t s2 s4 i (t_attrs m2) Hi2 (ttrans t _ _ _ H3 H4)) as (m & Em & Hsm & _); [exists m2; auto|].
      exists m. auto.
  Qed.

  (** ** importlib's __getattribute__ *)
  Lemma raised_imp f t i a s0 s1 e : inv s0 -> TR t s0 s1 ->
    ~ (layered code mods0 /\ 2 * i + 1 <= f) -> dp t i s1 = 0 -> ~ at_mod s1 i settled ->
    e = OutOfFuel -> e = OutOfFuel /\ ~ (layered code mods0 /\ enough_imp f t i a s0).
  Proof.
    intros Hi H Hf Hd Hs ->. split; [reflexivity|]. intros [Hl He]. destruct (H Hi) as (_ & Hd' & _).
    destruct He as [[He _]|[[He _]|[He|He]]].
    - apply Hf. auto.
    - apply Hf. split; [exact Hl|lia].
    - rewrite Hd' in Hd. lia.
    - apply Hs. destruct (at_stuck t s0 s1 i Hi H He) as (m & Em & Hsm & _). exists m. auto.
  Qed.

  Lemma wp_timp f rec t i a s0 : spec f rec -> Pre t s0 ->
    W t (timp code rec i a) (fun r s' => TR t s0 s' /\ raised (enough_imp f t i a s0) r /\
      (at_mod s0 i not_utils -> dp t i s0 = 0 -> seen i a r s') /\ exact i a s0 r /\ kind i r s') s0.
  Proof.
    intros Hrec HP0. pose proof (proj1 HP0) as Hi0. unfold timp. apply wp_bind; [exact trefl|]. unfold with_lock. intros s1 H1.
    pose proof (Pre_R t s0 s1 HP0 H1) as HP1. pose proof (proj1 HP1) as Hi1.
    destruct (exec t (Acq (lk i) Ex) s1) as [r2 s2] eqn:Ea.
    destruct (acq_spec code mods0 las0 t i s1 r2 s2 Hi1 Ea) as [->|(-> & Edat & Hi2 & HG & Hd & Hdj & Hfree & Hown)]; [exact I|].
    split; [exact HG|].
    assert (HL2 : RL t i s1 s2).
    { split; [exact Hi2|]. split; [exact Hd|]. split; [exact Hdj|]. rewrite Edat. split; [|split; reflexivity].
      intros j m E. exists m. split; [exact E|apply mrel_refl]. }
    assert (Hn2 : dp t i s1 = 0 -> idle_mod i s2).
    { intros Hz m E. rewrite Edat in E. intros Er. destruct (i_mods _ _ _ s1 Hi1 i m E) as (ats & ds & _ & _ & _ & D).
      rewrite Er in D. destruct D as (_ & o & n & El). rewrite (Hfree Hz) in El. discriminate. }
    apply wp_finally; [exact trefl|].
    eapply wp_mono; [|apply (wp_locked f rec t i a s1 s2 Hrec HP1 HL2 Hn2)].
    intros r s3 (HL3 & Hn3 & Hlp) s4 H4.
    pose proof (RL_R t i s1 s3 s4 HL3 H4) as HL4. pose proof HL4 as (Hi4 & Hd4 & Hdj4 & HM4 & HZ4).
    destruct (rel_spec code mods0 las0 t i s4 (dp t i s1) Hi4 Hd4) as (s5 & Ex & Edat5 & Hi5 & HG5 & Hd5 & Hdj5).
    { intros Hz. eapply idle_R; [exact HL3|exact H4|auto]. }
    rewrite Ex. split; [exact HG5|]. intros s6 H6.
    assert (H15 : TR t s1 s5).
    { intros _. split; [exact Hi5|]. split.
      - intros j. destruct (decide (j = i)) as [->|Hne]; [exact Hd5|]. rewrite Hdj5 by exact Hne. apply Hdj4, Hne.
      - rewrite Edat5. auto. }
    pose proof (ttrans t _ _ _ H15 H6) as H16. pose proof (ttrans t _ _ _ H1 H16) as H06.
    assert (Hd01 : dp t i s1 = dp t i s0) by (destruct (H1 Hi0) as (_ & E & _); apply E).
    assert (Hset : at_mod s3 i settled -> at_mod s6 i settled).
    { intros (m & Em & Hs). destruct (at_settled t s3 s4 i (t_attrs m) (proj1 HL3) H4) as (m4 & E4 & Hs4 & Ea4); [exists m; auto|].
      destruct (at_settled t s5 s6 i (t_attrs m) Hi5 H6) as (m6 & E6 & Hs6 & _); [exists m4; rewrite Edat5; auto|]. exists m6. auto. }
    assert (Hexact : forall r, exact i a s1 r -> exact i a s0 r).
    { intros r' Hr' ats Hs. apply Hr'. eapply at_settled; [exact Hi0|exact H1|exact Hs]. }
    destruct r as [[v|]|e|]; cbn [follows]; [..|exact I].
    - intros s7 H7. pose proof (ttrans t _ _ _ H06 H7) as H07. split; [exact H07|]. split; [intros e; discriminate|].
      destruct Hlp as (Hv & Hex & Hk). split; [|split; [apply Hexact, Hex|]].
      2: { eapply (kind_R t i _ s5); [exact Hi5|eapply ttrans; [exact H6|exact H7]|]. pose proof (kind_R t i _ s3 s4 (proj1 HL3) H4 Hk) as Hk4.
           intros c Hc. unfold at_mod. rewrite Edat5. apply Hk4, Hc. }
      intros _ Hz v' [= <-]. rewrite <- Hd01 in Hz. specialize (Hv Hz).
      destruct (proj2 (ttrans t _ _ _ H6 H7 Hi5)) as (_ & HM57 & _).
      eapply (value_ok_rel (fun j => dp t j s5)); [exact HM57|]. rewrite Edat5.
      destruct (H4 (proj1 HL3)) as (_ & _ & HM34 & _). eapply (value_ok_rel (fun j => dp t j s3)); [exact HM34|exact Hv].
    - destruct Hlp as (Hz & Hnst & Hor). pose proof (Pre_R t s0 s6 HP0 H06) as HP6.
      eapply wp_mono; [|apply (Hrec t (PGet i a) s6 HP6 I)]. intros r s7 (H67 & Hra & Hseen & Hex & Hk).
      pose proof (ttrans t _ _ _ H06 H67) as H07. split; [exact H07|].
      assert (Hutil : at_mod s0 i not_utils -> at_mod s6 i settled).
      { intros Hu. destruct Hor as [Hs|(m & Em & Hcm)]; [auto|]. destruct (at_not_utils t s0 s1 i Hi0 H1 Hu) as (m' & Em' & Hu').
        rewrite Em in Em'. injection Em' as <-. destruct (Hu' Hcm). }
      split; [|split; [|split; [|exact Hk]]].
      + intros e Er. destruct (Hra e Er) as [He|[-> Hno]]; [left; exact He|right]. split; [reflexivity|].
        intros [Hl He]. apply Hno. split; [exact Hl|]. simpl. destruct He as [[He Hu]|[[He Hq]|[He|He]]].
        * right. right. split; [lia|left; auto].
        * right. left. split; [exact He|auto].
        * exfalso. rewrite Hd01 in Hz. lia.
        * exfalso. apply Hnst. apply (at_stuck t s0 s1 i Hi0 H1 He).
      + intros Hu _. destruct (H06 Hi0) as (_ & Hd06 & _). apply Hseen; [right; apply (at_not_utils t s0 s6 i Hi0 H06 Hu)|].
        rewrite Hd06, <- Hd01. exact Hz.
      + intros ats Hs. apply Hex. apply (at_settled t s0 s6 i ats Hi0 H06 Hs).
    - split; [exact H06|]. destruct Hlp as [Hra Hex]. split; [|split; [intros _ _ v; discriminate|split; [apply Hexact, Hex|apply kind_fail]]].
      intros e' [= <-]. destruct Hra as [He|(He & Hf & Hz & Hs)]; [left; exact He|right].
      apply (raised_imp f t i a s0 s1 e Hi0 H1 Hf Hz Hs He).
  Qed.

  (** ** Dependencies *)
  Definition deps_raised (f i : nat) {X} (r : outcome X) : Prop :=
    forall e, r = Fail e -> exc e \/ (e = OutOfFuel /\ ~ (layered code mods0 /\ 2 * i + 1 <= f)).

  Lemma wp_teach f rec t i : spec f rec -> forall ds s0, Pre t s0 ->
    (layered code mods0 -> forall d, In d ds -> d < i) ->
    W t (teach rec ds) (fun r s' => TR t s0 s' /\ deps_raised f i r) s0.
  Proof.
    intros Hrec. induction ds as [|d ds IH]; intros s0 HP Hds; cbn [teach].
    - intros s1 H1. split; [exact H1|intros e; discriminate].
    - assert (Hout : forall c s r, raised (enough f t c s) r -> (2 * d + 3 <= f -> enough f t c s) -> deps_raised f i r).
      { intros c s r Hr He e E. destruct (Hr e E) as [H|[-> Hno]]; [left; exact H|right]. split; [reflexivity|].
        intros [Hl Hf]. apply Hno. split; [exact Hl|]. apply He. specialize (Hds Hl d (or_introl eq_refl)). lia. }
      assert (Hfail : forall e, deps_raised f i (Fail (A:=lval) e) -> forall X, deps_raised f i (Fail (A:=X) e)).
      { intros e H X e' [= <-]. apply H. reflexivity. }
      apply wp_bind; [exact trefl|]. unfold tisinst. apply wp_bind; [exact trefl|].
      eapply wp_read; [apply rd_type|apply HP|]. intros s1 H1 Hi1 _ s2 H2. cbv beta.
      pose proof (ttrans t _ _ _ H1 H2) as H02. pose proof (Pre_R t s0 s2 HP H02) as HP2.
      destruct (t_mods (dat s1) !! d) as [m|] eqn:Em; cbn [follows].
      2: { split; [exact H02|]. intros e [= <-]. left. left. reflexivity. }
      (* what follows the test *)
      assert (Hrest : forall b s3, TR t s0 s3 ->
        W t (bind (if b : bool then bind (rec (PGet d "force_load"%string)) (fun _ => bind (rec (PForce d)) (fun _ => Ret tt)) else Ret tt) (fun _ => teach rec ds))
          (fun r s' => TR t s0 s' /\ deps_raised f i r) s3).
      { intros b s3 H3.
        assert (Hgo : forall s4, TR t s0 s4 -> W t (teach rec ds) (fun r s' => TR t s0 s' /\ deps_raised f i r) s4).
        { intros s4 H4. eapply wp_mono; [|apply (IH s4 (Pre_R t s0 s4 HP H4))].
          - intros r s5 [H5 Hr]. split; [eapply ttrans; eauto|exact Hr].
          - intros Hl d' Hd'. apply (Hds Hl). right. exact Hd'. }
        apply wp_bind; [exact trefl|]. destruct b.
        - apply wp_bind; [exact trefl|]. eapply wp_mono; [|apply (Hrec t (PGet d "force_load"%string) s3 (Pre_R t s0 s3 HP H3) I)].
          intros r s4 (H34 & Hra & _). pose proof (ttrans t _ _ _ H3 H34) as H04.
          destruct r as [v|e|]; cbn [follows]; [| |exact I].
          + apply wp_bind; [exact trefl|]. eapply wp_mono; [|apply (Hrec t (PForce d) s4 (Pre_R t s0 s4 HP H04) I)].
            intros r s5 (H45 & Hra5 & _). pose proof (ttrans t _ _ _ H04 H45) as H05.
            destruct r as [v'|e|]; cbn [follows]; [| |exact I].
            * intros s6 H6. cbn [follows]. apply Hgo. eapply ttrans; eauto.
            * split; [exact H05|]. apply Hfail. eapply Hout; [exact Hra5|]. simpl. lia.
          + split; [exact H04|]. apply Hfail. eapply Hout; [exact Hra|]. simpl. lia.
        - intros s4 H4. cbn [follows]. apply Hgo. eapply ttrans; eauto. }
      destruct (t_cls m) eqn:Ec.
      + intros s3 H3. exact (Hrest true s3 (ttrans t _ _ _ H02 H3)).
      + apply wp_catch. apply wp_bind; [exact trefl|]. eapply wp_mono; [|apply (Hrec t (PGet d "__class__"%string) s2 HP2 I)].
        intros r s3 (H23 & Hra & _). pose proof (ttrans t _ _ _ H02 H23) as H03.
        destruct r as [v|e|]; cbn [follows]; [| |exact I].
        * intros s4 H4. exact (Hrest false s4 (ttrans t _ _ _ H03 H4)).
        * destruct (is_attr_err e); [intros s4 H4; exact (Hrest false s4 (ttrans t _ _ _ H03 H4))|].
          intros s4 H4. cbn [follows]. split; [eapply ttrans; eauto|]. apply Hfail. eapply Hout; [exact Hra|]. simpl. lia.
      + apply wp_catch. apply wp_bind; [exact trefl|]. eapply wp_mono; [|apply (Hrec t (PGet d "__class__"%string) s2 HP2 I)].
        intros r s3 (H23 & Hra & _). pose proof (ttrans t _ _ _ H02 H23) as H03.
        destruct r as [v|e|]; cbn [follows]; [| |exact I].
        * intros s4 H4. exact (Hrest false s4 (ttrans t _ _ _ H03 H4)).
        * destruct (is_attr_err e); [intros s4 H4; exact (Hrest false s4 (ttrans t _ _ _ H03 H4))|].
          intros s4 H4. cbn [follows]. split; [eapply ttrans; eauto|]. apply Hfail. eapply Hout; [exact Hra|]. simpl. lia.
  Qed.

  Lemma wp_deps f rec t i s0 : spec f rec -> Pre t s0 ->
    W t (tload_deps rec i) (fun r s' => TR t s0 s' /\ deps_raised f i r) s0.
  Proof.
    intros Hrec HP. unfold tload_deps. apply wp_bind; [exact trefl|].
    eapply wp_read; [apply rd_deps|apply HP|]. intros s1 H1 Hi1 _ s2 H2. cbv beta. pose proof (ttrans t _ _ _ H1 H2) as H02.
    destruct (t_mods (dat s1) !! i) as [m|] eqn:Em; cbn [follows].
    2: { split; [exact H02|]. intros e [= <-]. left. left. reflexivity. }
    apply wp_bind; [exact trefl|]. destruct (i_mods _ _ _ s1 Hi1 i m Em) as (ats & ds & A & B & C & D).
    eapply wp_mono; [|apply (wp_teach f rec t i Hrec (t_deps m) s2 (Pre_R t s0 s2 HP H02))].
    - intros r s3 [H3 Hr]. pose proof (ttrans t _ _ _ H02 H3) as H03. destruct r as [u|e|]; cbn [follows]; [|auto|exact I].
      apply wp_nodeps; [exact (proj1 (Pre_R t s0 s3 HP H03))|]. intros r s4 H4 Hr4. split; [eapply ttrans; eauto|].
      intros e ->. left. left. destruct Hr4; congruence.
    - intros Hl d Hd. apply (proj2 Hl i ats ds d A). auto.
  Qed.

  Lemma wp_meth f t i s0 : Pre t s0 ->
    W t (op (TMeth i)) (fun r s' => TR t s0 s' /\ deps_raised f i r) s0.
  Proof.
    intros HP. eapply wp_read; [apply rd_meth|apply HP|]. intros s1 H1 _ _ s2 H2. split; [eapply ttrans; eauto|].
    intros e. cbv beta. destruct (t_mods (dat s1) !! i) as [m|]; [destruct (tcls_eqb (t_cls m) KUtils)|]; intros [= <-]; left; left; reflexivity.
  Qed.

  Lemma deps_raised_raised f i (P : Prop) e : deps_raised f i (Fail (A:=unit) e) -> (P -> 2 * i + 1 <= f) ->
    raised P (Fail e).
  Proof.
    intros H HP e' [= <-]. destruct (H e eq_refl) as [He|[-> Hno]]; [left; exact He|right]. split; [reflexivity|].
    intros [Hl Hp]. apply Hno. auto.
  Qed.

  (** force_load *)
  Lemma wp_tforce f rec t i s0 : spec f rec -> Pre t s0 ->
    W t (tforce code rec i) (fun r s' => TR t s0 s' /\ raised (2 * i + 2 <= f) r) s0.
  Proof.
    intros Hrec HP. unfold tforce. apply wp_bind; [exact trefl|].
    eapply wp_mono; [|apply (wp_meth f t i s0 HP)]. intros r s1 [H1 Hr1]. destruct r as [u|e|]; cbn [follows]; [| |exact I].
    2: { split; [exact H1|]. eapply deps_raised_raised; [exact Hr1|lia]. }
    apply wp_bind; [exact trefl|]. eapply wp_mono; [|apply (wp_deps f rec t i s1 Hrec (Pre_R t s0 s1 HP H1))].
    intros r s2 [H2 Hr2]. pose proof (ttrans t _ _ _ H1 H2) as H02. destruct r as [u'|e|]; cbn [follows]; [| |exact I].
    2: { split; [exact H02|]. eapply deps_raised_raised; [exact Hr2|lia]. }
    eapply wp_mono; [|apply (wp_timp f rec t i "__name__"%string s2 Hrec (Pre_R t s0 s2 HP H02))].
    intros r s3 (H3 & Hr3 & _). split; [eapply ttrans; eauto|].
    intros e E. destruct (Hr3 e E) as [He|[-> Hno]]; [left; exact He|right]. split; [reflexivity|].
    intros [Hl Hf]. apply Hno. split; [exact Hl|]. right. left. split; [exact Hf|right; reflexivity].
  Qed.

  (** The rest of utils._LazyModule.__getattribute__ *)
  Lemma wp_trest f rec t i a s0 : spec f rec -> Pre t s0 ->
    W t (tutils_rest code rec i a) (fun r s' => TR t s0 s' /\ raised (2 * i + 2 <= f) r /\ (dp t i s0 = 0 -> seen i a r s') /\ kind i r s') s0.
  Proof.
    intros Hrec HP. unfold tutils_rest. apply wp_bind; [exact trefl|].
    assert (Hno : forall e s', (dp t i s0 = 0 -> seen i a (Fail e) s') /\ kind i (Fail e) s') by (intros e s'; split; [intros _ v; discriminate|apply kind_fail]).
    eapply wp_mono; [|apply (wp_meth f t i s0 HP)]. intros r s1 [H1 Hr1]. destruct r as [u|e|]; cbn [follows]; [| |exact I].
    2: { split; [exact H1|]. split; [|apply Hno]. eapply deps_raised_raised; [exact Hr1|lia]. }
    apply wp_bind; [exact trefl|]. eapply wp_mono; [|apply (wp_deps f rec t i s1 Hrec (Pre_R t s0 s1 HP H1))].
    intros r s2 [H2 Hr2]. pose proof (ttrans t _ _ _ H1 H2) as H02. destruct r as [u'|e|]; cbn [follows]; [| |exact I].
    2: { split; [exact H02|]. split; [|apply Hno]. eapply deps_raised_raised; [exact Hr2|lia]. }
    apply wp_bind; [exact trefl|]. pose proof (Pre_R t s0 s2 HP H02) as HP2.
    eapply wp_mono; [|apply (Hrec t (PGet i "__class__"%string) s2 HP2 I)]. intros r s3 (H23 & Hr3 & Hs3 & _ & Hk3).
    pose proof (ttrans t _ _ _ H02 H23) as H03. pose proof (Pre_R t s0 s3 HP H03) as HP3.
    destruct r as [v|e|]; cbn [follows]; [| |exact I].
    2: { split; [exact H03|]. split; [|apply Hno]. intros e' [= <-]. destruct (Hr3 e eq_refl) as [He|[-> Hn]]; [left; exact He|right].
         split; [reflexivity|]. intros [Hl Hf]. apply Hn. split; [exact Hl|]. simpl. right. left. split; [exact Hf|]. left. left. reflexivity. }
    assert (Hlast : forall s4, TR t s0 s4 -> at_mod s4 i not_utils ->
      W t (timp code rec i a) (fun r s' => TR t s0 s' /\ raised (2 * i + 2 <= f) r /\ (dp t i s0 = 0 -> seen i a r s') /\ kind i r s') s4).
    { intros s4 H4 Hu. eapply wp_mono; [|apply (wp_timp f rec t i a s4 Hrec (Pre_R t s0 s4 HP H4))].
      intros r s5 (H5 & Hr5 & Hs5 & _ & Hk5). split; [eapply ttrans; eauto|]. split; [|split; [|exact Hk5]].
      - intros e E. destruct (Hr5 e E) as [He|[-> Hn]]; [left; exact He|right]. split; [reflexivity|].
        intros [Hl Hf]. apply Hn. split; [exact Hl|]. left. split; [lia|exact Hu].
      - intros Hd. apply Hs5; [exact Hu|]. destruct (H4 (proj1 HP)) as (_ & E & _). rewrite E. exact Hd. }
    assert (Hset : W t (bind (op (TToImp i)) (fun _ => timp code rec i a))
      (fun r s' => TR t s0 s' /\ raised (2 * i + 2 <= f) r /\ (dp t i s0 = 0 -> seen i a r s') /\ kind i r s') s3).
    { apply wp_bind; [exact trefl|]. apply wp_toimp; [apply HP3|]. intros r s4 H4 Hu Hr4. destruct r as [[]|e|]; cbn [follows]; [| |exact I].
      - apply Hlast; [eapply ttrans; eauto|auto].
      - split; [eapply ttrans; eauto|]. split; [|apply Hno]. intros e' [= <-]. left. left. destruct Hr4; congruence. }
    destruct v as [n|[]|c|]; try exact Hset.
    cbn [bind]. apply Hlast; [exact H03|]. apply (Hk3 KImp); [left; reflexivity|discriminate].
  Qed.

  Lemma missing_R t s s' i : inv s -> TR t s s' -> t_mods (dat s) !! i = None -> t_mods (dat s') !! i = None.
  Proof.
    intros Hi H E. destruct (H Hi) as (_ & _ & _ & [Hz _]). apply lookup_ge_None. rewrite Hz. apply lookup_ge_None. exact E.
  Qed.

  (** utils._LazyModule.__getattribute__ *)
  Lemma wp_tutils f rec t i a s0 : spec f rec -> Pre t s0 ->
    W t (tutils code rec i a) (fun r s' => TR t s0 s' /\ raised (2 * i + 2 <= f \/ quick a) r /\ (opens a -> dp t i s0 = 0 -> seen i a r s') /\ kind i r s') s0.
  Proof.
    intros Hrec HP. pose proof (proj1 HP) as Hi0. unfold tutils.
    assert (Hrest : ~ quick a -> W t (tutils_rest code rec i a) (fun r s' => TR t s0 s' /\ raised (2 * i + 2 <= f \/ quick a) r /\ (opens a -> dp t i s0 = 0 -> seen i a r s') /\ kind i r s') s0).
    { intros Hq. eapply wp_mono; [|apply (wp_trest f rec t i a s0 Hrec HP)]. intros r s1 (H1 & Hr & Hs & Hk).
      split; [exact H1|]. split; [|split; [auto|exact Hk]]. intros e E. destruct (Hr e E) as [He|[-> Hn]]; [left; exact He|right].
      split; [reflexivity|]. intros [Hl [Hf|Hf]]; [apply Hn; auto|contradiction]. }
    destruct (String.eqb_spec a "__path__") as [->|Hpath].
    { intros s1 H1. split; [exact H1|]. split; [intros e [= <-]; left; left; reflexivity|].
      split; [intros _ _ v; discriminate|apply kind_fail]. }
    destruct (Lazy.protected a) eqn:Epr.
    2: { apply Hrest. intros [->| ->]; discriminate. }
    intros s1 H1. pose proof (Pre_R t s0 s1 HP H1) as HP1. pose proof (proj1 HP1) as Hi1.
    assert (Es : mkst (dat s1) (lks s1) = s1) by (destruct s1; reflexivity).
    assert (Ex : exec t (Op (TGet i a)) s1 = (match t_mods (dat s1) !! i with Some m => tget m a | None => Fail AttributeError end, s1)).
    { simpl. pose proof (rd_get i a (dat s1)) as E. simpl in E. rewrite E. rewrite Es. reflexivity. }
    rewrite Ex. clear Ex.
    destruct (t_mods (dat s1) !! i) as [m1|] eqn:E1.
    - destruct (tget m1 a) as [v|e|] eqn:Eg; [| |exact I].
      + split; [apply guar_same|]. intros s2 H2. split; [eapply ttrans; eauto|]. split; [intros e; discriminate|].
        split; [intros [_ Ho]; congruence|]. eapply kind_R; [exact Hi1|exact H2|]. rewrite <- Eg. apply kind_get; assumption.
      + split; [apply guar_same|]. pose proof (tget_fail m1 a e Eg) as ->. cbn [is_attr_err].
        assert (Hq : ~ quick a). { intros Hq. destruct (tget_quick m1 a Hq) as [v Hv]. congruence. }
        eapply wp_rely; [exact ttrans|apply (Hrest Hq)|exact H1].
    - split; [apply guar_same|]. cbn [is_attr_err]. unfold tutils_rest. apply wp_bind; [exact trefl|].
      eapply wp_read; [apply rd_meth|exact Hi1|]. intros s2 H2 Hi2 _ s3 H3. cbv beta. rewrite (missing_R t s1 s2 i Hi1 H2 E1). cbn [follows].
      split; [eapply ttrans; [exact H1|eapply ttrans; eauto]|]. split; [intros e [= <-]; left; left; reflexivity|].
      split; [intros _ _ v; discriminate|apply kind_fail].
  Qed.

  (** module.__getattribute__ of a module that is loaded *)
  Lemma wp_tmod t i a s0 : Pre t s0 -> at_mod s0 i settled ->
    W t (op (TGet i a)) (fun r s' => TR t s0 s' /\ raised True r /\ seen i a r s' /\ exact i a s0 r /\ kind i r s') s0.
  Proof.
    intros HP (m0 & E0 & Hs0). pose proof (proj1 HP) as Hi0.
    eapply wp_read; [apply rd_get|exact Hi0|]. intros s1 H1 Hi1 _ s2 H2. cbv beta.
    destruct (at_settled t s0 s1 i (t_attrs m0) Hi0 H1) as (m1 & E1 & Hs1 & Ea1); [exists m0; auto|]. rewrite E1.
    pose proof (settled_not_utils s1 i m1 Hi1 E1 Hs1) as Hu1.
    split; [eapply ttrans; eauto|]. split; [|split; [|split]].
    - intros e E. left. left. apply (tget_fail m1 a e E).
    - intros v E. destruct (at_settled t s1 s2 i (t_attrs m1) Hi1 H2) as (m2 & E2 & Hs2 & Ea2); [exists m1; auto|].
      exists m2. split; [exact E2|]. split; [exact Hs2|]. intros Ha. rewrite Ea2, <- E. apply tget_says; assumption.
    - intros ats (m & Em & _ & <-) _ Ha. rewrite E0 in Em. injection Em as <-. rewrite <- Ea1. apply tget_says; assumption.
    - eapply kind_R; [exact Hi1|exact H2|]. apply kind_get; assumption.
  Qed.

  Lemma spec_step f rec : spec f rec -> spec (S f) (tstep code rec).
  Proof.
    intros Hrec t c s0 HP Hc. pose proof (proj1 HP) as Hi0. destruct c as [i a|c i a|i]; cbn [tstep].
    - apply wp_bind; [exact trefl|]. eapply wp_read; [apply rd_type|exact Hi0|]. intros s1 H1 Hi1 _ s2 H2. cbv beta.
      pose proof (ttrans t _ _ _ H1 H2) as H02. pose proof (Pre_R t s0 s2 HP H02) as HP2. pose proof (Pre_R t s0 s1 HP H1) as HP1.
      destruct (t_mods (dat s1) !! i) as [m1|] eqn:E1; cbn [follows].
      2: { split; [exact H02|]. split; [intros e [= <-]; left; left; reflexivity|]. split; [intros _ _ v; discriminate|].
           split; [|apply kind_fail]. intros ats Hs. destruct (at_settled t s0 s1 i ats Hi0 H1 Hs) as (m & Em & _). congruence. }
      assert (Hd01 : dp t i s1 = dp t i s0) by (destruct (H1 Hi0) as (_ & E & _); apply E).
      assert (Hd02 : dp t i s2 = dp t i s0) by (destruct (H02 Hi0) as (_ & E & _); apply E).
      destruct (i_mods _ _ _ s1 Hi1 i m1 E1) as (ats1 & ds1 & _ & _ & _ & D1).
      destruct (t_cls m1) eqn:Ec; cbn [tmeth].
      + (* a module of this library *)
        assert (Hnu : ~ at_mod s0 i not_utils).
        { intros Hu. destruct (at_not_utils t s0 s1 i Hi0 H1 Hu) as (m & Em & Hm). rewrite E1 in Em. injection Em as <-. exact (Hm Ec). }
        assert (Hns : ~ at_mod s0 i settled).
        { intros (m & Em & Hs). apply Hnu. exists m. split; [exact Em|]. apply (settled_not_utils s0 i m Hi0 Em Hs). }
        assert (Hnd : ~ 0 < dp t i s0).
        { intros Hd. rewrite (proj2 HP1 i m1 E1) in D1 by (rewrite Hd01; exact Hd). destruct D1. congruence. }
        eapply wp_mono; [|apply (wp_tutils f rec t i a s2 Hrec HP2)]. intros r s3 (H3 & Hr & Hs & Hk). pose proof (ttrans t _ _ _ H02 H3) as H03.
        split; [exact H03|]. split; [|split; [|split; [|exact Hk]]].
        * intros e E. destruct (Hr e E) as [He|[-> Hn]]; [left; exact He|right]. split; [reflexivity|].
          intros [Hl He]. apply Hn. split; [exact Hl|]. simpl in He. destruct He as [He|[[He [Hq|Hu]]|[_ [Hs0|Hd]]]]; [left; lia|right; exact Hq|tauto..].
        * intros [Ho|Hu] Hd; [apply Hs; [exact Ho|lia]|contradiction].
        * intros ats (m & Em & Hsm & _). destruct Hns. exists m. auto.
      + (* importlib's class *)
        assert (Hu1 : at_mod s1 i not_utils) by (exists m1; split; [exact E1|unfold not_utils; congruence]).
        pose proof (at_not_utils t s1 s2 i Hi1 H2 Hu1) as Hu2.
        eapply wp_mono; [|apply (wp_timp f rec t i a s2 Hrec HP2)]. intros r s3 (H3 & Hr & Hs & Hex & Hk). pose proof (ttrans t _ _ _ H02 H3) as H03.
        split; [exact H03|]. split; [|split; [|split; [|exact Hk]]].
        * intros e E. destruct (Hr e E) as [He|[-> Hn]]; [left; exact He|right]. split; [reflexivity|].
          intros [Hl He]. apply Hn. split; [exact Hl|]. simpl in He. unfold enough_imp. destruct He as [He|[[He _]|[_ [Hs0|Hd]]]].
          -- left. split; [lia|exact Hu2].
          -- left. split; [lia|exact Hu2].
          -- right. right. right. destruct Hs0 as (m & Em & Hsm). apply (at_stuck t s1 s2 i Hi1 H2).
             destruct (at_settled t s0 s1 i (t_attrs m) Hi0 H1) as (m' & E' & Hs' & _); [exists m; auto|].
             rewrite E1 in E'. injection E' as <-. exists m1. auto.
          -- right. right. left. lia.
        * intros _ Hd. apply Hs; [exact Hu2|lia].
        * intros ats Hats. apply Hex. apply (at_settled t s0 s2 i ats Hi0 H02 Hats).
      + (* a module *)
        assert (Hs1 : at_mod s1 i settled).
        { exists m1. split; [exact E1|]. destruct (t_run m1) as [| |b] eqn:Er; [destruct D1; congruence|destruct D1; congruence|exists b; exact Er]. }
        assert (Hs2 : at_mod s2 i settled).
        { destruct Hs1 as (m & Em & Hsm). destruct (at_settled t s1 s2 i (t_attrs m) Hi1 H2) as (m' & E' & Hs' & _); [exists m; auto|]. exists m'. auto. }
        eapply wp_mono; [|apply (wp_tmod t i a s2 HP2 Hs2)]. intros r s3 (H3 & Hr & Hs & Hex & Hk). pose proof (ttrans t _ _ _ H02 H3) as H03.
        split; [exact H03|]. split; [|split; [|split; [|exact Hk]]].
        * intros e E. destruct (Hr e E) as [He|[-> Hn]]; [left; exact He|right]. split; [reflexivity|].
          intros [Hl _]. apply Hn. auto.
        * intros _ _. exact Hs.
        * intros ats Hats. apply Hex. apply (at_settled t s0 s2 i ats Hi0 H02 Hats).
    - destruct c; cbn [tmeth].
      + eapply wp_mono; [|apply (wp_tutils f rec t i a s0 Hrec HP)]. intros r s1 (H1 & Hr & Hs & Hk). split; [exact H1|]. split; [|exact Hs].
        intros e E. destruct (Hr e E) as [He|[-> Hn]]; [left; exact He|right]. split; [reflexivity|].
        intros [Hl He]. apply Hn. split; [exact Hl|]. simpl in He. left. lia.
      + eapply wp_mono; [|apply (wp_timp f rec t i a s0 Hrec HP)]. intros r s1 (H1 & Hr & Hs & Hex & Hk). split; [exact H1|]. split; [|apply Hs; exact Hc].
        intros e E. destruct (Hr e E) as [He|[-> Hn]]; [left; exact He|right]. split; [reflexivity|].
        intros [Hl [_ He]]. apply Hn. auto.
      + eapply wp_mono; [|apply (wp_tmod t i a s0 HP Hc)]. intros r s1 (H1 & Hr & Hs & Hex & Hk). split; [exact H1|]. split; [|intros _; exact Hs].
        intros e E. destruct (Hr e E) as [He|[-> Hn]]; [left; exact He|right]. split; [reflexivity|].
        intros [Hl _]. apply Hn. auto.
    - eapply wp_mono; [|apply (wp_tforce f rec t i s0 Hrec HP)]. intros r s1 (H1 & Hr). split; [exact H1|]. split; [|exact I].
      intros e E. destruct (Hr e E) as [He|[-> Hn]]; [left; exact He|right]. split; [reflexivity|].
      intros [Hl He]. apply Hn. split; [exact Hl|]. simpl in He. lia.
  Qed.

  Lemma enough_0 t c s : ~ enough 0 t c s.
  Proof. destruct c as [i a|[] i a|i]; simpl; intuition lia. Qed.

  Lemma spec_go f : spec f (tgo code f).
  Proof.
    induction f as [|f IH]; [|apply spec_step, IH]. intros t c s0 HP Hc s1 H1. split; [exact H1|].
    split. { intros e [= <-]. right. split; [reflexivity|]. intros [_ He]. exact (enough_0 t c s0 He). }
    destruct c as [i a|[] i a|i]; [split; [intros _ _ v; discriminate|split; [intros ats _ Hf; congruence|apply kind_fail]]|..|exact I].
    - intros _ _ v; discriminate.
    - intros _ v; discriminate.
    - intros _ v; discriminate.
  Qed.
End Thr.
