(** * LazyProofs: proofs of C61-C63 and C72-C74 *)
From stdpp Require Import gmap strings.
From Coq Require Import String.
From Coq Require Import List Bool Arith Lia.
From Verif Require Import Lazy LazySpec.
Import ListNotations.
Local Open Scope nat_scope.

(** ** Nothing is ever undone *)
Definition cl_le (c c' : mclass) : Prop :=
  c = c' \/ (c = CLazy /\ (c' = CLoading \/ c' = CModule)) \/ (c = CLoading /\ c' = CModule).
Lemma cl_le_trans a b c : cl_le a b -> cl_le b c -> cl_le a c.
Proof. unfold cl_le. intuition (subst; try discriminate; auto). Qed.

Record ext (w w' : world) : Prop := mkext {
  ext_mods : forall n i, mods w !! n = Some (EMod i) -> mods w' !! n = Some (EMod i);
  ext_heap : forall i m, heap w !! i = Some m -> exists m', heap w' !! i = Some m' /\ m_name m' = m_name m /\ cl_le (m_class m) (m_class m') /\ m_spec m' = m_spec m;
  ext_la : forall j l, lattrs w !! j = Some l -> exists l', lattrs w' !! j = Some l' /\ la_mod l' = la_mod l /\ la_attr l' = la_attr l /\ la_parent l' = la_parent l /\ (la_obj l <> VNone -> la_obj l' = la_obj l);
  ext_runs : exists r, runs w' = runs w ++ r
}.
Lemma ext_refl w : ext w w.
Proof.
  split; [auto| | |exists []; rewrite app_nil_r; reflexivity].
  - intros i m H. exists m. repeat split; [exact H|left; reflexivity].
  - intros j l H. exists l. auto.
Qed.
Lemma ext_trans a b c : ext a b -> ext b c -> ext a c.
Proof.
  intros [M1 H1 L1 [r1 R1]] [M2 H2 L2 [r2 R2]]. split.
  - auto.
  - intros i m Hm. destruct (H1 i m Hm) as (m1 & E1 & N1 & C1 & S1). destruct (H2 i m1 E1) as (m2 & E2 & N2 & C2 & S2).
    exists m2. split; [exact E2|]. split; [congruence|]. split; [eapply cl_le_trans; eassumption|congruence].
  - intros j l Hl. destruct (L1 j l Hl) as (l1 & E1 & A1 & B1 & D1 & O1). destruct (L2 j l1 E1) as (l2 & E2 & A2 & B2 & D2 & O2).
    exists l2. split; [exact E2|]. split; [congruence|]. split; [congruence|]. split; [congruence|].
    intros Hn. specialize (O1 Hn). rewrite <- O1. apply O2. congruence.
  - exists (r1 ++ r2). rewrite R2, R1, app_assoc. reflexivity.
Qed.
Definition once (w : world) : Prop :=
  NoDup (runs w) /\ forall i, In i (runs w) -> class_of i w = Some CLoading \/ class_of i w = Some CModule.
(** [P]: what every operation does; [Q]: and the lazy attributes are untouched. *)
Definition P (w w' : world) : Prop := ext w w' /\ (once w -> once w').
Definition Q (w w' : world) : Prop := P w w' /\ lattrs w' = lattrs w.
Lemma P_refl w : P w w.
Proof. split; [apply ext_refl|auto]. Qed.
Lemma P_trans a b c : P a b -> P b c -> P a c.
Proof. intros [A1 A2] [B1 B2]. split; [eapply ext_trans; eassumption|auto]. Qed.
Lemma Q_refl w : Q w w.
Proof. split; [apply P_refl|reflexivity]. Qed.
Lemma Q_trans a b c : Q a b -> Q b c -> Q a c.
Proof. intros [A1 A2] [B1 B2]. split; [eapply P_trans; eassumption|congruence]. Qed.
Lemma class_ext i c w w' : ext w w' -> class_of i w = Some c -> exists c', class_of i w' = Some c' /\ cl_le c c'.
Proof.
  intros He H. unfold class_of in H. destruct (heap w !! i) as [m|] eqn:E; [|discriminate]. injection H as <-.
  destruct (ext_heap _ _ He i m E) as (m' & E' & _ & C & _). exists (m_class m'). unfold class_of. rewrite E'. auto.
Qed.
(** If nothing was run, [ext] is enough. *)
Lemma ext_P w w' : ext w w' -> runs w' = runs w -> P w w'.
Proof.
  intros He Hr. split; [exact He|]. intros [Hn Hc]. split; [rewrite Hr; exact Hn|]. intros i Hi. rewrite Hr in Hi.
  destruct (Hc i Hi) as [H|H]; destruct (class_ext i _ w w' He H) as (c' & Hc' & Hle); rewrite Hc'; unfold cl_le in Hle;
    destruct Hle as [E|[[E1 E2]|[E1 E2]]]; subst; auto; try discriminate.
Qed.
Lemma ext_Q w w' : ext w w' -> runs w' = runs w -> lattrs w' = lattrs w -> Q w w'.
Proof. intros He Hr Hl. split; [apply ext_P; assumption|exact Hl]. Qed.

Lemma set_mod_ext i f w : (forall m, heap w !! i = Some m -> m_name (f m) = m_name m /\ cl_le (m_class m) (m_class (f m)) /\ m_spec (f m) = m_spec m) ->
  ext w (set_mod i f w).
Proof.
  intros Hf. split; [auto| | |exists []; rewrite app_nil_r; reflexivity].
  - intros j m Hm. unfold set_mod. cbn [heap]. destruct (decide (j = i)) as [->|Hd].
    + rewrite list_lookup_alter, Hm. destruct (Hf m Hm) as (A & B & C). exists (f m). auto.
    + rewrite list_lookup_alter_ne by congruence. exists m. repeat split; [exact Hm|left; reflexivity].
  - intros j l Hl. exists l. auto.
Qed.
Lemma set_attrs_ext i g w : ext w (set_mod i (set_attrs g) w).
Proof. apply set_mod_ext. intros m _. repeat split. left. reflexivity. Qed.
Lemma register_ext n m w : (forall i, mods w !! n <> Some (EMod i)) -> ext w (snd (register n m w)).
Proof.
  intros Hn. split; cbn [register snd mods heap lattrs runs].
  - intros n' i H. destruct (decide (n' = n)) as [->|Hd]; [exfalso; exact (Hn i H)|]. rewrite lookup_insert_ne by congruence. exact H.
  - intros i m0 H. exists m0. rewrite lookup_app_l by (apply lookup_lt_Some in H; exact H). repeat split; [exact H|left; reflexivity].
  - intros j l H. exists l. auto.
  - exists []. rewrite app_nil_r. reflexivity.
Qed.

Section Env.
  Variable E : penv.

  Lemma placeholder_Q n req w : Q w (snd (create_module_placeholder n req w)).
  Proof.
    unfold create_module_placeholder. destruct req; [apply Q_refl|]. destruct (mods w !! n) as [[|i|b]|] eqn:En; try apply Q_refl.
    - apply ext_Q; [|reflexivity|reflexivity]. apply (register_ext n _ w). intros i. rewrite En. discriminate.
    - apply ext_Q; [|reflexivity|reflexivity]. apply (register_ext n _ w). intros i. rewrite En. discriminate.
  Qed.
  Lemma lazy_import_Q args w : Q w (snd (lazy_import E args w)).
  Proof.
    unfold lazy_import. destruct (mods w !! full_name args) as [[|i|b]|] eqn:En; try apply Q_refl.
    all: destruct (check_is_dep_missing E (i_deps args) w) as [miss|]; [|apply Q_refl].
    all: destruct (gather (i_rel args) miss w) as [deps|]; [|apply Q_refl].
    all: destruct (match i_package args with Some ""%string => FindRaises ImportErr | _ => find_spec E (full_name args) w end) as [|l|e]; [apply placeholder_Q| |apply Q_refl].
    all: destruct miss; [apply placeholder_Q|]; destruct l; try apply Q_refl.
    all: apply ext_Q; [|reflexivity|reflexivity]; apply (register_ext (full_name args) _ w); intros j; rewrite En; discriminate.
  Qed.
  Lemma plain_import_Q n attrs w : Q w (snd (plain_import n attrs w)).
  Proof.
    unfold plain_import. destruct (mods w !! n) as [[|i|b]|] eqn:En; try apply Q_refl.
    apply ext_Q; [|reflexivity|reflexivity]. apply (register_ext n _ w). intros i. rewrite En. discriminate.
  Qed.
  (** [load_deps] empties lists of dependencies, nothing else. *)
  Definition sameish (m m' : modobj) : Prop :=
    m_name m' = m_name m /\ m_class m' = m_class m /\ m_attrs m' = m_attrs m /\ m_spec m' = m_spec m.
  Record only_deps (w w' : world) : Prop := mkod {
    od_mods : mods w' = mods w; od_la : lattrs w' = lattrs w; od_runs : runs w' = runs w;
    od_heap : forall i, match heap w !! i, heap w' !! i with Some m, Some m' => sameish m m' | None, None => True | _, _ => False end }.
  Lemma od_refl w : only_deps w w.
  Proof. split; auto. intros i. destruct (heap w !! i); [repeat split|exact I]. Qed.
  Lemma od_trans a b c : only_deps a b -> only_deps b c -> only_deps a c.
  Proof.
    intros [M1 L1 R1 H1] [M2 L2 R2 H2]. split; [congruence|congruence|congruence|]. intros i. specialize (H1 i). specialize (H2 i).
    destruct (heap a !! i), (heap b !! i), (heap c !! i); try contradiction; auto.
    destruct H1 as (A1 & B1 & C1 & D1), H2 as (A2 & B2 & C2 & D2). repeat split; congruence.
  Qed.
  Lemma load_deps_od fuel : forall i w, only_deps w (load_deps fuel i w).
  Proof.
    induction fuel as [|f IH]; intros i w; [apply od_refl|]. cbn [load_deps]. destruct (heap w !! i) as [m|] eqn:Em; [|apply od_refl].
    assert (Hf : forall ds w, only_deps w (fold_left (fun w d => if is_lazy d w then load_deps f d w else w) ds w)).
    { induction ds as [|d ds IHd]; intros w0; [apply od_refl|]. cbn [fold_left]. eapply od_trans; [|apply IHd].
      destruct (is_lazy d w0); [apply IH|apply od_refl]. }
    eapply od_trans; [apply (Hf (m_deps m))|]. generalize (fold_left (fun w d => if is_lazy d w then load_deps f d w else w) (m_deps m) w). intros w1.
    apply mkod; [reflexivity|reflexivity|reflexivity|]. intros j. unfold set_mod. cbn [heap].
    destruct (decide (j = i)) as [->|Hd].
    - rewrite list_lookup_alter. destruct (heap w1 !! i); [repeat split|exact I].
    - rewrite list_lookup_alter_ne by congruence. destruct (heap w1 !! j); [repeat split|exact I].
  Qed.
  Lemma od_ext w w' : only_deps w w' -> ext w w'.
  Proof.
    intros [M L R H]. split.
    - rewrite M. auto.
    - intros i m Hm. specialize (H i). rewrite Hm in H. destruct (heap w' !! i) as [m'|]; [|contradiction].
      destruct H as (A & B & C & D). exists m'. rewrite A, B, D. repeat split. left. reflexivity.
    - rewrite L. intros j l Hl. exists l. auto.
    - exists []. rewrite app_nil_r. exact R.
  Qed.
  Lemma od_class i w w' : only_deps w w' -> class_of i w' = class_of i w.
  Proof.
    intros [_ _ _ H]. specialize (H i). unfold class_of. destruct (heap w !! i), (heap w' !! i); try contradiction; [|reflexivity].
    destruct H as (_ & B & _). cbn. rewrite B. reflexivity.
  Qed.
  Lemma od_Q w w' : only_deps w w' -> Q w w'.
  Proof. intros H. apply ext_Q; [apply od_ext; exact H|apply (od_runs _ _ H)|apply (od_la _ _ H)]. Qed.

  (** ** Loading *)
  Definition loads_well (ld : nat -> world -> res unit * world) : Prop :=
    forall i w, class_of i w = Some CLazy -> Q w (snd (ld i w)).
  Lemma getattr_Q ld i a w : loads_well ld -> Q w (snd (getattr_with ld i a w)).
  Proof.
    intros Hl. unfold getattr_with. destruct (heap w !! i) as [m|] eqn:Em; [|apply Q_refl].
    destruct (m_class m) eqn:Ec; try apply Q_refl. destruct (String.eqb a "__path__"); [apply Q_refl|].
    destruct (protected a); [apply Q_refl|]. pose proof (load_deps_od (length (heap w)) i w) as Hod. cbv zeta.
    assert (Hc : class_of i (load_deps (length (heap w)) i w) = Some CLazy).
    { rewrite (od_class i _ _ Hod). unfold class_of. rewrite Em. cbn. rewrite Ec. reflexivity. }
    specialize (Hl i _ Hc). destruct (ld i (load_deps (length (heap w)) i w)) as [r w2]. cbn [snd] in Hl.
    assert (HQ : Q w w2) by (eapply Q_trans; [apply od_Q; exact Hod|exact Hl]).
    destruct r; [destruct (heap w2 !! i)|]; exact HQ.
  Qed.
  Lemma stmt_Q ld i s w : loads_well ld -> Q w (snd (stmt_with E ld i s w)).
  Proof.
    intros Hl. destruct s as [n a|a v|n|args|n attrs]; cbn [stmt_with].
    - destruct (mods w !! n) as [[|j|b]|]; try apply Q_refl. pose proof (getattr_Q ld j a w Hl) as H.
      destruct (getattr_with ld j a w) as [r w']. exact H.
    - apply ext_Q; [apply set_attrs_ext|reflexivity|reflexivity].
    - apply Q_refl.
    - pose proof (lazy_import_Q args w) as H. destruct (lazy_import E args w) as [r w']. exact H.
    - apply plain_import_Q.
  Qed.
  Lemma body_Q ld i ss : loads_well ld -> forall w, Q w (snd (body_with E ld i ss w)).
  Proof.
    intros Hl. induction ss as [|s ss IH]; intros w; [apply Q_refl|]. cbn [body_with].
    pose proof (stmt_Q ld i s w Hl) as H. destruct (stmt_with E ld i s w) as [r w']. cbn [snd] in H.
    destruct r; [eapply Q_trans; [exact H|apply IH]|exact H].
  Qed.
  Lemma class_begin i w : class_of i w <> None -> class_of i (begin_load i w) = Some CLoading.
  Proof.
    intros H. unfold begin_load, set_mod, class_of in *. cbn [heap]. rewrite list_lookup_alter.
    destruct (heap w !! i); [reflexivity|exfalso; apply H; reflexivity].
  Qed.
  Lemma class_begin_ne i j w : j <> i -> class_of j (begin_load i w) = class_of j w.
  Proof. intros H. unfold begin_load, set_mod, class_of. cbn [heap]. rewrite list_lookup_alter_ne by congruence. reflexivity. Qed.
  Lemma begin_Q i w : class_of i w = Some CLazy -> Q w (begin_load i w).
  Proof.
    intros Hc. assert (He : ext w (begin_load i w)).
    { pose proof (set_mod_ext i (set_class CLoading) w) as H.
      assert (H0 : ext w (set_mod i (set_class CLoading) w)).
      { apply H. intros m Hm. repeat split. unfold class_of in Hc. rewrite Hm in Hc. injection Hc as ->. right. left. auto. }
      destruct H0 as [M0 H1 L0 _]. split; [exact M0|exact H1|exact L0|]. exists [i]. reflexivity. }
    split; [|reflexivity]. split; [exact He|]. intros [Hn Hr].
    assert (Hi : ~ In i (runs w)) by (intros Hi; destruct (Hr i Hi) as [H|H]; rewrite H in Hc; discriminate).
    split.
    - cbn [begin_load set_mod runs]. apply NoDup_ListNoDup, NoDup_app. split; [apply NoDup_ListNoDup; exact Hn|]. split; [|apply NoDup_singleton].
      intros x Hx Hx'. apply elem_of_list_singleton in Hx'. subst. apply Hi. apply elem_of_list_In. exact Hx.
    - intros j Hj. destruct (decide (j = i)) as [->|Hd]; [left; apply class_begin; congruence|].
      rewrite class_begin_ne by exact Hd. apply Hr. cbn [begin_load set_mod runs] in Hj. apply in_app_or in Hj.
      destruct Hj as [Hj|[Hj|[]]]; [exact Hj|congruence].
  Qed.
  Lemma end_Q i m w : (exists c, class_of i w = Some c /\ cl_le CLoading c) -> Q w (snd (end_load i m w)).
  Proof.
    intros (c & Hc & Hle). unfold end_load.
    assert (H : Q w (set_mod i (fun m' => set_class CModule (set_attrs (union (m_attrs m)) m')) w)).
    { apply ext_Q; [|reflexivity|reflexivity]. apply set_mod_ext. intros m' Hm'. repeat split. cbn. unfold class_of in Hc. rewrite Hm' in Hc.
      injection Hc as ->. destruct Hle as [<-|[[H _]|[_ ->]]]; [right; right; auto|discriminate|left; reflexivity]. }
    destruct (mods w !! m_name m) as [[|j|b]|]; try apply Q_refl; [|exact H]. destruct (j =? i); [exact H|apply Q_refl].
  Qed.
  Lemma load_Q fuel : loads_well (load E fuel).
  Proof.
    induction fuel as [|f IH]; intros i w Hc; [apply Q_refl|]. cbn [load].
    destruct (heap w !! i) as [m|] eqn:Em; [|apply Q_refl].
    pose proof (begin_Q i w Hc) as Hb. pose proof (body_Q (load E f) i (code E (m_name m)) IH (begin_load i w)) as HB.
    destruct (body_with E (load E f) i (code E (m_name m)) (begin_load i w)) as [r w2]. cbn [snd] in HB.
    assert (HQ : Q w w2) by (eapply Q_trans; eassumption). destruct r; [|exact HQ].
    eapply Q_trans; [exact HQ|]. apply end_Q. apply (class_ext i CLoading (begin_load i w) w2 (proj1 (proj1 HB))). apply class_begin. congruence.
  Qed.
  Lemma load_module_P fuel j w : P w (snd (load_module E fuel j w)).
  Proof.
    unfold load_module. destruct (lattrs w !! j) as [l|] eqn:El; [|apply P_refl]. destruct (la_obj l) eqn:Eo; try apply P_refl.
    set (x := match class_of (la_mod l) w with Some CLazy => _ | _ => _ end).
    assert (Hx : Q w (snd x)).
    { unfold x. destruct (class_of (la_mod l) w) as [[]|]; try apply Q_refl. apply getattr_Q, load_Q. }
    destruct x as [r w1]. cbn [snd] in Hx. destruct r as [v0|e]; [|exact (proj1 Hx)].
    destruct (heap w1 !! la_mod l) as [m|] eqn:Em; [|exact (proj1 Hx)]. destruct (plain_attr m (la_attr l)) as [v|e]; [|exact (proj1 Hx)].
    assert (Hla : forall w2, Q w w2 -> P w (mkw (mods w2) (heap w2) (alter (fun l => mkla (la_mod l) (la_attr l) (la_parent l) v) j (lattrs w2)) (runs w2))).
    { intros w2 [Hp Hq]. eapply P_trans; [exact Hp|]. rewrite Hq. apply ext_P; [|reflexivity].
      split; cbn [mods heap lattrs runs]; [auto| | |exists []; rewrite app_nil_r; reflexivity].
      - intros i m0 H0. exists m0. repeat split; [exact H0|left; reflexivity].
      - rewrite Hq. intros j' l' H'. destruct (decide (j' = j)) as [->|Hd].
        + rewrite list_lookup_alter, H'. cbn. eexists. split; [reflexivity|]. cbn. repeat split. rewrite El in H'. injection H' as <-. intros H. congruence.
        + rewrite list_lookup_alter_ne by congruence. exists l'. auto. }
    destruct (mods w1 !! la_parent l) as [[|p|b]|]; try exact (proj1 Hx); cbv zeta; apply Hla; [|exact Hx].
    eapply Q_trans; [exact Hx|]. apply ext_Q; [apply set_attrs_ext|reflexivity|reflexivity].
  Qed.
End Env.

Section Props.
  Variable E : penv.

  Lemma lstep_P fuel o w : P w (snd (lstep E fuel o w)).
  Proof.
    destruct o as [args|i a|i a v|i a par|j|n attrs]; cbn [lstep as_lout snd].
    - apply lazy_import_Q.
    - apply getattr_Q, load_Q.
    - apply ext_P; [apply set_attrs_ext|reflexivity].
    - unfold get_lazy_attribute. destruct (is_module_invalid i w); [apply P_refl|]. cbn [snd]. apply ext_P; [|reflexivity].
      split; cbn [mods heap lattrs runs]; [auto| | |exists []; rewrite app_nil_r; reflexivity].
      + intros k m H. exists m. repeat split; [exact H|left; reflexivity].
      + intros k l H. exists l. rewrite lookup_app_l by (apply lookup_lt_Some in H; exact H). auto.
    - apply load_module_P.
    - apply plain_import_Q.
  Qed.
  Lemma lrun_P fuel os : forall w, P w (snd (lrun E fuel os w)).
  Proof.
    induction os as [|o os IH]; intros w; [apply P_refl|]. cbn [lrun]. pose proof (lstep_P fuel o w) as H.
    destruct (lstep E fuel o w) as [r w1]. cbn [snd] in H. specialize (IH w1). destruct (lrun E fuel os w1) as [rs w2].
    cbn [snd] in *. eapply P_trans; eassumption.
  Qed.
  Lemma lrun_ext fuel os w : ext w (snd (lrun E fuel os w)).
  Proof. apply lrun_P. Qed.

  (** ** C61 *)
  Lemma placeholder_reg n req w i w1 : create_module_placeholder n req w = (Ok i, w1) -> mods w1 !! n = Some (EMod i).
  Proof.
    unfold create_module_placeholder. destruct req; [discriminate|].
    destruct (mods w !! n) as [[|j|b]|]; try discriminate; cbn [register]; intros H; injection H as <- <-; cbn [mods]; apply lookup_insert.
  Qed.
  Lemma lazy_import_reg args w i w1 : lazy_import E args w = (Ok i, w1) -> mods w1 !! full_name args = Some (EMod i).
  Proof.
    unfold lazy_import. destruct (mods w !! full_name args) as [[|j|b]|] eqn:En; try (intros H; injection H as <- <-; exact En).
    all: destruct (check_is_dep_missing E (i_deps args) w) as [miss|]; [|discriminate].
    all: destruct (gather (i_rel args) miss w) as [deps|]; [|discriminate].
    all: destruct (match i_package args with Some ""%string => FindRaises ImportErr | _ => find_spec E (full_name args) w end) as [|l|e]; [apply placeholder_reg| |discriminate].
    all: destruct miss; [apply placeholder_reg|]; destruct l; try discriminate; cbn [register]; intros H; injection H as <- <-; cbn [mods]; apply lookup_insert.
  Qed.
  Lemma lazy_import_again args w i : mods w !! full_name args = Some (EMod i) -> lazy_import E args w = (Ok i, w).
  Proof. intros H. unfold lazy_import. rewrite H. reflexivity. Qed.
  Theorem same_module fuel args args' os w i w1 :
    lazy_import E args w = (Ok i, w1) -> full_name args' = full_name args ->
    lazy_import E args' (snd (lrun E fuel os w1)) = (Ok i, snd (lrun E fuel os w1)).
  Proof.
    intros H Hn. apply lazy_import_again. rewrite Hn. apply (ext_mods _ _ (lrun_ext fuel os w1)). eapply lazy_import_reg. exact H.
  Qed.
  Theorem import_runs_nothing args w : runs (snd (lazy_import E args w)) = runs w /\ lattrs (snd (lazy_import E args w)) = lattrs w /\
    forall i m, heap w !! i = Some m -> heap (snd (lazy_import E args w)) !! i = Some m.
  Proof.
    assert (H0 : forall n req, runs (snd (create_module_placeholder n req w)) = runs w /\ lattrs (snd (create_module_placeholder n req w)) = lattrs w /\
      forall i m, heap w !! i = Some m -> heap (snd (create_module_placeholder n req w)) !! i = Some m).
    { intros n req. unfold create_module_placeholder. destruct req; [auto|]. destruct (mods w !! n) as [[|j|b]|]; try (auto; fail); cbn [register snd runs lattrs heap].
      all: split; [reflexivity|]; split; [reflexivity|]; intros i m H; apply lookup_app_l_Some; exact H. }
    unfold lazy_import. destruct (mods w !! full_name args) as [[|j|b]|] eqn:En; try (auto; fail).
    all: destruct (check_is_dep_missing E (i_deps args) w) as [miss|]; [|auto; fail].
    all: destruct (gather (i_rel args) miss w) as [deps|]; [|auto; fail].
    all: destruct (match i_package args with Some ""%string => FindRaises ImportErr | _ => find_spec E (full_name args) w end) as [|l|e]; [apply H0| |auto; fail].
    all: destruct miss; [apply H0|]; destruct l; try (auto; fail); cbn [register snd runs lattrs heap].
    all: split; [reflexivity|]; split; [reflexivity|]; intros i m H; apply lookup_app_l_Some; exact H.
  Qed.

  (** ** C62 *)
  Lemma check_missing deps w : dep_missing E deps w -> check_is_dep_missing E deps w = Ok true.
  Proof.
    intros (a & d & b & -> & Ha & Hd). induction a as [|x a IH]; cbn [app check_is_dep_missing]; [rewrite Hd; reflexivity|].
    inversion Ha as [|? ? [l Hx] Ha']; subst. rewrite Hx. apply IH. exact Ha'.
  Qed.
  Lemma check_found deps w : deps_found E deps w -> check_is_dep_missing E deps w = Ok false.
  Proof.
    unfold deps_found. induction deps as [|x a IH]; cbn [check_is_dep_missing]; intros Ha; [reflexivity|].
    inversion Ha as [|? ? [l Hx] Ha']; subst. rewrite Hx. apply IH. exact Ha'.
  Qed.
  Lemma gather_ok rel w : rel_ok rel w -> exists ds, gather rel false w = Ok ds.
  Proof.
    destruct rel as [| |l]; cbn [rel_ok gather]; intros H; [eexists; reflexivity|contradiction|].
    assert (Hr : exists r, rel_mods l w = Some r).
    { induction l as [|x l IH]; [eexists; reflexivity|]. inversion H as [|? ? (n & i & -> & Hi) H']; subst.
      destruct (IH H') as [r Hr]. exists (i :: r). cbn [rel_mods]. rewrite Hi, Hr. reflexivity. }
    destruct Hr as [r Hr]. rewrite Hr. eexists. reflexivity.
  Qed.
  Lemma package_spec args w : i_package args <> Some ""%string ->
    match i_package args with Some ""%string => FindRaises ImportErr | _ => find_spec E (full_name args) w end = find_spec E (full_name args) w.
  Proof. destruct (i_package args) as [[|]|]; [congruence|reflexivity|reflexivity]. Qed.
  Lemma import_missing args w : unregistered (full_name args) w -> missing E args w ->
    lazy_import E args w = create_module_placeholder (full_name args) (i_required args) w.
  Proof.
    intros Hu [Hp Hm]. unfold lazy_import. rewrite (package_spec args w Hp).
    assert (HX : match check_is_dep_missing E (i_deps args) w with
        | Ok missing0 =>
            match gather (i_rel args) missing0 w with
            | Ok deps =>
                match find_spec E (full_name args) w with
                | NotFound => create_module_placeholder (full_name args) (i_required args) w
                | Found l =>
                    if missing0 then create_module_placeholder (full_name args) (i_required args) w
                    else match l with
                         | LdNone => (Err TypeErr, w)
                         | LdBad => (Err TypeErr, w)
                         | LdGood => let '(i, w') := register (full_name args) (mkmod (full_name args) CLazy ∅ deps true) w in (Ok i, w')
                         end
                | FindRaises e => (Err e, w)
                end
            | Err e => (Err e, w)
            end
        | Err e => (Err e, w)
        end = create_module_placeholder (full_name args) (i_required args) w).
    { destruct Hm as [[Hd Hf]|(Hd & Hr & Hf)].
      - rewrite (check_missing _ _ Hd). cbn [gather]. destruct (find_spec E (full_name args) w) as [|l|e] eqn:Ef; [reflexivity|reflexivity|].
        exfalso. apply (Hf e). reflexivity.
      - rewrite (check_found _ _ Hd). destruct (gather_ok _ _ Hr) as [ds Hg]. rewrite Hg, Hf. reflexivity. }
    destruct Hu as [Hu|Hu]; rewrite Hu; exact HX.
  Qed.
  Theorem missing_required args w : unregistered (full_name args) w -> missing E args w -> i_required args = true ->
    lazy_import E args w = (Err ModuleNotFound, w).
  Proof. intros Hu Hm Hr. rewrite (import_missing args w Hu Hm), Hr. reflexivity. Qed.
  Lemma adds_register n c ds s w : adds n (length (heap w)) c w (snd (register n (mkmod n c ∅ ds s) w)).
  Proof.
    unfold adds. cbn [register snd heap mods lattrs runs]. split; [apply lookup_ge_None; lia|].
    split; [eexists; split; [|split; [|reflexivity]]; reflexivity|]. auto.
  Qed.
  Theorem missing_optional args w : unregistered (full_name args) w -> missing E args w -> i_required args = false ->
    exists i w1, lazy_import E args w = (Ok i, w1) /\ adds (full_name args) i CPlaceholder w w1.
  Proof.
    intros Hu Hm Hr. rewrite (import_missing args w Hu Hm), Hr. unfold create_module_placeholder.
    destruct Hu as [Hu|Hu]; rewrite Hu; eexists; eexists; (split; [reflexivity|]); apply (adds_register _ CPlaceholder [] false w).
  Qed.
  Theorem available_lazy args w : unregistered (full_name args) w -> available E args w ->
    exists i w1, lazy_import E args w = (Ok i, w1) /\ adds (full_name args) i CLazy w w1.
  Proof.
    intros Hu (Hp & Hd & Hr & Hf). unfold lazy_import. rewrite (package_spec args w Hp), (check_found _ _ Hd).
    destruct (gather_ok _ _ Hr) as [ds Hg]. rewrite Hg, Hf.
    destruct Hu as [Hu|Hu]; rewrite Hu; eexists; eexists; (split; [reflexivity|]); apply (adds_register _ CLazy ds true w).
  Qed.
  Lemma class_stays fuel os i c w : (c = CPlaceholder \/ c = CModule) -> class_of i w = Some c -> class_of i (snd (lrun E fuel os w)) = Some c.
  Proof.
    intros Hc H. destruct (class_ext i c w _ (lrun_ext fuel os w) H) as (c' & Hc' & Hle). rewrite Hc'. f_equal. unfold cl_le in Hle.
    destruct Hc; subst; intuition (subst; try discriminate; auto).
  Qed.
  Lemma class_not_lazy fuel os i c w : c <> CLazy -> class_of i w = Some c -> exists c', class_of i (snd (lrun E fuel os w)) = Some c' /\ c' <> CLazy.
  Proof.
    intros Hc H. destruct (class_ext i c w _ (lrun_ext fuel os w) H) as (c' & Hc' & Hle). exists c'. split; [exact Hc'|]. unfold cl_le in Hle.
    intuition (subst; try discriminate; auto).
  Qed.
  (** get_lazy_attribute of a placeholder, and of the others, at any later time *)
  Theorem attribute_of_placeholder fuel os i a par w : class_of i w = Some CPlaceholder ->
    get_lazy_attribute i a par (snd (lrun E fuel os w)) = (None, snd (lrun E fuel os w)).
  Proof.
    intros H. unfold get_lazy_attribute, is_module_invalid. rewrite (class_stays fuel os i CPlaceholder w); [reflexivity|auto|exact H].
  Qed.
  Theorem attribute_of_module fuel os i a par c w : class_of i w = Some c -> c <> CPlaceholder ->
    exists j, fst (get_lazy_attribute i a par (snd (lrun E fuel os w))) = Some j.
  Proof.
    intros H Hc. destruct (class_ext i c w _ (lrun_ext fuel os w) H) as (c' & Hc' & Hle).
    unfold get_lazy_attribute, is_module_invalid. rewrite Hc'.
    assert (c' <> CPlaceholder) by (unfold cl_le in Hle; intuition (subst; try discriminate; auto)).
    destruct c'; try congruence; eexists; reflexivity.
  Qed.

  (** ** C63 *)
  Theorem run_once fuel os w : started w -> NoDup (runs (snd (lrun E fuel os w))).
  Proof.
    intros [Hr _]. apply (proj2 (lrun_P fuel os w)). split; rewrite Hr; [constructor|]. intros i [].
  Qed.
  Lemma load_module_cached fuel j l w : lattrs w !! j = Some l -> la_obj l <> VNone -> load_module E fuel j w = (Ok (la_obj l), w).
  Proof. intros H Hn. unfold load_module. rewrite H. destruct (la_obj l); [congruence|reflexivity|reflexivity]. Qed.
  Lemma plain_answers m a r : plain_attr m a = r <-> answers m a r.
  Proof.
    unfold plain_attr, answers. destruct (m_attrs m !! a) as [v|].
    - split; [intros <-; left; eauto|]. intros [(v' & Hv & ->)|[H _]]; [congruence|discriminate].
    - destruct (provided a).
      + split; [intros <-; right; auto|]. intros [(v' & Hv & _)|[_ [[_ ->]|[H _]]]]; [discriminate|reflexivity|discriminate].
      + split; [intros <-; right; auto|]. intros [(v' & Hv & _)|[_ [[H _]|[_ ->]]]]; [discriminate|discriminate|reflexivity].
  Qed.
  (** The first use of a lazy attribute. *)
  Lemma load_module_first fuel j l v w w1 : lattrs w !! j = Some l -> la_obj l = VNone -> load_module E fuel j w = (Ok v, w1) ->
    lattrs w1 !! j = Some (mkla (la_mod l) (la_attr l) (la_parent l) v) /\
    (exists m, heap w1 !! la_mod l = Some m /\ answers m (la_attr l) (Ok v)) /\
    (forall p, mods w1 !! la_parent l = Some (EMod p) -> (exists m, heap w1 !! p = Some m) -> has_attr p (la_attr l) v w1) /\
    mods w1 !! la_parent l <> None.
  Proof.
    intros Hl Ho. unfold load_module. rewrite Hl, Ho. set (x := match class_of (la_mod l) w with Some CLazy => _ | _ => _ end).
    assert (Hx : lattrs (snd x) = lattrs w).
    { unfold x. destruct (class_of (la_mod l) w) as [[]|]; try reflexivity. apply (getattr_Q (load E fuel) _ _ w (load_Q E fuel)). }
    destruct x as [r w2]. cbn [snd] in Hx. destruct r as [v0|e]; [|discriminate].
    destruct (heap w2 !! la_mod l) as [m|] eqn:Em; [|discriminate]. destruct (plain_attr m (la_attr l)) as [v1|e] eqn:Ep; [|discriminate].
    destruct (mods w2 !! la_parent l) as [[|p|b]|] eqn:Epar; try discriminate; intros H; injection H as <- <-; cbn [lattrs heap mods set_mod].
    - split; [rewrite list_lookup_alter, Hx, Hl; reflexivity|]. split.
      + destruct (decide (la_mod l = p)) as [<-|Hd].
        * rewrite list_lookup_alter, Em. eexists. split; [reflexivity|]. left. exists v1. split; [apply lookup_insert|reflexivity].
        * rewrite list_lookup_alter_ne by congruence. exists m. split; [exact Em|apply plain_answers; exact Ep].
      + split; [|rewrite Epar; discriminate]. intros p' Hp' (m' & Hm'). rewrite Epar in Hp'. injection Hp' as <-. unfold has_attr. cbn [heap].
        rewrite list_lookup_alter in *. destruct (heap w2 !! p) as [mp|]; [|discriminate]. cbn in *. eexists. split; [reflexivity|]. apply lookup_insert.
    - split; [rewrite list_lookup_alter, Hx, Hl; reflexivity|]. split; [exists m; split; [exact Em|apply plain_answers; exact Ep]|].
      split; [|rewrite Epar; discriminate]. intros p Hp. congruence.
  Qed.
  Theorem same_value fuel fuel' fuel'' os j v w w1 : load_module E fuel j w = (Ok v, w1) -> v <> VNone ->
    load_module E fuel'' j (snd (lrun E fuel' os w1)) = (Ok v, snd (lrun E fuel' os w1)).
  Proof.
    intros H Hn. assert (H1 : exists l, lattrs w1 !! j = Some l /\ la_obj l = v).
    { destruct (lattrs w !! j) as [l|] eqn:El.
      - assert (Hdec : la_obj l = VNone \/ la_obj l <> VNone) by (destruct (la_obj l); [left; reflexivity|right; discriminate|right; discriminate]). destruct Hdec as [Ho|Ho].
        + destruct (load_module_first fuel j l v w w1 El Ho H) as (HA & _). eexists. split; [exact HA|reflexivity].
        + rewrite (load_module_cached fuel j l w El Ho) in H. injection H as <- <-. exists l. auto.
      - unfold load_module in H. rewrite El in H. discriminate. }
    destruct H1 as (l & Hl & Ho). destruct (ext_la _ _ (lrun_ext fuel' os w1) j l Hl) as (l' & Hl' & _ & _ & _ & Ho').
    rewrite (load_module_cached fuel'' j l' _ Hl'); rewrite Ho' by congruence; [rewrite Ho; reflexivity|congruence].
  Qed.

  (** ** First access of a lazy module *)
  Definition loads (a : string) : Prop := a <> "__path__"%string /\ protected a = false.
  Lemma access_loads fuel i a w : class_of i w = Some CLazy -> loads a ->
    exists c, class_of i (snd (getattr E (S fuel) i a w)) = Some c /\ c <> CLazy.
  Proof.
    intros Hc [Ha Hp]. unfold getattr, getattr_with.
    assert (Hm : exists m, heap w !! i = Some m /\ m_class m = CLazy).
    { unfold class_of in Hc. destruct (heap w !! i) as [m|]; [|discriminate]. injection Hc as Hc. exists m. auto. }
    destruct Hm as (m & Em & Ec). rewrite Em, Ec. destruct (String.eqb_spec a "__path__") as [Hq|_]; [contradiction|]. rewrite Hp. cbv zeta.
    pose proof (load_deps_od (length (heap w)) i w) as Hod. rewrite <- (od_class i _ _ Hod) in Hc.
    destruct (heap (load_deps (length (heap w)) i w) !! i) as [m1|] eqn:Em1; [|unfold class_of in Hc; rewrite Em1 in Hc; discriminate].
    assert (HL : exists c, class_of i (snd (load E (S fuel) i (load_deps (length (heap w)) i w))) = Some c /\ c <> CLazy).
    { cbn [load]. rewrite Em1. set (w1 := load_deps _ _ _) in *.
      pose proof (body_Q E (load E fuel) i (code E (m_name m1)) (load_Q E fuel) (begin_load i w1)) as HB.
      assert (Hb : class_of i (begin_load i w1) = Some CLoading) by (apply class_begin; congruence).
      destruct (body_with E (load E fuel) i (code E (m_name m1)) (begin_load i w1)) as [r w2]. cbn [snd] in HB.
      destruct (class_ext i CLoading _ w2 (proj1 (proj1 HB)) Hb) as (c & Hc2 & Hle).
      assert (Hcl : c <> CLazy) by (unfold cl_le in Hle; intuition (subst; try discriminate; auto)).
      destruct r as [u|e]; [|exists c; auto].
      destruct (class_ext i c w2 (snd (end_load i m1 w2)) (proj1 (proj1 (end_Q i m1 w2 (ex_intro _ c (conj Hc2 Hle))))) Hc2) as (c3 & Hc3 & Hle3).
      exists c3. split; [exact Hc3|]. unfold cl_le in Hle3. intuition (subst; try discriminate; auto). }
    destruct (load E (S fuel) i (load_deps (length (heap w)) i w)) as [r w2]. cbn [snd] in HL.
    destruct r; [destruct (heap w2 !! i)|]; exact HL.
  Qed.
  Theorem accessed_then_plain fuel fuel' fuel'' i a a' os w : class_of i w = Some CLazy -> loads a ->
    let w2 := snd (lrun E fuel' os (snd (getattr E (S fuel) i a w))) in
    exists m, heap w2 !! i = Some m /\ snd (getattr E fuel'' i a' w2) = w2 /\ answers m a' (fst (getattr E fuel'' i a' w2)).
  Proof.
    intros Hc Ha. cbv zeta. destruct (access_loads fuel i a w Hc Ha) as (c & Hc1 & Hn).
    assert (Hp : exists c', class_of i (snd (lrun E fuel' os (snd (getattr E (S fuel) i a w)))) = Some c' /\ c' <> CLazy /\ c' <> CPlaceholder).
    { assert (Hq : c <> CPlaceholder).
      { destruct (class_ext i CLazy w _ (proj1 (proj1 (getattr_Q (load E (S fuel)) i a w (load_Q E (S fuel))))) Hc) as (c0 & Hc0 & Hle).
        unfold getattr in Hc1. rewrite Hc0 in Hc1. injection Hc1 as ->. unfold cl_le in Hle. intuition (subst; try discriminate; auto). }
      destruct (class_ext i c _ _ (lrun_ext fuel' os _) Hc1) as (c' & Hc' & Hle). exists c'. split; [exact Hc'|].
      unfold cl_le in Hle. intuition (subst; try discriminate; auto). }
    set (w2 := snd (lrun E fuel' os (snd (getattr E (S fuel) i a w)))) in *. destruct Hp as (c' & Hc' & Hl & Hq).
    unfold class_of in Hc'. destruct (heap w2 !! i) as [m|] eqn:Em; [|discriminate]. injection Hc' as Hc'. exists m. split; [reflexivity|].
    unfold getattr, getattr_with. rewrite Em. rewrite Hc'. destruct c'; try congruence; (split; [reflexivity|]); apply plain_answers; reflexivity.
  Qed.

  (** ** C72 *)
  Lemma placeholder_no_spec args w i w1 : unregistered (full_name args) w -> lazy_import E args w = (Ok i, w1) -> class_of i w1 = Some CPlaceholder ->
    exists m, heap w1 !! i = Some m /\ m_spec m = false.
  Proof.
    intros Hu.
    assert (H0 : forall n req, create_module_placeholder n req w = (Ok i, w1) -> exists m, heap w1 !! i = Some m /\ m_spec m = false).
    { intros n req. unfold create_module_placeholder. destruct req; [discriminate|]. destruct (mods w !! n) as [[|j|b]|]; try discriminate; cbn [register].
      all: intros H; injection H as <- <-; cbn [heap]; rewrite lookup_app_r, Nat.sub_diag by lia; eexists; split; [reflexivity|reflexivity]. }
    unfold lazy_import. assert (Hno : forall j, mods w !! full_name args <> Some (EMod j)) by (intros j; destruct Hu as [Hu|Hu]; rewrite Hu; discriminate).
    destruct (mods w !! full_name args) as [[|j|b]|] eqn:En; [|exfalso; exact (Hno j eq_refl)| |].
    all: destruct (check_is_dep_missing E (i_deps args) w) as [miss|]; [|discriminate].
    all: destruct (gather (i_rel args) miss w) as [deps|]; [|discriminate].
    all: destruct (match i_package args with Some ""%string => FindRaises ImportErr | _ => find_spec E (full_name args) w end) as [|l|e]; [intros H _; eapply H0; exact H| |discriminate].
    all: destruct miss; [intros H _; eapply H0; exact H|]; destruct l; try discriminate; cbn [register]; intros H; injection H as <- <-; unfold class_of; cbn [heap].
    all: rewrite lookup_app_r, Nat.sub_diag by lia; discriminate.
  Qed.
  Theorem placeholder_dependency fuel args args' os a b w i w1 : unregistered (full_name args) w ->
    lazy_import E args w = (Ok i, w1) -> class_of i w1 = Some CPlaceholder ->
    let w2 := snd (lrun E fuel os w1) in
    unregistered (full_name args') w2 -> i_deps args' = a ++ full_name args :: b -> Forall (fun d => exists_spec E d w2) a ->
    lazy_import E args' w2 = (Err ValueErr, w2).
  Proof.
    intros Hu H Hc w2 Hu' Hd Ha. destruct (placeholder_no_spec args w i w1 Hu H Hc) as (m & Hm & Hs).
    pose proof (lrun_ext fuel os w1) as He. fold w2 in He. pose proof (ext_mods _ _ He _ _ (lazy_import_reg args w i w1 H)) as Hr.
    destruct (ext_heap _ _ He i m Hm) as (m' & Hm' & _ & _ & Hs'). rewrite Hs in Hs'.
    assert (Hf : find_spec E (full_name args) w2 = FindRaises ValueErr) by (unfold find_spec; rewrite Hr, Hm', Hs'; reflexivity).
    assert (HC : check_is_dep_missing E (i_deps args') w2 = Err ValueErr).
    { rewrite Hd. clear Hd. induction a as [|x a IH]; cbn [app check_is_dep_missing]; [rewrite Hf; reflexivity|].
      inversion Ha as [|? ? [l Hx] Ha']; subst. rewrite Hx. apply IH. exact Ha'. }
    unfold lazy_import. rewrite HC. destruct Hu' as [Hu'|Hu']; rewrite Hu'; reflexivity.
  Qed.

  (** ** C74 *)
  Definition only_defs (ss : list stmt) : Prop := Forall (fun s => exists a v, s = SDef a v) ss.
  Lemma body_defs ld i ss : only_defs ss -> forall w,
    fst (body_with E ld i ss w) = Ok tt /\ runs (snd (body_with E ld i ss w)) = runs w /\ mods (snd (body_with E ld i ss w)) = mods w /\
    (forall j, class_of j (snd (body_with E ld i ss w)) = class_of j w).
  Proof.
    induction ss as [|s ss IH]; intros H w; [auto|]. inversion H as [|? ? (a & v & ->) H']; subst. cbn [body_with stmt_with].
    destruct (IH H' (set_mod i (set_attrs (insert a v)) w)) as (A & B & C & D). split; [exact A|]. split; [rewrite B; reflexivity|].
    split; [rewrite C; reflexivity|]. intros j. rewrite D. unfold class_of, set_mod. cbn [heap]. destruct (decide (j = i)) as [->|Hd].
    - rewrite list_lookup_alter. destruct (heap w !! i); reflexivity.
    - rewrite list_lookup_alter_ne by congruence. reflexivity.
  Qed.
  Theorem rel_not_loaded fuel i a m w : heap w !! i = Some m -> m_class m = CLazy -> loads a -> only_defs (code E (m_name m)) ->
    runs (snd (getattr E (S fuel) i a w)) = runs w ++ [i] /\
    forall j, j <> i -> class_of j (snd (getattr E (S fuel) i a w)) = class_of j w.
  Proof.
    intros Em Ec [Ha Hp] Hd. unfold getattr, getattr_with. rewrite Em, Ec. destruct (String.eqb_spec a "__path__") as [Hq|_]; [contradiction|]. rewrite Hp. cbv zeta.
    pose proof (load_deps_od (length (heap w)) i w) as Hod. set (w1 := load_deps _ _ _) in *.
    pose proof (od_heap _ _ Hod i) as Hi. rewrite Em in Hi. destruct (heap w1 !! i) as [m1|] eqn:Em1; [|contradiction].
    destruct Hi as (Hn & _). cbn [load]. rewrite Em1, Hn.
    destruct (body_defs (load E fuel) i (code E (m_name m)) Hd (begin_load i w1)) as (A & B & C & D).
    destruct (body_with E (load E fuel) i (code E (m_name m)) (begin_load i w1)) as [r w2]. cbn [fst snd] in *. subst r.
    assert (HE : runs (snd (end_load i m1 w2)) = runs w2 /\ forall j, j <> i -> class_of j (snd (end_load i m1 w2)) = class_of j w2).
    { unfold end_load. destruct (mods w2 !! m_name m1) as [[|k|b]|]; try (split; [reflexivity|auto]; fail); [destruct (k =? i)|].
      all: try (split; [reflexivity|auto]; fail). all: split; [reflexivity|]; intros j Hj; unfold class_of, set_mod; cbn [snd heap]; rewrite list_lookup_alter_ne by congruence; reflexivity. }
    assert (HR : runs (snd (end_load i m1 w2)) = runs w ++ [i]).
    { rewrite (proj1 HE), B. cbn [begin_load set_mod runs]. rewrite (od_runs _ _ Hod). reflexivity. }
    assert (HC : forall j, j <> i -> class_of j (snd (end_load i m1 w2)) = class_of j w).
    { intros j Hj. rewrite (proj2 HE j Hj), D, class_begin_ne by exact Hj. apply od_class. exact Hod. }
    destruct (end_load i m1 w2) as [r w3]. cbn [snd] in *. destruct r; [destruct (heap w3 !! i)|]; auto.
  Qed.
End Props.
