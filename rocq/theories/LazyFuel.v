(** * LazyFuel: the recursion bound of [load] is no restriction

    If the code of the modules calls lazy_import for the names of some list [N] only, then
    [fuel_bound] (lazy modules plus names that are still free) is enough fuel. *)
From stdpp Require Import gmap strings.
From Coq Require Import String.
From Coq Require Import List Bool Arith Lia.
From Verif Require Import Lazy LazySpec LazyProofs.
Import ListNotations.
Local Open Scope nat_scope.

Definition lazy_obj (m : modobj) : bool := match m_class m with CLazy => true | _ => false end.
Definition free_name (w : world) (n : string) : bool := match mods w !! n with Some (EMod _) => false | _ => true end.
Definition count {X} (f : X -> bool) (l : list X) : nat := length (List.filter f l).
Definition fuel_bound (N : list string) (w : world) : nat := count lazy_obj (heap w) + count (free_name w) N.

Lemma count_alter_le {X} (f : X -> bool) g i (l : list X) : (forall x, l !! i = Some x -> f (g x) = true -> f x = true) ->
  count f (alter g i l) <= count f l.
Proof.
  unfold count. revert i. induction l as [|x l IH]; intros [|i] H; try (cbn; lia).
  - specialize (H x eq_refl). cbn. destruct (f (g x)); destruct (f x); cbn; try lia; specialize (H eq_refl); discriminate.
  - specialize (IH i H). cbn. destruct (f x); cbn; unfold alter in *; lia.
Qed.
Lemma count_alter_lt {X} (f : X -> bool) g i x (l : list X) : l !! i = Some x -> f x = true -> f (g x) = false ->
  S (count f (alter g i l)) = count f l.
Proof.
  unfold count. revert i. induction l as [|y l IH]; intros [|i] H Hx Hg; try discriminate.
  - injection H as ->. cbn. rewrite Hx, Hg. reflexivity.
  - specialize (IH i H Hx Hg). cbn. unfold alter in *. destruct (f y); cbn; lia.
Qed.
Lemma count_cons {X} (f : X -> bool) x l : count f (x :: l) = (if f x then 1 else 0) + count f l.
Proof. unfold count. cbn. destruct (f x); reflexivity. Qed.
Lemma count_app {X} (f : X -> bool) a b : count f (a ++ b) = count f a + count f b.
Proof. unfold count. rewrite List.filter_app, app_length. reflexivity. Qed.
Lemma count_le {X} (f g : X -> bool) l : (forall x, g x = true -> f x = true) -> count g l <= count f l.
Proof.
  intros H. unfold count. induction l as [|x l IH]; [reflexivity|]. cbn. destruct (g x) eqn:Eg.
  - rewrite (H x Eg). cbn. lia.
  - destruct (f x); cbn; lia.
Qed.
Lemma count_lt {X} (f g : X -> bool) l x : (forall x, g x = true -> f x = true) -> In x l -> f x = true -> g x = false -> S (count g l) <= count f l.
Proof.
  intros H. induction l as [|y l IH]; [intros []|]. intros [->|Hi] Hf Hg.
  - pose proof (count_le f g l H). unfold count in *. cbn. rewrite Hf, Hg. cbn. lia.
  - specialize (IH Hi Hf Hg). unfold count in *. cbn. destruct (g y) eqn:Eg; [rewrite (H y Eg); cbn; lia|]. destruct (f y); cbn; lia.
Qed.

Section Fuel.
  Variable E : penv.
  Variable N : list string.
  Hypothesis code_names : forall n args, In (SLazy args) (code E n) -> In (full_name args) N.
  Hypothesis finder_ok : forall n, finder E n <> FindRaises NoFuel.

  Local Notation bound := (fuel_bound N).

  Lemma bound_set_mod i f w : (forall m, heap w !! i = Some m -> m_class (f m) = CLazy -> m_class m = CLazy) -> bound (set_mod i f w) <= bound w.
  Proof.
    intros H. unfold fuel_bound, set_mod. cbn [heap mods].
    assert (count lazy_obj (alter f i (heap w)) <= count lazy_obj (heap w)).
    { apply count_alter_le. unfold lazy_obj. intros m Hm Hl. specialize (H m Hm). destruct (m_class (f m)); try discriminate. rewrite (H eq_refl). reflexivity. }
    assert (count (free_name (mkw (mods w) (alter f i (heap w)) (lattrs w) (runs w))) N = count (free_name w) N) by reflexivity. lia.
  Qed.
  Lemma free_register n m w x : free_name (snd (register n m w)) x = true -> free_name w x = true.
  Proof.
    unfold free_name. cbn [register snd mods]. destruct (decide (x = n)) as [->|Hd]; [rewrite lookup_insert; discriminate|].
    rewrite lookup_insert_ne by congruence. auto.
  Qed.
  Lemma bound_register_any n m w : bound (snd (register n m w)) <= S (bound w).
  Proof.
    unfold fuel_bound. pose proof (count_le (free_name w) (free_name (snd (register n m w))) N (free_register n m w)).
    cbn [register snd heap] in *. rewrite count_app. assert (count lazy_obj [m] <= 1) by (unfold count; cbn; destruct (lazy_obj m); cbn; lia). lia.
  Qed.
  Lemma bound_register_plain n m w : lazy_obj m = false -> bound (snd (register n m w)) <= bound w.
  Proof.
    intros Hm. unfold fuel_bound. pose proof (count_le (free_name w) (free_name (snd (register n m w))) N (free_register n m w)).
    cbn [register snd heap] in *. rewrite count_app. assert (count lazy_obj [m] = 0) by (unfold count; cbn; rewrite Hm; reflexivity). lia.
  Qed.
  Lemma bound_register_in n m w : In n N -> free_name w n = true -> bound (snd (register n m w)) <= bound w.
  Proof.
    intros Hn Hf. unfold fuel_bound.
    assert (S (count (free_name (snd (register n m w))) N) <= count (free_name w) N).
    { apply (count_lt _ _ N n); [apply free_register|exact Hn|exact Hf|]. unfold free_name. cbn [register snd mods]. rewrite lookup_insert. reflexivity. }
    cbn [register snd heap] in *. rewrite count_app. assert (count lazy_obj [m] <= 1) by (unfold count; cbn; destruct (lazy_obj m); cbn; lia). lia.
  Qed.
  Lemma bound_placeholder n req w : bound (snd (create_module_placeholder n req w)) <= bound w /\ fst (create_module_placeholder n req w) <> Err NoFuel.
  Proof.
    unfold create_module_placeholder. destruct req; [split; [reflexivity|discriminate]|].
    destruct (mods w !! n) as [[|i|b]|]; try (split; [reflexivity|discriminate]); (split; [|discriminate]); apply (bound_register_plain n _ w); reflexivity.
  Qed.
  Lemma find_spec_ok n w : find_spec E n w <> FindRaises NoFuel.
  Proof.
    unfold find_spec. destruct (mods w !! n) as [[|i|b]|]; [discriminate| |destruct b; discriminate|apply finder_ok].
    destruct (heap w !! i) as [m|]; [destruct (m_spec m); discriminate|discriminate].
  Qed.
  Lemma check_ok deps w : check_is_dep_missing E deps w <> Err NoFuel.
  Proof.
    induction deps as [|d deps IH]; [discriminate|]. cbn [check_is_dep_missing]. pose proof (find_spec_ok d w) as H.
    destruct (find_spec E d w) as [|l|e]; [discriminate|exact IH|congruence].
  Qed.
  Lemma gather_not rel b w : gather rel b w <> Err NoFuel.
  Proof. unfold gather. destruct b; [discriminate|]. destruct rel as [| |l]; try discriminate. destruct (rel_mods l w); discriminate. Qed.
  Lemma import_bound args w : fst (lazy_import E args w) <> Err NoFuel /\ bound (snd (lazy_import E args w)) <= S (bound w) /\
    (In (full_name args) N -> bound (snd (lazy_import E args w)) <= bound w).
  Proof.
    unfold lazy_import.
    assert (HP : forall n req, fst (create_module_placeholder n req w) <> Err NoFuel /\ bound (snd (create_module_placeholder n req w)) <= S (bound w) /\
      (In (full_name args) N -> bound (snd (create_module_placeholder n req w)) <= bound w)).
    { intros n req. destruct (bound_placeholder n req w) as [A B]. split; [exact B|]. split; [lia|auto]. }
    assert (HE : forall e, e <> NoFuel -> fst ((@Err nat e), w) <> Err NoFuel /\ bound (snd (@Err nat e, w)) <= S (bound w) /\ (In (full_name args) N -> bound (snd (@Err nat e, w)) <= bound w)).
    { intros e He. cbn. split; [congruence|]. lia. }
    destruct (mods w !! full_name args) as [[|j|b]|] eqn:En; try (cbn; split; [discriminate|lia]; fail).
    all: pose proof (check_ok (i_deps args) w) as Hc; destruct (check_is_dep_missing E (i_deps args) w) as [miss|e]; [|apply HE; congruence].
    all: pose proof (gather_not (i_rel args) miss w) as Hg; destruct (gather (i_rel args) miss w) as [deps|e]; [|apply HE; congruence].
    all: pose proof (find_spec_ok (full_name args) w) as Hf.
    all: assert (Hf' : match i_package args with Some ""%string => FindRaises ImportErr | _ => find_spec E (full_name args) w end <> FindRaises NoFuel)
      by (destruct (i_package args) as [[|]|]; try exact Hf; discriminate).
    all: destruct (match i_package args with Some ""%string => FindRaises ImportErr | _ => find_spec E (full_name args) w end) as [|l|e]; [apply HP| |apply HE; congruence].
    all: destruct miss; [apply HP|]; destruct l; try (apply HE; discriminate).
    all: split; [discriminate|]; split; [apply (bound_register_any (full_name args) _ w)|].
    all: intros Hin; apply (bound_register_in (full_name args) _ w Hin); unfold free_name; rewrite En; reflexivity.
  Qed.
  Lemma plain_bound n attrs w : fst (plain_import n attrs w) <> Err NoFuel /\ bound (snd (plain_import n attrs w)) <= bound w.
  Proof.
    unfold plain_import. destruct (mods w !! n) as [[|j|b]|]; try (split; [discriminate|reflexivity]; fail).
    split; [discriminate|]. apply (bound_register_plain n _ w). reflexivity.
  Qed.
  Lemma od_bound w w' : only_deps w w' -> bound w' = bound w.
  Proof.
    intros Hod. unfold fuel_bound. f_equal.
    - pose proof (od_heap _ _ Hod) as H. revert H. generalize (heap w) (heap w'). intros l. induction l as [|m l IH]; intros [|m' l'] H; [reflexivity| | |].
      + specialize (H 0). contradiction.
      + specialize (H 0). contradiction.
      + pose proof (H 0) as H0. destruct H0 as (_ & Hc & _). specialize (IH l' (fun i => H (S i))). rewrite !count_cons, IH.
        unfold lazy_obj at 1 3. rewrite Hc. reflexivity.
    - unfold count. f_equal. apply List.filter_ext. intros n. unfold free_name. rewrite (od_mods _ _ Hod). reflexivity.
  Qed.

  Definition enough (ld : nat -> world -> res unit * world) (k : nat) : Prop :=
    forall i w, class_of i w = Some CLazy -> bound w <= k -> fst (ld i w) <> Err NoFuel /\ bound (snd (ld i w)) <= bound w.
  Lemma plain_attr_ok m a : plain_attr m a <> Err NoFuel.
  Proof. unfold plain_attr. destruct (m_attrs m !! a); [discriminate|]. destruct (provided a); discriminate. Qed.
  Lemma getattr_bound ld k i a w : enough ld k -> bound w <= k ->
    fst (getattr_with ld i a w) <> Err NoFuel /\ bound (snd (getattr_with ld i a w)) <= bound w.
  Proof.
    intros Hl Hk. unfold getattr_with. destruct (heap w !! i) as [m|] eqn:Em; [|split; [discriminate|reflexivity]].
    destruct (m_class m) eqn:Ec; try (split; [apply plain_attr_ok|reflexivity]).
    - destruct (String.eqb a "__path__"); [split; [discriminate|reflexivity]|]. destruct (protected a); [split; [discriminate|reflexivity]|]. cbv zeta.
      pose proof (load_deps_od (length (heap w)) i w) as Hod. pose proof (od_bound _ _ Hod) as Hb.
      assert (Hc : class_of i (load_deps (length (heap w)) i w) = Some CLazy).
      { rewrite (od_class i _ _ Hod). unfold class_of. rewrite Em. cbn. rewrite Ec. reflexivity. }
      destruct (Hl i _ Hc ltac:(lia)) as [HA HB]. destruct (ld i (load_deps (length (heap w)) i w)) as [r w2]. cbn [fst snd] in *.
      destruct r as [u|e]; [destruct (heap w2 !! i) as [m2|]; (split; [|cbn [snd]; lia])|split; [cbn; congruence|cbn; lia]]; [apply plain_attr_ok|discriminate].
    - split; [|reflexivity]. unfold placeholder_attr. destruct (String.eqb a "__path__"); [discriminate|]. destruct (m_attrs m !! a); [discriminate|].
      destruct (provided a || _); discriminate.
  Qed.
  Lemma stmt_bound ld k i s w : (forall args, s = SLazy args -> In (full_name args) N) -> enough ld k -> bound w <= k ->
    fst (stmt_with E ld i s w) <> Err NoFuel /\ bound (snd (stmt_with E ld i s w)) <= bound w.
  Proof.
    intros Hs Hl Hk. destruct s as [n a|a v|n|args|n attrs]; cbn [stmt_with].
    - destruct (mods w !! n) as [[|j|b]|]; try (split; [discriminate|reflexivity]; fail). destruct (getattr_bound ld k j a w Hl Hk) as [A B].
      destruct (getattr_with ld j a w) as [r w']. cbn [fst snd] in *. split; [destruct r; congruence|exact B].
    - split; [discriminate|]. apply bound_set_mod. auto.
    - split; [discriminate|reflexivity].
    - destruct (import_bound args w) as (A & _ & B). specialize (B (Hs args eq_refl)). destruct (lazy_import E args w) as [r w']. cbn [fst snd] in *.
      split; [destruct r; congruence|exact B].
    - apply plain_bound.
  Qed.
  Lemma body_bound ld k i ss : (forall args, In (SLazy args) ss -> In (full_name args) N) -> enough ld k -> forall w, bound w <= k ->
    fst (body_with E ld i ss w) <> Err NoFuel /\ bound (snd (body_with E ld i ss w)) <= bound w.
  Proof.
    intros Hs Hl. induction ss as [|s ss IH]; intros w Hk; [split; [discriminate|reflexivity]|]. cbn [body_with].
    destruct (stmt_bound ld k i s w) as [A B]; [intros args ->; apply Hs; left; reflexivity|exact Hl|exact Hk|].
    destruct (stmt_with E ld i s w) as [r w']. cbn [fst snd] in *. destruct r as [u|e]; [|split; [cbn; congruence|exact B]].
    destruct (IH (fun args Hi => Hs args (or_intror Hi)) w' ltac:(lia)) as [C D]. split; [exact C|lia].
  Qed.
  Lemma begin_bound i m w : heap w !! i = Some m -> m_class m = CLazy -> S (bound (begin_load i w)) = bound w.
  Proof.
    intros Hm Hc. unfold fuel_bound, begin_load, set_mod. cbn [heap].
    assert (H : S (count lazy_obj (alter (set_class CLoading) i (heap w))) = count lazy_obj (heap w)).
    { apply (count_alter_lt _ _ i m); [exact Hm| |reflexivity]. unfold lazy_obj. rewrite Hc. reflexivity. }
    change (count (free_name _) N) with (count (free_name w) N). lia.
  Qed.
  Lemma end_bound i m w : fst (end_load i m w) <> Err NoFuel /\ bound (snd (end_load i m w)) <= bound w.
  Proof.
    unfold end_load. destruct (mods w !! m_name m) as [[|j|b]|]; try (split; [discriminate|reflexivity]; fail); [destruct (j =? i)|].
    all: try (split; [discriminate|reflexivity]; fail). all: split; [discriminate|]; apply bound_set_mod; intros m' _; discriminate.
  Qed.
  Lemma load_enough fuel : forall k, k <= fuel -> enough (load E fuel) k.
  Proof.
    induction fuel as [|f IH]; intros k Hk i w Hc Hb; unfold class_of in Hc; destruct (heap w !! i) as [m|] eqn:Em; try discriminate; injection Hc as Hc.
    - exfalso. pose proof (begin_bound i m w Em Hc). lia.
    - cbn [load]. rewrite Em. pose proof (begin_bound i m w Em Hc) as HB.
      destruct (body_bound (load E f) f i (code E (m_name m))) with (w := begin_load i w) as [A B]; [intros args; apply code_names|apply IH; lia|lia|].
      destruct (body_with E (load E f) i (code E (m_name m)) (begin_load i w)) as [r w2]. cbn [fst snd] in *.
      destruct r as [u|e]; [|split; [cbn; congruence|cbn; lia]]. destruct (end_bound i m w2) as [C D]. split; [exact C|lia].
  Qed.
  Lemma load_module_bound fuel j w : bound w <= fuel -> fst (load_module E fuel j w) <> Err NoFuel /\ bound (snd (load_module E fuel j w)) <= bound w.
  Proof.
    intros Hk. unfold load_module. destruct (lattrs w !! j) as [l|]; [|split; [discriminate|reflexivity]].
    destruct (la_obj l); try (split; [discriminate|reflexivity]).
    set (x := match class_of (la_mod l) w with Some CLazy => _ | _ => _ end).
    assert (Hx : fst x <> Err NoFuel /\ bound (snd x) <= bound w).
    { unfold x. destruct (class_of (la_mod l) w) as [[]|]; try (split; [discriminate|reflexivity]).
      apply (getattr_bound (load E fuel) fuel); [apply load_enough; lia|exact Hk]. }
    destruct x as [r w1]. cbn [fst snd] in Hx. destruct Hx as [A B]. destruct r as [v0|e]; [|split; [cbn; congruence|exact B]].
    destruct (heap w1 !! la_mod l) as [m|]; [|split; [discriminate|exact B]].
    pose proof (plain_attr_ok m (la_attr l)) as Hp. destruct (plain_attr m (la_attr l)) as [v|e]; [|split; [cbn; congruence|exact B]].
    destruct (mods w1 !! la_parent l) as [[|p|b]|]; try (split; [discriminate|exact B]).
    split; [discriminate|]. cbv zeta. cbn [snd].
    pose proof (bound_set_mod p (set_attrs (insert (la_attr l) v)) w1 (fun m _ H => H)) as HS.
    etransitivity; [|exact B]. exact HS.
  Qed.
  Lemma lstep_bound fuel o w : bound w <= fuel -> fst (lstep E fuel o w) <> Err NoFuel /\ bound (snd (lstep E fuel o w)) <= S (bound w).
  Proof.
    intros Hk. destruct o as [args|i a|i a v|i a par|j|n attrs]; cbn [lstep]; unfold as_lout; cbn [fst snd].
    - destruct (import_bound args w) as (A & B & _). split; [destruct (fst (lazy_import E args w)); congruence|exact B].
    - destruct (getattr_bound (load E fuel) fuel i a w (load_enough fuel fuel (le_n _)) Hk) as [A B]. unfold getattr.
      split; [destruct (fst (getattr_with (load E fuel) i a w)); congruence|lia].
    - split; [discriminate|]. pose proof (bound_set_mod i (set_attrs (insert a v)) w (fun m _ H => H)). lia.
    - unfold get_lazy_attribute. destruct (is_module_invalid i w); cbn [fst snd]; (split; [discriminate|]); [lia|].
      unfold fuel_bound. cbn [heap]. change (count (free_name _) N) with (count (free_name w) N). lia.
    - destruct (load_module_bound fuel j w Hk) as [A B]. split; [destruct (fst (load_module E fuel j w)); congruence|lia].
    - destruct (plain_bound n attrs w) as [A B]. split; [destruct (fst (plain_import n attrs w)); congruence|lia].
  Qed.
  Theorem fuel_enough fuel os : forall w, bound w + length os <= fuel -> ~ In (Err NoFuel) (fst (lrun E fuel os w)).
  Proof.
    induction os as [|o os IH]; intros w Hk; [intros []|]. cbn [lrun length] in *. destruct (lstep_bound fuel o w ltac:(lia)) as [A B].
    destruct (lstep E fuel o w) as [r w1]. cbn [fst snd] in *. specialize (IH w1 ltac:(lia)). destruct (lrun E fuel os w1) as [rs w2].
    cbn [fst] in *. intros [H|H]; [congruence|exact (IH H)].
  Qed.
End Fuel.
