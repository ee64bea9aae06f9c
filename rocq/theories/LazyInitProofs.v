(** * LazyInitProofs: lemmas of C85 *)
From stdpp Require Import gmap strings.
From Coq Require Import String.
From Coq Require Import List Bool Arith Lia.
From Verif Require Import Lazy LazySpec LazyProofs LazyInit.
Import ListNotations.
Local Open Scope nat_scope.

Section Init.
  Variable E : penv.
  Variable present : string -> bool.

  Lemma dep_cases ds w : (forall d, In d ds -> if present d then exists_spec E d w else find_spec E d w = NotFound) ->
    if forallb present ds then deps_found E ds w else dep_missing E ds w.
  Proof.
    induction ds as [|d ds IH]; intros H; [constructor|]. cbn [forallb].
    pose proof (H d (or_introl eq_refl)) as Hd. destruct (present d) eqn:Pd; cbn [andb].
    - specialize (IH (fun d' I => H d' (or_intror I))). destruct (forallb present ds).
      + constructor; assumption.
      + destruct IH as (a & x & b & -> & F & N). exists (d :: a), x, b. split; [reflexivity|]. split; [constructor; assumption|exact N].
    - exists [], d, ds. split; [reflexivity|]. split; [constructor|exact Hd].
  Qed.
  Lemma import_one args w : i_package args = Some "syncstream"%string -> i_required args = false ->
    mods w !! full_name args = None -> finder E (full_name args) = Found LdGood ->
    (forall d, In d (i_deps args) -> if present d then exists_spec E d w else find_spec E d w = NotFound) ->
    rel_ok (i_rel args) w ->
    exists i w1, lazy_import E args w = (Ok i, w1) /\ adds (full_name args) i (state_of (forallb present (i_deps args))) w w1.
  Proof.
    intros P R U F D L. apply dep_cases in D.
    assert (FS : find_spec E (full_name args) w = Found LdGood) by (unfold find_spec; now rewrite U).
    assert (P' : i_package args <> Some ""%string) by (rewrite P; discriminate).
    destruct (forallb present (i_deps args)).
    - apply available_lazy; [now left|]. split; [exact P'|]. split; [exact D|]. split; [exact L|exact FS].
    - apply missing_optional; [now left| |exact R]. split; [exact P'|]. left. split; [exact D|]. intros e. rewrite FS. discriminate.
  Qed.
  Lemma adds_class n i c w w1 : adds n i c w w1 -> class_of i w1 = Some c.
  Proof. intros (_ & (m & Hn & Hc & Hh) & Hi & _). unfold class_of. rewrite Hh, Hi, list_lookup_middle by reflexivity. cbn. now rewrite Hc. Qed.
  Lemma adds_class_ne n i c w w1 j d : adds n i c w w1 -> class_of j w = Some d -> class_of j w1 = Some d.
  Proof.
    intros (_ & (m & Hn & Hc & Hh) & Hi & _) H. unfold class_of in *. destruct (heap w !! j) as [m'|] eqn:L; [|discriminate].
    rewrite Hh. now rewrite (lookup_app_l_Some _ _ _ _ L).
  Qed.
  Lemma adds_find n i c w w1 d : adds n i c w w1 -> d <> n -> find_spec E d w1 = find_spec E d w \/ (exists j, mods w !! d = Some (EMod j) /\ heap w !! j = None).
  Proof.
    intros (_ & (m & Hn & Hc & Hh) & Hi & Hm & _) D. unfold find_spec. rewrite Hm, lookup_insert_ne by congruence.
    destruct (mods w !! d) as [[|j|]|] eqn:L; auto. rewrite Hh. destruct (heap w !! j) as [m'|] eqn:J; [|right; eauto].
    rewrite (lookup_app_l_Some _ _ _ _ J). auto.
  Qed.
  Lemma adds_dep n i c w w1 : adds n i c w w1 -> modules_exist w -> (forall d, d <> n -> find_spec E d w1 = find_spec E d w) /\ modules_exist w1.
  Proof.
    intros A H. split.
    - intros d D. destruct (adds_find n i c w w1 d A D) as [X|(j & X & Y)]; [exact X|destruct (H d j X Y)].
    - destruct A as (_ & (m & Hn & Hc & Hh) & Hi & Hm & _). intros d j. rewrite Hm, Hh. destruct (decide (d = n)) as [->|D].
      + rewrite lookup_insert. injection 1 as <-. rewrite Hi, list_lookup_middle by reflexivity. discriminate.
      + rewrite lookup_insert_ne by congruence. intros L. specialize (H d j L).
        destruct (heap w !! j) as [m'|] eqn:J; [|congruence]. rewrite (lookup_app_l_Some _ _ _ _ J). discriminate.
  Qed.
  Lemma adds_mods n i c w w1 d : adds n i c w w1 -> d <> n -> mods w1 !! d = mods w !! d.
  Proof. intros (_ & _ & _ & Hm & _) D. rewrite Hm. now rewrite lookup_insert_ne by congruence. Qed.
  Lemma adds_reg n i c w w1 : adds n i c w w1 -> mods w1 !! n = Some (EMod i).
  Proof. intros (_ & _ & _ & Hm & _). rewrite Hm. apply lookup_insert. Qed.
  Lemma attr_state i a p c w : class_of i w = Some (state_of c) ->
    exists h, get_lazy_attribute i a p w = (h, mkw (mods w) (heap w) (lattrs w ++ if c then [mkla i a p VNone] else []) (runs w)) /\
    h = if c then Some (length (lattrs w)) else None.
  Proof.
    intros H. unfold get_lazy_attribute, is_module_invalid. rewrite H. destruct c; cbn; eexists; (split; [|reflexivity]); [reflexivity|].
    rewrite app_nil_r. now destruct w.
  Qed.

  Theorem init_ok w : modules_exist w -> installed E w present -> not_imported E w ->
    let pf := present "fasteners"%string in let pw := present "urllib3"%string && present "packaging"%string in let ph := pw && present "flask"%string in
    exists x w1, package_init E w = (Ok x, w1) /\ runs w1 = runs w /\
    mods w1 = <["syncstream.host"%string := EMod (x_host x)]> (<["syncstream.webtools"%string := EMod (x_webtools x)]> (<["syncstream.file"%string := EMod (x_file x)]> (mods w))) /\
    class_of (x_file x) w1 = Some (state_of pf) /\ class_of (x_webtools x) w1 = Some (state_of pw) /\ class_of (x_host x) w1 = Some (state_of ph) /\
    exported pf (x_file x) "LineFileBuffer" (x_LineFileBuffer x) w1 /\ exported ph (x_host x) "LineHostBuffer" (x_LineHostBuffer x) w1 /\
    exported ph (x_host x) "LineHostMirror" (x_LineHostMirror x) w1 /\ exported ph (x_host x) "LineHostReader" (x_LineHostReader x) w1.
  Proof.
    intros W I N pf pw ph. unfold package_init.
    (* file *)
    destruct (N "syncstream.file"%string) as [Nf Ff]; [cbn; tauto|].
    destruct (import_one file_args w eq_refl eq_refl Nf Ff) as (f & w1 & H1 & A1); [intros d D; apply I; cbn in D |- *; tauto|exact Logic.I|].
    rewrite H1. replace (forallb present (i_deps file_args)) with pf in A1 by (cbn; now rewrite andb_true_r).
    destruct (adds_dep _ _ _ _ _ A1 W) as [D1 W1].
    destruct (attr_state f "LineFileBuffer" "syncstream" pf w1 (adds_class _ _ _ _ _ A1)) as (hf & H2 & Hf). rewrite H2.
    set (w2 := mkw _ _ _ _) in *.
    assert (W2 : modules_exist w2) by exact W1.
    assert (D2 : forall d, d <> "syncstream.file"%string -> find_spec E d w2 = find_spec E d w) by exact D1.
    (* webtools *)
    destruct (N "syncstream.webtools"%string) as [Nw Fw]; [cbn; tauto|].
    destruct (import_one webtools_args w2 eq_refl eq_refl) as (t & w3 & H3 & A3).
    { change (mods w1 !! "syncstream.webtools"%string = None). rewrite (adds_mods _ _ _ _ _ _ A1) by discriminate. exact Nw. }
    { exact Fw. }
    { intros d D. unfold exists_spec. assert (d <> "syncstream.file"%string) by (cbn in D; intros ->; intuition discriminate).
      rewrite D2 by assumption. apply I. cbn in D |- *. tauto. }
    { exact Logic.I. }
    rewrite H3. replace (forallb present (i_deps webtools_args)) with pw in A3 by (cbn; now rewrite andb_true_r).
    destruct (adds_dep _ _ _ _ _ A3 W2) as [D3 W3].
    (* host *)
    destruct (N "syncstream.host"%string) as [Nh Fh]; [cbn; tauto|].
    destruct (import_one host_args w3 eq_refl eq_refl) as (h & w4 & H4 & A4).
    { change (mods w3 !! "syncstream.host"%string = None). rewrite (adds_mods _ _ _ _ _ _ A3) by discriminate.
      change (mods w1 !! "syncstream.host"%string = None). rewrite (adds_mods _ _ _ _ _ _ A1) by discriminate. exact Nh. }
    { exact Fh. }
    { intros d D. unfold exists_spec. assert (d <> "syncstream.file"%string /\ d <> "syncstream.webtools"%string) as [? ?] by (cbn in D; split; intros ->; intuition discriminate).
      rewrite D3, D2 by assumption. apply I. cbn in D |- *. tauto. }
    { constructor; [|constructor]. exists "syncstream.webtools"%string, t. split; [reflexivity|]. exact (adds_reg _ _ _ _ _ A3). }
    rewrite H4. replace (forallb present (i_deps host_args)) with ph in A4 by (cbn; subst ph pw; now rewrite andb_true_r, andb_assoc).
    pose proof (adds_class _ _ _ _ _ A4) as C4.
    destruct (attr_state h "LineHostBuffer" "syncstream" ph w4 C4) as (h1 & H5 & Hh1). rewrite H5. set (w5 := mkw (mods w4) _ _ _) in *.
    destruct (attr_state h "LineHostMirror" "syncstream" ph w5 C4) as (h2 & H6 & Hh2). rewrite H6. set (w6 := mkw (mods w5) _ _ _) in *.
    destruct (attr_state h "LineHostReader" "syncstream" ph w6 C4) as (h3 & H7 & Hh3). rewrite H7. set (w7 := mkw (mods w6) _ _ _) in *.
    eexists. exists w7. split; [reflexivity|].
    pose proof A1 as B1. pose proof A3 as B3. pose proof A4 as B4. destruct A1 as (A11 & A12 & A13 & A14 & A15 & A16). destruct A3 as (A31 & A32 & A33 & A34 & A35 & A36).
    destruct A4 as (A41 & A42 & A43 & A44 & A45 & A46).
    assert (L2 : lattrs w4 = lattrs w ++ (if pf then [mkla f "LineFileBuffer" "syncstream" VNone] else [])).
    { rewrite A45, A35. unfold w2. cbn [lattrs]. now rewrite A15. }
    cbn [x_file x_webtools x_host x_LineFileBuffer x_LineHostBuffer x_LineHostMirror x_LineHostReader].
    split. { change (runs w4 = runs w). rewrite A46, A36. unfold w2. cbn [Lazy.runs]. exact A16. }
    split. { change (mods w4 = <["syncstream.host"%string := EMod h]> (<["syncstream.webtools"%string := EMod t]> (<["syncstream.file"%string := EMod f]> (mods w)))).
      rewrite A44, A34. unfold w2. cbn [mods]. rewrite A14. reflexivity. }
    split. { change (class_of f w4 = Some (state_of pf)). eapply adds_class_ne; [exact B4|]. eapply adds_class_ne; [exact B3|].
      change (class_of f w1 = Some (state_of pf)). exact (adds_class _ _ _ _ _ B1). }
    split. { change (class_of t w4 = Some (state_of pw)). eapply adds_class_ne; [exact B4|]. exact (adds_class _ _ _ _ _ B3). }
    split; [exact C4|].
    assert (X : forall l i (y : lattr), i = length l -> (l ++ [y]) !! i = Some y) by (intros l i y ->; now apply list_lookup_middle).
    subst h1 h2 h3 hf. unfold exported. split; [|split; [|split]].
    - destruct pf; [|reflexivity]. eexists. split; [reflexivity|]. unfold w7, w6, w5. cbn [lattrs]. rewrite L2.
      apply lookup_app_l_Some, lookup_app_l_Some, lookup_app_l_Some. apply X. now rewrite A15.
    - destruct ph; [|reflexivity]. eexists. split; [reflexivity|]. unfold w7, w6, w5. cbn [lattrs].
      apply lookup_app_l_Some, lookup_app_l_Some. now apply X.
    - destruct ph; [|reflexivity]. eexists. split; [reflexivity|]. unfold w7, w6. cbn [lattrs]. apply lookup_app_l_Some. now apply X.
    - destruct ph; [|reflexivity]. eexists. split; [reflexivity|]. unfold w7. cbn [lattrs]. now apply X.
  Qed.
End Init.
