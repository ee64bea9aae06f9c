(** * LazyReprProofs: proofs of C111 *)
From stdpp Require Import gmap strings.
From Coq Require Import String.
From Coq Require Import List Bool Arith Lia.
From Verif Require Import Lazy LazySpec LazyProofs LazyRepr.
Import ListNotations.
Local Open Scope nat_scope.

Section Env.
  Variable E : penv.
  Variable origin : string -> string.

  (** A look-up of a protected name changes nothing, in every class. *)
  Lemma getattr_protected fuel i a w : protected a = true -> snd (getattr E fuel i a w) = w.
  Proof.
    intros Hp. unfold getattr, getattr_with. destruct (heap w !! i) as [m|]; [|reflexivity].
    destruct (m_class m); try reflexivity.
    destruct (String.eqb_spec a "__path__") as [Ha|_]; [reflexivity|]. rewrite Hp. reflexivity.
  Qed.
  Lemma getattr_meta fuel i a m w : protected a = true -> provided a = true -> heap w !! i = Some m -> m_attrs m !! a = None ->
    getattr E fuel i a w = (Ok VMeta, w).
  Proof.
    intros Hp Hv Hm Ha. assert (Hq : String.eqb a "__path__" = false).
    { destruct (String.eqb_spec a "__path__") as [->|]; [discriminate|reflexivity]. }
    unfold getattr, getattr_with. rewrite Hm. unfold plain_attr, placeholder_attr. rewrite Ha, Hp, Hv, Hq.
    destruct (m_class m); reflexivity.
  Qed.

  Theorem module_no_effect fuel i w :
    (forall m, heap w !! i = Some m -> m_class m = CLazy -> m_attrs m !! "__spec__"%string <> Some VNone) ->
    snd (mod_repr E origin fuel i w) = w.
  Proof.
    intros Hs. unfold mod_repr. destruct (heap w !! i) as [m|] eqn:Hm; [|reflexivity]. specialize (Hs m eq_refl).
    destruct (m_class m) eqn:Hc; try reflexivity.
    - specialize (Hs eq_refl).
      assert (Hg : getattr E fuel i "__spec__" w = (Ok (match m_attrs m !! "__spec__"%string with Some v => v | None => VMeta end), w)).
      { unfold getattr, getattr_with. rewrite Hm, Hc. reflexivity. }
      rewrite Hg. destruct (m_attrs m !! "__spec__"%string) as [[| |]|]; try reflexivity. contradiction.
    - destruct (m_attrs m !! "__name__"%string); reflexivity.
  Qed.
  Theorem attr_no_effect fuel j w : snd (attr_repr E fuel j w) = w.
  Proof.
    unfold attr_repr. destruct (lattrs w !! j) as [l|]; [|reflexivity].
    pose proof (getattr_protected fuel (la_mod l) "__name__" w eq_refl) as H.
    destruct (getattr E fuel (la_mod l) "__name__" w) as [[[| |]|e] w1]; exact H.
  Qed.

  Theorem module_text fuel i w m : heap w !! i = Some m ->
    m_attrs m !! "__spec__"%string = None -> m_attrs m !! "__name__"%string = None ->
    fst (mod_repr E origin fuel i w) =
      Ok (match m_class m with
          | CLazy => Some (String.concat "" ["<LazyModule "; m_name m; " from """; origin (m_name m); """>"])
          | CPlaceholder => Some (String.concat "" ["<ModulePlaceholder "; m_name m; ">"])
          | CModule | CLoading => None
          end)%string.
  Proof.
    intros Hm Hs Hn. unfold mod_repr. rewrite Hm. destruct (m_class m) eqn:Hc; try reflexivity.
    - rewrite (getattr_meta fuel i "__spec__" m w eq_refl eq_refl Hm Hs). reflexivity.
    - rewrite Hn. reflexivity.
  Qed.
  Theorem attr_text fuel j w l m : lattrs w !! j = Some l -> heap w !! la_mod l = Some m -> m_attrs m !! "__name__"%string = None ->
    fst (attr_repr E fuel j w) = Ok (Some (String.concat "" ["<LazyAttribute "; la_attr l; " from """; m_name m; """>"]))%string.
  Proof.
    intros Hl Hm Hn. unfold attr_repr. rewrite Hl, (getattr_meta fuel (la_mod l) "__name__" m w eq_refl eq_refl Hm Hn), Hm. reflexivity.
  Qed.

  (** The text of a lazy attribute stays, whatever is done, also after it was loaded. *)
  Theorem attr_text_stays fuel fuel' os j w l m m' : lattrs w !! j = Some l -> heap w !! la_mod l = Some m ->
    heap (snd (lrun E fuel os w)) !! la_mod l = Some m' -> m_attrs m' !! "__name__"%string = None ->
    fst (attr_repr E fuel' j (snd (lrun E fuel os w))) =
      Ok (Some (String.concat "" ["<LazyAttribute "; la_attr l; " from """; m_name m; """>"]))%string.
  Proof.
    intros Hl Hm Hm' Hn. pose proof (lrun_ext E fuel os w) as X.
    destruct (ext_la _ _ X j l Hl) as (l' & Hl' & A & B & _).
    destruct (ext_heap _ _ X _ m Hm) as (m2 & Hm2 & N & _). rewrite Hm' in Hm2. injection Hm2 as <-.
    rewrite <- A in Hm'. rewrite (attr_text fuel' j _ l' m' Hl' Hm' Hn), B, N. reflexivity.
  Qed.
  (** Once an access has loaded a module, it never again shows itself as lazy. *)
  Theorem loaded_not_lazy fuel fuel' os i c w : class_of i w = Some c -> c <> CLazy ->
    forall m n, heap (snd (lrun E fuel os w)) !! i = Some m ->
      m_attrs m !! "__spec__"%string = None -> m_attrs m !! "__name__"%string = None ->
      fst (mod_repr E origin fuel' i (snd (lrun E fuel os w))) <>
        Ok (Some (String.concat "" ["<LazyModule "; n; " from """; origin n; """>"]))%string.
  Proof.
    intros H Hc m n Hm Hs Hn. rewrite (module_text fuel' i _ m Hm Hs Hn).
    destruct (class_not_lazy E fuel os i c w Hc H) as (c' & Hc' & Hne). unfold class_of in Hc'. rewrite Hm in Hc'. injection Hc' as Hc'.
    rewrite Hc'. destruct c'; [contradiction|discriminate|discriminate|]. cbn [String.concat]. intros X. injection X as X. discriminate X.
  Qed.
  Theorem accessed_not_lazy fuel fuel' os i a w : class_of i w = Some CLazy -> loads a ->
    forall m n, heap (snd (lrun E (S fuel) (LGet i a :: os) w)) !! i = Some m ->
      m_attrs m !! "__spec__"%string = None -> m_attrs m !! "__name__"%string = None ->
      fst (mod_repr E origin fuel' i (snd (lrun E (S fuel) (LGet i a :: os) w))) <>
        Ok (Some (String.concat "" ["<LazyModule "; n; " from """; origin n; """>"]))%string.
  Proof.
    intros Hc Ha. destruct (access_loads E fuel i a w Hc Ha) as (c & Hc' & Hne).
    assert (Hr : snd (lrun E (S fuel) (LGet i a :: os) w) = snd (lrun E (S fuel) os (snd (getattr E (S fuel) i a w)))).
    { change (lrun E (S fuel) (LGet i a :: os) w) with
        (let '(r, w1) := lstep E (S fuel) (LGet i a) w in let '(rs, w2) := lrun E (S fuel) os w1 in (r :: rs, w2)).
      unfold lstep, as_lout. destruct (lrun E (S fuel) os (snd (getattr E (S fuel) i a w))) as [rs w2]. reflexivity. }
    rewrite Hr. exact (loaded_not_lazy (S fuel) fuel' os i c _ Hc' Hne).
  Qed.
  Theorem placeholder_stays fuel fuel' os i w m m' : heap w !! i = Some m -> m_class m = CPlaceholder ->
    heap (snd (lrun E fuel os w)) !! i = Some m' -> m_attrs m' !! "__name__"%string = None ->
    mod_repr E origin fuel' i (snd (lrun E fuel os w)) =
      (Ok (Some (String.concat "" ["<ModulePlaceholder "; m_name m; ">"]%string)), snd (lrun E fuel os w)).
  Proof.
    intros Hm Hc Hm' Hn. destruct (ext_heap _ _ (lrun_ext E fuel os w) i m Hm) as (m2 & Hm2 & N & C & _).
    rewrite Hm' in Hm2. injection Hm2 as <-.
    assert (Hc' : m_class m' = CPlaceholder) by (unfold cl_le in C; rewrite Hc in C; intuition (try discriminate; auto)).
    unfold mod_repr. rewrite Hm', Hc', Hn, N. reflexivity.
  Qed.
End Env.
