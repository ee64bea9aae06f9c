(** * LazyFromProofs: proofs of C112 *)
From stdpp Require Import gmap strings.
From Coq Require Import Ascii String.
From Coq Require Import List Bool Arith Lia.
From Verif Require Import Lazy LazySpec LazyProofs LazyFrom.
Import ListNotations.
Local Open Scope nat_scope.

Lemma hidden_spec a : hidden a = false <-> forall r, a <> String "_"%char r.
Proof.
  destruct a as [|c a]; simpl.
  - split; [intros _ r; discriminate|reflexivity].
  - destruct (Ascii.eqb_spec c "_"%char) as [->|Hc]; split.
    + discriminate.
    + intros H. exfalso. apply (H a). reflexivity.
    + intros _ r X. injection X as -> _. contradiction.
    + reflexivity.
Qed.

Section Env.
  Variable E : penv.

  Theorem from_state fuel i a w : snd (from_import E fuel i a w) = snd (getattr E fuel i a w).
  Proof.
    unfold from_import. destruct (getattr E fuel i a w) as [[v|[]] w1]; try reflexivity.
    destruct (heap w1 !! i) as [m|]; [|reflexivity]. destruct (mods w1 !! _); reflexivity.
  Qed.
  Theorem from_value fuel i a w v : fst (getattr E fuel i a w) = Ok v -> fst (from_import E fuel i a w) = Ok (BVal v).
  Proof. unfold from_import. destruct (getattr E fuel i a w) as [r w1]. simpl. intros ->. reflexivity. Qed.
  Theorem from_error fuel i a w e : fst (getattr E fuel i a w) = Err e -> e <> AttributeErr -> fst (from_import E fuel i a w) = Err e.
  Proof. unfold from_import. destruct (getattr E fuel i a w) as [r w1]. simpl. intros -> H. destruct e; try reflexivity. contradiction. Qed.
  Theorem from_missing fuel i a w m : fst (getattr E fuel i a w) = Err AttributeErr ->
    heap (snd (getattr E fuel i a w)) !! i = Some m ->
    fst (from_import E fuel i a w) =
      match mods (snd (getattr E fuel i a w)) !! (String.concat "." [m_name m; a]) with
      | Some e => Ok (BEntry e)
      | None => Err ImportErr
      end.
  Proof.
    unfold from_import. destruct (getattr E fuel i a w) as [r w1]. cbn [fst snd]. intros -> ->.
    change (String.concat "." [m_name m; a]) with (m_name m +:+ "." +:+ a)%string. destruct (mods w1 !! _); reflexivity.
  Qed.
  Theorem from_never_attribute_error fuel i a w : fst (from_import E fuel i a w) <> Err AttributeErr.
  Proof.
    unfold from_import. destruct (getattr E fuel i a w) as [[v|[]] w1]; try discriminate.
    destruct (heap w1 !! i) as [m|]; [|discriminate]. destruct (mods w1 !! _); discriminate.
  Qed.

  (** Placeholders, at any later time. *)
  Lemma later_placeholder fuel os i m w : heap w !! i = Some m -> m_class m = CPlaceholder ->
    exists m', heap (snd (lrun E fuel os w)) !! i = Some m' /\ m_class m' = CPlaceholder /\ m_name m' = m_name m.
  Proof.
    intros Hm Hc. destruct (ext_heap _ _ (lrun_ext E fuel os w) i m Hm) as (m2 & Hm2 & N & C & _). exists m2.
    split; [exact Hm2|]. split; [|exact N]. unfold cl_le in C. rewrite Hc in C. intuition (try discriminate; auto).
  Qed.
  Theorem from_placeholder fuel fuel' os i a w m : heap w !! i = Some m -> m_class m = CPlaceholder ->
    ~ In a ["__repr__"; "__str__"; "__name__"; "__annotations__"; "__spec__"; "__class__"; "__dict__"; "__doc__"; "__loader__";
            "__package__"; "__getattribute__"; "force_load"; "__all__"; "__file__"; "__path__"]%string ->
    (forall v, ~ has_attr i a v (snd (lrun E fuel os w))) ->
    from_import E fuel' i a (snd (lrun E fuel os w)) = (Err ImportErr, snd (lrun E fuel os w)).
  Proof.
    intros Hm Hc Ha Hv. destruct (later_placeholder fuel os i m w Hm Hc) as (m' & Hm' & Hc' & _).
    set (w' := snd (lrun E fuel os w)) in *. clearbody w'.
    assert (Hn : m_attrs m' !! a = None).
    { destruct (m_attrs m' !! a) as [v|] eqn:Ev; [|reflexivity]. exfalso. apply (Hv v). exists m'. auto. }
    assert (Hq : forall l, (forall x, In x l -> In x ["__repr__"; "__str__"; "__name__"; "__annotations__"; "__spec__"; "__class__"; "__dict__"; "__doc__"; "__loader__";
            "__package__"; "__getattribute__"; "force_load"; "__all__"; "__file__"; "__path__"]%string) -> existsb (String.eqb a) l = false).
    { intros l Hl. destruct (existsb (String.eqb a) l) eqn:Ee; [|reflexivity]. apply existsb_exists in Ee. destruct Ee as (x & Hx & Ex).
      apply String.eqb_eq in Ex. subst x. exfalso. apply Ha, Hl, Hx. }
    unfold from_import, getattr, getattr_with. rewrite Hm', Hc'. unfold placeholder_attr, provided. rewrite Hn.
    rewrite (Hq ["__repr__"; "__str__"; "__name__"; "__annotations__"; "__spec__"; "__class__"; "__dict__";
                            "__doc__"; "__loader__"; "__package__"; "__getattribute__"]%string) by (intros x; simpl; tauto).
    rewrite (Hq ["force_load"; "__all__"; "__file__"]%string) by (intros x; simpl; tauto).
    destruct (String.eqb_spec a "__path__") as [->|_]; [exfalso; apply Ha; simpl; tauto|]. reflexivity.
  Qed.
  Theorem star_placeholder fuel fuel' os i w m : heap w !! i = Some m -> m_class m = CPlaceholder ->
    (forall v, ~ has_attr i "__all__" v (snd (lrun E fuel os w))) ->
    star_import E fuel' i (snd (lrun E fuel os w)) = (Ok (Some ∅), snd (lrun E fuel os w)).
  Proof.
    intros Hm Hc Hv. destruct (later_placeholder fuel os i m w Hm Hc) as (m' & Hm' & Hc' & _).
    set (w' := snd (lrun E fuel os w)) in *. clearbody w'.
    assert (Hn : m_attrs m' !! "__all__"%string = None).
    { destruct (m_attrs m' !! "__all__"%string) as [v|] eqn:Ev; [|reflexivity]. exfalso. apply (Hv v). exists m'. auto. }
    unfold star_import, getattr, getattr_with. rewrite Hm', Hc'. unfold placeholder_attr. rewrite Hn. reflexivity.
  Qed.

  Theorem star_state fuel i w : snd (star_import E fuel i w) = snd (getattr E fuel i "__all__" w).
  Proof.
    unfold star_import. destruct (getattr E fuel i "__all__" w) as [[[| |]|[]] w1]; try reflexivity.
    destruct (heap w1 !! i); reflexivity.
  Qed.
  Theorem star_loads fuel i w : class_of i w = Some CLazy ->
    exists c, class_of i (snd (star_import E (S fuel) i w)) = Some c /\ c <> CLazy.
  Proof. intros H. rewrite star_state. apply access_loads; [exact H|]. split; [discriminate|reflexivity]. Qed.
  (** The names that are bound are the public attributes that the module has at the end. *)
  Lemma getattr_all fuel i w v : fst (getattr E fuel i "__all__" w) = Ok v -> class_of i w <> Some CPlaceholder ->
    has_attr i "__all__" v (snd (getattr E fuel i "__all__" w)).
  Proof.
    intros H Hc. unfold getattr, getattr_with in *. destruct (heap w !! i) as [m|] eqn:Hm; [|discriminate].
    assert (P : forall m', fst (plain_attr m' "__all__", w) = Ok v -> m_attrs m' !! "__all__"%string = Some v).
    { intros m'. unfold plain_attr. destruct (m_attrs m' !! "__all__"%string) as [v'|]; simpl; [intros X; injection X as ->; reflexivity|discriminate]. }
    destruct (m_class m) eqn:Ec.
    - change (String.eqb "__all__" "__path__") with false in *. change (protected "__all__") with false in *. cbv iota zeta in *.
      destruct (load E fuel i (load_deps (length (heap w)) i w)) as [[u|e] w2]; [|discriminate].
      destruct (heap w2 !! i) as [m2|] eqn:H2; [|discriminate]. exists m2. split; [exact H2|apply P, H].
    - exists m. split; [exact Hm|apply P, H].
    - exists m. split; [exact Hm|apply P, H].
    - exfalso. apply Hc. unfold class_of. rewrite Hm. simpl. rewrite Ec. reflexivity.
  Qed.
  Theorem star_names fuel i w ns : class_of i w <> Some CPlaceholder ->
    (forall v, ~ has_attr i "__all__" v (snd (star_import E fuel i w))) ->
    fst (star_import E fuel i w) = Ok ns ->
    exists g, ns = Some g /\
      forall a v, g !! a = Some v <-> has_attr i a v (snd (star_import E fuel i w)) /\ forall r, a <> String "_"%char r.
  Proof.
    intros Hc Hv H. rewrite star_state in Hv |- *. unfold star_import in H.
    destruct (getattr E fuel i "__all__" w) as [r w1] eqn:Eg. cbn [snd] in *.
    destruct r as [v|e].
    { exfalso. apply (Hv v). pose proof (getattr_all fuel i w v) as G. rewrite Eg in G. exact (G eq_refl Hc). }
    destruct e; try discriminate. destruct (heap w1 !! i) as [m|] eqn:Hm; [|discriminate]. injection H as <-.
    eexists. split; [reflexivity|]. intros a v. rewrite map_filter_lookup_Some. cbn [fst]. rewrite hidden_spec. unfold has_attr.
    split; intros [H1 H2]; (split; [|exact H2]).
    - exists m. auto.
    - destruct H1 as (m' & Hm' & H1). rewrite Hm in Hm'. injection Hm' as <-. exact H1.
  Qed.
  Theorem star_error fuel i w e : fst (getattr E fuel i "__all__" w) = Err e -> e <> AttributeErr -> fst (star_import E fuel i w) = Err e.
  Proof. unfold star_import. destruct (getattr E fuel i "__all__" w) as [r w1]. simpl. intros -> H. destruct e; try reflexivity. contradiction. Qed.
  (** A module whose code was started before. *)
  Theorem star_loaded fuel i w m : heap w !! i = Some m -> m_class m = CModule \/ m_class m = CLoading ->
    m_attrs m !! "__all__"%string = None ->
    snd (star_import E fuel i w) = w /\ exists g, fst (star_import E fuel i w) = Ok (Some g).
  Proof.
    intros Hm Hc Hn. unfold star_import, getattr, getattr_with. rewrite Hm.
    destruct Hc as [-> | ->]; unfold plain_attr; rewrite Hn; change (provided "__all__") with false; cbv iota;
      rewrite Hm; (split; [reflexivity|eexists; reflexivity]).
  Qed.
End Env.
