(** * PropLazyRepr: C111 *)
From stdpp Require Import gmap strings.
From Coq Require Import String.
From Coq Require Import List Bool Arith Lia.
From Verif Require Import Lazy LazySpec LazyProofs LazyRepr LazyReprProofs PropLazy.
Import ListNotations.
Local Open Scope nat_scope.

(** Showing a module object or a lazy attribute has no effect: no code runs, no module is
    loaded, no attribute is set; in every state. *)
Theorem C111_module_no_effect : forall E origin fuel i w,
  (forall m, heap w !! i = Some m -> m_class m = CLazy -> m_attrs m !! "__spec__"%string <> Some VNone) ->
  snd (mod_repr E origin fuel i w) = w.
Proof. exact module_no_effect. Qed.
Print Assumptions C111_module_no_effect.
Theorem C111_attribute_no_effect : forall E fuel j w, snd (attr_repr E fuel j w) = w.
Proof. exact attr_no_effect. Qed.
Print Assumptions C111_attribute_no_effect.

(** The texts. *)
Theorem C111_module_text : forall E origin fuel i w m, heap w !! i = Some m ->
  m_attrs m !! "__spec__"%string = None -> m_attrs m !! "__name__"%string = None ->
  fst (mod_repr E origin fuel i w) =
    Ok (match m_class m with
        | CLazy => Some (String.concat "" ["<LazyModule "; m_name m; " from """; origin (m_name m); """>"])
        | CPlaceholder => Some (String.concat "" ["<ModulePlaceholder "; m_name m; ">"])
        | CModule | CLoading => None
        end)%string.
Proof. exact module_text. Qed.
Print Assumptions C111_module_text.
(** A placeholder shows itself as one at any later time. *)
Theorem C111_placeholder_text : forall E origin fuel fuel' os i w m m', heap w !! i = Some m -> m_class m = CPlaceholder ->
  heap (snd (lrun E fuel os w)) !! i = Some m' -> m_attrs m' !! "__name__"%string = None ->
  mod_repr E origin fuel' i (snd (lrun E fuel os w)) =
    (Ok (Some (String.concat "" ["<ModulePlaceholder "; m_name m; ">"]%string)), snd (lrun E fuel os w)).
Proof. exact placeholder_stays. Qed.
Print Assumptions C111_placeholder_text.
(** After an access that loads it, a module never shows itself as lazy again, whatever is
    done in between. *)
Theorem C111_accessed_not_lazy : forall E origin fuel fuel' os i a w, class_of i w = Some CLazy -> loads a ->
  forall m n, heap (snd (lrun E (S fuel) (LGet i a :: os) w)) !! i = Some m ->
    m_attrs m !! "__spec__"%string = None -> m_attrs m !! "__name__"%string = None ->
    fst (mod_repr E origin fuel' i (snd (lrun E (S fuel) (LGet i a :: os) w))) <>
      Ok (Some (String.concat "" ["<LazyModule "; n; " from """; origin n; """>"]))%string.
Proof. exact accessed_not_lazy. Qed.
Print Assumptions C111_accessed_not_lazy.
(** The text of a lazy attribute is the same at any later time, also after it was used. *)
Theorem C111_attribute_text : forall E fuel fuel' os j w l m m', lattrs w !! j = Some l -> heap w !! la_mod l = Some m ->
  heap (snd (lrun E fuel os w)) !! la_mod l = Some m' -> m_attrs m' !! "__name__"%string = None ->
  fst (attr_repr E fuel' j (snd (lrun E fuel os w))) =
    Ok (Some (String.concat "" ["<LazyAttribute "; la_attr l; " from """; m_name m; """>"]))%string.
Proof. exact attr_text_stays. Qed.
Print Assumptions C111_attribute_text.

(** With [__spec__] set to None, showing a lazy module runs its code. *)
Theorem C111_no_spec_refuted : exists E origin fuel i w,
  class_of i w = Some CLazy /\ runs w = [] /\ runs (snd (mod_repr E origin fuel i w)) = [i].
Proof.
  exists ex_env, (fun n => n), 5, 0, (snd (lrun ex_env 5 [LImport (imp "base" true [] RelNone); LSet 0 "__spec__" VNone]%string w0)).
  repeat split; vm_compute; reflexivity.
Qed.
Print Assumptions C111_no_spec_refuted.

(** A lazy module, a placeholder and a lazy attribute, before and after the attribute is used. *)
Definition ex_shown : list lop :=
  [LImport (imp "base" true [] RelNone); LImport (imp "opt" false [] RelNone); LPlain "top" ∅; LAttr 0 "a" "top"]%string.
Definition shown (os : list lop) : list (res (option string)) :=
  let w := snd (lrun ex_env 5 os w0) in
  [fst (mod_repr ex_env (fun n => n +:+ ".py")%string 5 0 w); fst (mod_repr ex_env (fun n => n +:+ ".py")%string 5 1 w); fst (attr_repr ex_env 5 0 w)].
Example C111_case :
  shown ex_shown = [Ok (Some "<LazyModule base from ""base.py"">"); Ok (Some "<ModulePlaceholder opt>"); Ok (Some "<LazyAttribute a from ""base"">")]%string /\
  shown (ex_shown ++ [LUse 0]) = [Ok None; Ok (Some "<ModulePlaceholder opt>"); Ok (Some "<LazyAttribute a from ""base"">")]%string /\
  runs_of (ex_shown ++ [LUse 0]) = [0] /\ loads "a" /\
  class_of 0 (snd (lrun ex_env 5 ex_shown w0)) = Some CLazy.
Proof. repeat split; try (vm_compute; reflexivity). discriminate. Qed.
