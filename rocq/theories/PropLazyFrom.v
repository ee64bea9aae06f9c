(** * PropLazyFrom: C112 *)
From stdpp Require Import gmap strings.
From Coq Require Import Ascii String.
From Coq Require Import List Bool Arith Lia.
From Verif Require Import Lazy LazySpec LazyProofs LazyFrom LazyFromProofs PropLazy.
Import ListNotations.
Local Open Scope nat_scope.

(** "from M import a" does to the modules what "M.a" does, and gives the same value or the
    same exception, except that AttributeError never comes out of it. *)
Theorem C112_from_state : forall E fuel i a w, snd (from_import E fuel i a w) = snd (getattr E fuel i a w).
Proof. exact from_state. Qed.
Print Assumptions C112_from_state.
Theorem C112_from_value : forall E fuel i a w v,
  fst (getattr E fuel i a w) = Ok v -> fst (from_import E fuel i a w) = Ok (BVal v).
Proof. exact from_value. Qed.
Print Assumptions C112_from_value.
Theorem C112_from_error : forall E fuel i a w e,
  fst (getattr E fuel i a w) = Err e -> e <> AttributeErr -> fst (from_import E fuel i a w) = Err e.
Proof. exact from_error. Qed.
Print Assumptions C112_from_error.
Theorem C112_from_missing : forall E fuel i a w m, fst (getattr E fuel i a w) = Err AttributeErr ->
  heap (snd (getattr E fuel i a w)) !! i = Some m ->
  fst (from_import E fuel i a w) =
    match mods (snd (getattr E fuel i a w)) !! (String.concat "." [m_name m; a]) with
    | Some e => Ok (BEntry e)
    | None => Err ImportErr
    end.
Proof. exact from_missing. Qed.
Print Assumptions C112_from_missing.
Theorem C112_from_never_attribute_error : forall E fuel i a w, fst (from_import E fuel i a w) <> Err AttributeErr.
Proof. exact from_never_attribute_error. Qed.
Print Assumptions C112_from_never_attribute_error.

(** A placeholder, at any later time: importing a name from it raises ImportError and
    changes nothing; importing all names gives none, without an exception. *)
Theorem C112_from_placeholder : forall E fuel fuel' os i a w m, heap w !! i = Some m -> m_class m = CPlaceholder ->
  ~ In a ["__repr__"; "__str__"; "__name__"; "__annotations__"; "__spec__"; "__class__"; "__dict__"; "__doc__"; "__loader__";
          "__package__"; "__getattribute__"; "force_load"; "__all__"; "__file__"; "__path__"]%string ->
  (forall v, ~ has_attr i a v (snd (lrun E fuel os w))) ->
  from_import E fuel' i a (snd (lrun E fuel os w)) = (Err ImportErr, snd (lrun E fuel os w)).
Proof. exact from_placeholder. Qed.
Print Assumptions C112_from_placeholder.
Theorem C112_star_placeholder : forall E fuel fuel' os i w m, heap w !! i = Some m -> m_class m = CPlaceholder ->
  (forall v, ~ has_attr i "__all__" v (snd (lrun E fuel os w))) ->
  star_import E fuel' i (snd (lrun E fuel os w)) = (Ok (Some ∅), snd (lrun E fuel os w)).
Proof. exact star_placeholder. Qed.
Print Assumptions C112_star_placeholder.

(** "from M import *" of a lazy module loads it; without an [__all__] the names that are
    bound are exactly the attributes that the module has afterwards and that do not begin
    with an underscore. *)
Theorem C112_star_loads : forall E fuel i w, class_of i w = Some CLazy ->
  exists c, class_of i (snd (star_import E (S fuel) i w)) = Some c /\ c <> CLazy.
Proof. exact star_loads. Qed.
Print Assumptions C112_star_loads.
Theorem C112_star_names : forall E fuel i w ns, class_of i w <> Some CPlaceholder ->
  (forall v, ~ has_attr i "__all__" v (snd (star_import E fuel i w))) ->
  fst (star_import E fuel i w) = Ok ns ->
  exists g, ns = Some g /\
    forall a v, g !! a = Some v <-> has_attr i a v (snd (star_import E fuel i w)) /\ forall r, a <> String "_"%char r.
Proof. exact star_names. Qed.
Print Assumptions C112_star_names.

(** An exception of the code of the module, other than AttributeError, comes out. *)
Theorem C112_star_error : forall E fuel i w e,
  fst (getattr E fuel i "__all__" w) = Err e -> e <> AttributeErr -> fst (star_import E fuel i w) = Err e.
Proof. exact star_error. Qed.
Print Assumptions C112_star_error.
(** Of a module whose code was started before, also if it raised, "from M import *"
    changes nothing and raises nothing. *)
Theorem C112_star_loaded : forall E fuel i w m, heap w !! i = Some m -> m_class m = CModule \/ m_class m = CLoading ->
  m_attrs m !! "__all__"%string = None ->
  snd (star_import E fuel i w) = w /\ exists g, fst (star_import E fuel i w) = Ok (Some g).
Proof. exact star_loaded. Qed.
Print Assumptions C112_star_loaded.

(** The code of "half" raises AttributeError after its first definition. *)
Definition from_env : penv := mkpenv
  (fun n => if existsb (String.eqb n) ["base"; "half"; "boom"]%string then Found LdGood else NotFound)
  (fun n => if String.eqb n "base" then [SDef "a" (VObj 1); SDef "_b" (VObj 2)]
            else if String.eqb n "half" then [SDef "g" (VObj 3); SUse "base" "zz"; SDef "h" (VObj 4)]
            else if String.eqb n "boom" then [SRaise 7]
            else [])%string.
Definition from_world : world :=
  snd (lrun from_env 5 [LImport (imp "base" true [] RelNone); LImport (imp "half" true [] RelNone);
                        LImport (imp "opt" false [] RelNone); LImport (imp "boom" true [] RelNone)]%string w0).
(** Refuted: an exception of the code of the module comes out of "from M import *" (it is
    lost, and a part of the names is bound). *)
Theorem C112_star_error_refuted : exists E fuel i w g,
  class_of i w = Some CLazy /\ fst (getattr E fuel i "h" w) = Err AttributeErr /\
  In (SDef "h" (VObj 4)) (code E "half") /\
  fst (star_import E fuel i w) = Ok (Some g) /\ g !! "g"%string = Some (VObj 3) /\ g !! "h"%string = None /\
  class_of i (snd (star_import E fuel i w)) = Some CLoading.
Proof.
  exists from_env, 5, 1, from_world. eexists. repeat split; try (vm_compute; reflexivity). simpl. auto.
Qed.
Print Assumptions C112_star_error_refuted.
(** Refuted: importing from a missing optional module always raises ImportError. *)
Theorem C112_star_missing_refuted : exists E fuel i w,
  class_of i w = Some CPlaceholder /\ star_import E fuel i w = (Ok (Some ∅), w).
Proof. exists from_env, 5, 2, from_world. split; vm_compute; reflexivity. Qed.
Print Assumptions C112_star_missing_refuted.

Example C112_case :
  fst (from_import from_env 5 0 "a" from_world) = Ok (BVal (VObj 1)) /\
  fst (from_import from_env 5 0 "c" from_world) = Err ImportErr /\
  fst (from_import from_env 5 1 "h" from_world) = Err ImportErr /\
  fst (from_import from_env 5 2 "a" from_world) = Err ImportErr /\
  fst (from_import from_env 5 3 "a" from_world) = Err (BodyErr 7) /\
  fst (star_import from_env 5 3 from_world) = Err (BodyErr 7) /\
  fst (star_import from_env 5 0 from_world) = Ok (Some {["a"%string := VObj 1]}) /\
  runs (snd (star_import from_env 5 0 from_world)) = [0] /\
  map (fun i => class_of i from_world) [0; 1; 2; 3] = [Some CLazy; Some CLazy; Some CPlaceholder; Some CLazy].
Proof. repeat split; vm_compute; reflexivity. Qed.
(** A submodule that is registered is found though the package has no such attribute. *)
Example C112_submodule_case :
  let w := snd (lrun from_env 5 [LImport (imp "base" true [] RelNone); LPlain "base.sub" ∅]%string w0) in
  fst (from_import from_env 5 0 "sub" w) = Ok (BEntry (EMod 1)) /\ fst (getattr from_env 5 0 "sub" w) = Err AttributeErr.
Proof. split; vm_compute; reflexivity. Qed.
(** A second "import *" of a module whose code raised: no exception, no names. *)
Example C112_again_case :
  let w := snd (star_import from_env 5 3 from_world) in
  class_of 3 w = Some CLoading /\ star_import from_env 5 3 w = (Ok (Some ∅), w).
Proof. split; vm_compute; reflexivity. Qed.
