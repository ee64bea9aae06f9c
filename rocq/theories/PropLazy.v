(** * PropLazy: C61, C62, C63, C72, C73, C74 *)
From stdpp Require Import gmap strings.
From Coq Require Import String.
From Coq Require Import List Bool Arith Lia.
From Verif Require Import Lazy LazySpec LazyProofs LazyFuel.
Import ListNotations.
Local Open Scope nat_scope.

(** ** An example *)
(** "util" uses "base" when it is run, "bad" needs a module that somebody has to import
    before, "opt" cannot be found. *)
Definition ex_env : penv := mkpenv
  (fun n => if existsb (String.eqb n) ["base"; "util"; "bad"; "pkg"]%string then Found LdGood else NotFound)
  (fun n => if String.eqb n "base" then [SDef "a" (VObj 1); SDef "n" VNone]
            else if String.eqb n "util" then [SUse "base" "a"; SDef "f" (VObj 2)]
            else if String.eqb n "bad" then [SUse "later" "x"; SDef "g" (VObj 3)]
            else [])%string.
Definition w0 : world := mkw ∅ [] [] [].
Definition imp (n : string) (req : bool) (deps : list string) (rel : relarg) : iargs := mkargs n None req deps rel.
Definition run_of (os : list lop) : list (res lout) := fst (lrun ex_env 5 os w0).
Definition runs_of (os : list lop) : list nat := runs (snd (lrun ex_env 5 os w0)).

(** ** C61 *)
(** After a successful lazy_import, every call for the same full name, at any later time and
    with whatever arguments, gives the same object and changes nothing. *)
Theorem C61_same_module : forall E fuel args args' os w i w1,
  lazy_import E args w = (Ok i, w1) -> full_name args' = full_name args ->
  lazy_import E args' (snd (lrun E fuel os w1)) = (Ok i, snd (lrun E fuel os w1)).
Proof. exact same_module. Qed.
Print Assumptions C61_same_module.
(** lazy_import runs no code and touches neither existing modules nor lazy attributes. *)
Theorem C61_no_code : forall E args w,
  runs (snd (lazy_import E args w)) = runs w /\ lattrs (snd (lazy_import E args w)) = lattrs w /\
  forall i m, heap w !! i = Some m -> heap (snd (lazy_import E args w)) !! i = Some m.
Proof. exact import_runs_nothing. Qed.
Print Assumptions C61_no_code.
Example C61_case :
  run_of [LImport (imp "base" true [] RelNone); LGet 0 "a"; LPlain "x" ∅; LImport (imp "base" false ["nowhere"] RelStr); LImport (imp "util" false [] RelNone)]%string
  = [Ok (LMod 0); Ok (LVal (VObj 1)); Ok LUnit; Ok (LMod 0); Ok (LMod 2)].
Proof. vm_compute. reflexivity. Qed.

(** ** C62 *)
Theorem C62_required : forall E args w, unregistered (full_name args) w -> missing E args w -> i_required args = true ->
  lazy_import E args w = (Err ModuleNotFound, w).
Proof. exact missing_required. Qed.
Print Assumptions C62_required.
Theorem C62_optional : forall E args w, unregistered (full_name args) w -> missing E args w -> i_required args = false ->
  exists i w1, lazy_import E args w = (Ok i, w1) /\ adds (full_name args) i CPlaceholder w w1.
Proof. exact missing_optional. Qed.
Print Assumptions C62_optional.
Theorem C62_available : forall E args w, unregistered (full_name args) w -> available E args w ->
  exists i w1, lazy_import E args w = (Ok i, w1) /\ adds (full_name args) i CLazy w w1.
Proof. exact available_lazy. Qed.
Print Assumptions C62_available.
(** get_lazy_attribute gives None for placeholders and an object for the others, at any time. *)
Theorem C62_attribute_of_placeholder : forall E fuel os i a parent w, class_of i w = Some CPlaceholder ->
  get_lazy_attribute i a parent (snd (lrun E fuel os w)) = (None, snd (lrun E fuel os w)).
Proof. exact attribute_of_placeholder. Qed.
Print Assumptions C62_attribute_of_placeholder.
Theorem C62_attribute_of_module : forall E fuel os i a parent c w, class_of i w = Some c -> c <> CPlaceholder ->
  exists j, fst (get_lazy_attribute i a parent (snd (lrun E fuel os w))) = Some j.
Proof. exact attribute_of_module. Qed.
Print Assumptions C62_attribute_of_module.
(** The docstring says that required=True raises if the module cannot be found. *)
Theorem C62_required_refuted : exists E args args' w,
  missing E args' w /\ i_required args' = true /\ full_name args' = full_name args /\
  (forall l, finder E (full_name args') <> Found l) /\
  exists i w1, lazy_import E args w = (Ok i, w1) /\ lazy_import E args' w1 = (Ok i, w1) /\ class_of i w1 = Some CPlaceholder.
Proof.
  exists ex_env, (imp "opt" false [] RelNone), (imp "opt" true [] RelNone), w0. split.
  { split; [discriminate|]. right. split; [constructor|]. split; [exact I|]. reflexivity. }
  split; [reflexivity|]. split; [reflexivity|]. split; [intros l; discriminate|]. eexists. eexists. split; [reflexivity|].
  split; [apply lazy_import_again; apply lookup_insert|reflexivity].
Qed.
Print Assumptions C62_required_refuted.
Example C62_case :
  run_of [LImport (imp "opt" true [] RelNone); LImport (imp "opt" false [] RelNone); LAttr 0 "f" "pkg"; LGet 0 "f";
          LImport (imp "util" true ["base"; "nowhere"] RelNone); LImport (imp "util" true ["base"] RelNone); LAttr 1 "f" "pkg"]%string
  = [Err ModuleNotFound; Ok (LMod 0); Ok (LHandle None); Err ImportErr; Err ModuleNotFound; Ok (LMod 1); Ok (LHandle (Some 0))].
Proof. vm_compute. reflexivity. Qed.
Example C62_hypotheses : missing ex_env (imp "util" true ["base"; "nowhere"]%string RelNone) w0 /\ unregistered "util" w0 /\
  available ex_env (imp "util" true ["base"]%string RelNone) w0.
Proof.
  split; [|split; [left; reflexivity|]].
  - split; [discriminate|]. left. split; [|intros e; discriminate]. exists ["base"%string], "nowhere"%string, []. split; [reflexivity|].
    split; [|reflexivity]. constructor; [exists LdGood; reflexivity|constructor].
  - split; [discriminate|]. split; [constructor; [exists LdGood; reflexivity|constructor]|]. split; [exact I|reflexivity].
Qed.

(** ** C63 *)
(** Whatever the program does, no code of a module is run twice. *)
Theorem C63_once : forall E fuel os w, started w -> List.NoDup (runs (snd (lrun E fuel os w))).
Proof. exact run_once. Qed.
Print Assumptions C63_once.
(** Once a use of a lazy attribute has given an object, every later use gives this object
    and changes nothing. *)
Theorem C63_same_value : forall E fuel fuel' fuel'' os j v w w1, load_module E fuel j w = (Ok v, w1) -> v <> VNone ->
  load_module E fuel'' j (snd (lrun E fuel' os w1)) = (Ok v, snd (lrun E fuel' os w1)).
Proof. exact same_value. Qed.
Print Assumptions C63_same_value.
(** The first use gives the attribute of the module and stores it in the parent module. *)
Theorem C63_first_use : forall E fuel j l v w w1, lattrs w !! j = Some l -> la_obj l = VNone -> load_module E fuel j w = (Ok v, w1) ->
  lattrs w1 !! j = Some (mkla (la_mod l) (la_attr l) (la_parent l) v) /\
  (exists m, heap w1 !! la_mod l = Some m /\ answers m (la_attr l) (Ok v)) /\
  (forall p, mods w1 !! la_parent l = Some (EMod p) -> (exists m, heap w1 !! p = Some m) -> has_attr p (la_attr l) v w1) /\
  mods w1 !! la_parent l <> None.
Proof. exact load_module_first. Qed.
Print Assumptions C63_first_use.
(** The bound on the recursion is no restriction, if the code of the modules imports the
    names of some list only. *)
Theorem C63_fuel : forall E N, (forall n args, In (SLazy args) (code E n) -> In (full_name args) N) ->
  (forall n, finder E n <> FindRaises NoFuel) ->
  forall fuel os w, fuel_bound N w + length os <= fuel -> ~ In (Err NoFuel) (fst (lrun E fuel os w)).
Proof. exact fuel_enough. Qed.
Print Assumptions C63_fuel.
(** An attribute whose value is None is looked up again at every use. *)
Theorem C63_none_refuted : exists E fuel j w v v' os, fst (load_module E fuel j w) = Ok v /\
  fst (load_module E fuel j (snd (lrun E fuel os (snd (load_module E fuel j w))))) = Ok v' /\ v <> v'.
Proof.
  exists ex_env, 5, 0, (snd (lrun ex_env 5 [LImport (imp "base" true [] RelNone); LPlain "pkg" ∅; LAttr 0 "n" "pkg"]%string w0)),
    VNone, (VObj 7), [LSet 0 "n"%string (VObj 7)].
  split; [vm_compute; reflexivity|]. split; [vm_compute; reflexivity|discriminate].
Qed.
Print Assumptions C63_none_refuted.
Example C63_case :
  let os := [LPlain "pkg" ∅; LImport (imp "base" true [] RelNone); LImport (imp "util" true [] RelNone); LAttr 2 "f" "pkg"; LUse 0; LUse 0; LGet 0 "f"; LGet 1 "a"]%string in
  run_of os = [Ok LUnit; Ok (LMod 1); Ok (LMod 2); Ok (LHandle (Some 0)); Ok (LVal (VObj 2)); Ok (LVal (VObj 2)); Ok (LVal (VObj 2)); Ok (LVal (VObj 1))] /\
  runs_of os = [2; 1] /\ started w0.
Proof. vm_compute. repeat split; reflexivity. Qed.
Example C63_fuel_case : (forall n args, In (SLazy args) (code ex_env n) -> In (full_name args) []) /\ (forall n, finder ex_env n <> FindRaises NoFuel) /\ fuel_bound [] w0 = 0.
Proof.
  split; [|split; [|reflexivity]].
  - intros n args. cbn. destruct (String.eqb n "base"); [cbn; intuition discriminate|]. destruct (String.eqb n "util"); [cbn; intuition discriminate|].
    destruct (String.eqb n "bad"); cbn; intuition discriminate.
  - intros n. cbn. destruct (_ || _); discriminate.
Qed.

(** ** C72 *)
(** A dependency for which a placeholder is registered: ValueError, also with
    required=False, instead of a placeholder. *)
Theorem C72_placeholder_dependency : forall E fuel args args' os a b w i w1, unregistered (full_name args) w ->
  lazy_import E args w = (Ok i, w1) -> class_of i w1 = Some CPlaceholder ->
  let w2 := snd (lrun E fuel os w1) in
  unregistered (full_name args') w2 -> i_deps args' = a ++ full_name args :: b -> Forall (fun d => exists_spec E d w2) a ->
  lazy_import E args' w2 = (Err ValueErr, w2).
Proof. exact placeholder_dependency. Qed.
Print Assumptions C72_placeholder_dependency.
Example C72_case :
  run_of [LImport (imp "util" false ["base"; "opt"] RelNone); LImport (imp "opt" false [] RelNone); LImport (imp "bad" false ["base"; "opt"] RelNone)]%string
  = [Ok (LMod 0); Ok (LMod 1); Err ValueErr].
Proof. vm_compute. reflexivity. Qed.

(** ** C73 *)
(** After the first access of a lazy module (that is not to one of the protected names),
    whether its code raised or not, every later access is a plain lookup in what the code
    has defined so far; nothing is run again. *)
Theorem C73_plain_afterwards : forall E fuel fuel' fuel'' i a a' os w, class_of i w = Some CLazy -> loads a ->
  let w2 := snd (lrun E fuel' os (snd (getattr E (S fuel) i a w))) in
  exists m, heap w2 !! i = Some m /\ snd (getattr E fuel'' i a' w2) = w2 /\ answers m a' (fst (getattr E fuel'' i a' w2)).
Proof. exact accessed_then_plain. Qed.
Print Assumptions C73_plain_afterwards.
(** So a module whose code failed once stays unusable, though its code would succeed now. *)
Theorem C73_retry_refuted : exists E fuel args a o e v w,
  fst (lrun E fuel [LImport args; LGet 0 a; o; LGet 0 a] w) = [Ok (LMod 0); Err e; Ok LUnit; Err AttributeErr] /\
  fst (lrun E fuel [LImport args; o; LGet 0 a] w) = [Ok (LMod 0); Ok LUnit; Ok (LVal v)].
Proof.
  exists ex_env, 5, (imp "bad" true [] RelNone), "g"%string, (LPlain "later"%string {["x"%string := VObj 0]}), ModuleNotFound, (VObj 3), w0.
  split; vm_compute; reflexivity.
Qed.
Print Assumptions C73_retry_refuted.
Example C73_case : class_of 0 (snd (lazy_import ex_env (imp "bad" true [] RelNone) w0)) = Some CLazy /\ loads "g".
Proof. split; [reflexivity|]. split; [discriminate|reflexivity]. Qed.

(** ** C74 *)
(** The first access of a module whose code only defines attributes runs the code of this
    module and of no other: the modules of rel_dependencies are not loaded. *)
Theorem C74_not_loaded : forall E fuel i a m w, heap w !! i = Some m -> m_class m = CLazy -> loads a -> only_defs (code E (m_name m)) ->
  runs (snd (getattr E (S fuel) i a w)) = runs w ++ [i] /\
  forall j, j <> i -> class_of j (snd (getattr E (S fuel) i a w)) = class_of j w.
Proof. exact rel_not_loaded. Qed.
Print Assumptions C74_not_loaded.
(** The docstring says that these modules are loaded before the lazy module. *)
Theorem C74_rel_dependencies_refuted : exists E fuel args n a i j w v,
  i_rel args = RelMods [Some n] /\ mods w !! n = Some (EMod j) /\ class_of j w = Some CLazy /\
  fst (lazy_import E args w) = Ok i /\ fst (getattr E fuel i a (snd (lazy_import E args w))) = Ok v /\
  class_of j (snd (getattr E fuel i a (snd (lazy_import E args w)))) = Some CLazy /\
  ~ In j (runs (snd (getattr E fuel i a (snd (lazy_import E args w))))).
Proof.
  exists ex_env, 5, (imp "base" true [] (RelMods [Some "util"%string])), "util"%string, "a"%string, 1, 0,
    (snd (lazy_import ex_env (imp "util" true [] RelNone) w0)), (VObj 1).
  split; [reflexivity|]. split; [vm_compute; reflexivity|]. split; [reflexivity|]. split; [vm_compute; reflexivity|]. split; [vm_compute; reflexivity|].
  split; [vm_compute; reflexivity|]. vm_compute. intros [H|[]]. discriminate.
Qed.
Print Assumptions C74_rel_dependencies_refuted.
Example C74_case : heap (snd (lazy_import ex_env (imp "base" true [] RelNone) w0)) !! 0 = Some (mkmod "base" CLazy ∅ [] true) /\ only_defs (code ex_env "base").
Proof. split; [reflexivity|]. constructor; [eauto|]. constructor; [eauto|constructor]. Qed.
