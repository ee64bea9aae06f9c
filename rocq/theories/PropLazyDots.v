(** * C105: lazy_import of modules in packages *)
From stdpp Require Import gmap strings.
From Coq Require Import String.
From Coq Require Import List Bool Arith.
From Verif Require Import Lazy LazyDots LazyDotsSpec LazyDotsProofs.
Import ListNotations.
Local Open Scope nat_scope.
Local Open Scope string_scope.
Local Open Scope list_scope.

(** C105: lazy_import runs code of packages only, and only of packages that contain the module
    or one of its dependencies; it removes and replaces no module that is registered. *)
Theorem C105_only_packages : forall D n req deps w o w', import_dots D n req deps w = (o, w') ->
  (exists l, ran w' = ran w ++ l /\ forall m, In m l -> exists x, In x (n :: deps) /\ above m x) /\
  (forall m k, reg w !! m = Some k -> k <> KNone -> reg w' !! m = Some k).
Proof. exact import_dots_spec. Qed.
Print Assumptions C105_only_packages.

(** C105: nothing is run if the packages of the module and of its dependencies are registered
    (or if there are none). *)
Theorem C105_nothing_run : forall D n req deps w,
  (forall x, In x (n :: deps) -> length x <= 1 \/ reg w !! parent x <> None) -> ran (snd (import_dots D n req deps w)) = ran w.
Proof. exact nothing_run. Qed.
Print Assumptions C105_nothing_run.

(** C105: if no package of the module is registered, all of them are run, from the outside; the
    module is not. *)
Theorem C105_packages_are_run : forall D p c req w, p <> [] -> reg w !! (p ++ [c]) = None -> on_disk D (p ++ [c]) <> None ->
  (forall m, above m (p ++ [c]) -> reg w !! m = None /\ on_disk D m = Some true /\ fails D m = false) ->
  exists w', import_dots D (p ++ [c]) req [] w = (Ok KLazy, w') /\ ran w' = ran w ++ packages (p ++ [c]) /\ reg w' !! (p ++ [c]) = Some KLazy.
Proof. exact packages_are_run. Qed.
Print Assumptions C105_packages_are_run.

(** C105: if the package is loaded (or there is none), it is as for names without dots. *)
Theorem C105_package_loaded : forall D n req deps w, package_ready n w -> reg w !! n = None -> Forall (fun d => known d w) deps ->
  import_dots D n req deps w =
    match on_disk D n, req with
    | Some _, _ => (Ok KLazy, put n KLazy w)
    | None, true => (Err ModuleNotFound, w)
    | None, false => (Ok KPlaceholder, put n KPlaceholder w)
    end.
Proof. exact in_loaded. Qed.
Print Assumptions C105_package_loaded.

(** C105: a module of a package that is itself lazy (or a placeholder, or no package) cannot be
    imported lazily; ModuleNotFoundError is raised whatever [required] is. *)
Theorem C105_package_lazy : forall D p c req deps w, p <> [] -> reg w !! (p ++ [c]) = None -> not_loaded_package p w -> Forall (fun d => known d w) deps ->
  import_dots D (p ++ [c]) req deps w = (Err ModuleNotFound, w).
Proof. exact in_not_loaded. Qed.
Print Assumptions C105_package_lazy.

(** C105: nor in the ordinary way. *)
Theorem C105_plain_in_lazy : forall D p c w, p <> [] -> reg w !! (p ++ [c]) = None -> not_loaded_package p w ->
  import_plain D (p ++ [c]) w = (Err ModuleNotFound, w).
Proof. exact plain_in_not_loaded. Qed.
Print Assumptions C105_plain_in_lazy.

(** C105: nor can a module with a dependency in such a package. *)
Theorem C105_dependency : forall D n req known_ones p c rest w, (reg w !! n = None \/ reg w !! n = Some KNone) -> p <> [] -> reg w !! (p ++ [c]) = None ->
  not_loaded_package p w -> Forall (fun d => known d w) known_ones ->
  import_dots D n req (known_ones ++ (p ++ [c]) :: rest) w = (Err ModuleNotFound, w).
Proof. exact dep_in_not_loaded. Qed.
Print Assumptions C105_dependency.

(** C105: the same if the outermost package does not exist. *)
Theorem C105_package_missing : forall D c x y req w, on_disk D [c] = None -> (forall m, above m (c :: x :: y) -> reg w !! m = None) -> reg w !! (c :: x :: y) = None ->
  import_dots D (c :: x :: y) req [] w = (Err ModuleNotFound, w).
Proof. exact top_missing. Qed.
Print Assumptions C105_package_missing.

(** C105: after the first use of the lazy package its modules can be imported lazily. *)
Theorem C105_after_use : forall D p c req w, p <> [] -> reg w !! p = Some KLazy -> reg w !! (p ++ [c]) = None -> on_disk D p = Some true -> on_disk D (p ++ [c]) <> None ->
  fst (import_dots D (p ++ [c]) req [] w) = Err ModuleNotFound /\
  fst (import_dots D (p ++ [c]) req [] (snd (use_dots D p w))) = Ok KLazy.
Proof. exact after_use. Qed.
Print Assumptions C105_after_use.

(** C105: in every sequence of lazy imports, uses and ordinary imports the code of a module that
    does not raise is run once at most, if no lazy import names a dependency inside the module
    that it imports. *)
Theorem C105_once : forall D os w, ran w = [] -> Forall own_packages_not_needed os ->
  List.NoDup (List.filter (fun m => negb (fails D m)) (ran (snd (drun_dots D os w)))).
Proof. exact run_once. Qed.
Print Assumptions C105_once.

(** C105: false: every sequence runs the code of a module that does not raise once at most.
    lazy_import("p", dependencies="p.m") runs "p", replaces it by a lazy module, and the first
    use runs "p" again. *)
Theorem C105_once_refuted : exists D os w, ran w = [] /\ ~ List.NoDup (List.filter (fun m => negb (fails D m)) (ran (snd (drun_dots D os w)))).
Proof.
  exists (mkdisk (fun n => match n with ["p"] => Some true | ["p"; "m"] => Some false | _ => None end) (fun _ => false)).
  exists [DImport ["p"] true [["p"; "m"]]; DUse ["p"]], (mkdw ∅ []). split; [reflexivity|].
  assert (E : List.filter (fun m : name => negb false) (ran (snd (drun_dots (mkdisk (fun n => match n with ["p"] => Some true | ["p"; "m"] => Some false | _ => None end) (fun _ => false))
    [DImport ["p"] true [["p"; "m"]]; DUse ["p"]] (mkdw ∅ [])))) = [["p"]; ["p"]]) by (vm_compute; reflexivity).
  cbn [fails]. rewrite E. intros H. inversion H as [|x l Hx]. apply Hx. left. reflexivity.
Qed.
Print Assumptions C105_once_refuted.

(** C105: false: with required=False lazy_import raises no ModuleNotFoundError. *)
Theorem C105_optional_refuted : exists D n w, fst (import_dots D n false [] w) = Err ModuleNotFound.
Proof. exists (mkdisk (fun _ => None) (fun _ => false)), ["p"; "m"], (mkdw ∅ []). vm_compute. reflexivity. Qed.
Print Assumptions C105_optional_refuted.

(** C105: false: lazy_import runs no code. *)
Theorem C105_no_code_refuted : exists D n w, ran (snd (import_dots D n true [] w)) <> ran w.
Proof. exists (mkdisk (fun _ => Some true) (fun _ => false)), ["p"; "m"], (mkdw ∅ []). vm_compute. discriminate. Qed.
Print Assumptions C105_no_code_refuted.

(** C105: false: a lazy import that succeeds can be followed by an ordinary import of a module
    of the package, when the package and the module exist. *)
Theorem C105_then_plain_refuted : exists D w, on_disk D ["p"] = Some true /\ on_disk D ["p"; "m"] = Some false /\
  fst (drun_dots D [DPlain ["p"; "m"]] w) = [Ok tt] /\
  fst (drun_dots D [DImport ["p"] true []; DPlain ["p"; "m"]] w) = [Ok tt; Err ModuleNotFound] /\
  fst (drun_dots D [DImport ["p"] true []; DUse ["p"]; DPlain ["p"; "m"]] w) = [Ok tt; Ok tt; Ok tt].
Proof.
  exists (mkdisk (fun n => match n with ["p"] => Some true | ["p"; "m"] => Some false | _ => None end) (fun _ => false)), (mkdw ∅ []).
  vm_compute. repeat split.
Qed.
Print Assumptions C105_then_plain_refuted.

(** *** Cases *)
Definition the_disk : disk :=
  mkdisk (fun n => match n with
                   | ["a"] => Some true | ["a"; "b"] => Some true | ["a"; "b"; "c"] => Some false | ["d"] => Some false | ["e"] => Some true | ["e"; "f"] => Some false
                   | _ => None end)
         (fun n => match n with ["e"] => true | _ => false end).
Example from_nothing : fst (import_dots the_disk ["a"; "b"; "c"] true [] (mkdw ∅ [])) = Ok KLazy /\
  ran (snd (import_dots the_disk ["a"; "b"; "c"] true [] (mkdw ∅ []))) = [["a"]; ["a"; "b"]] /\ packages ["a"; "b"; "c"] = [["a"]; ["a"; "b"]].
Proof. vm_compute. repeat split. Qed.
Example in_lazy : fst (drun_dots the_disk [DImport ["a"] true []; DImport ["a"; "b"] false []; DUse ["a"]; DImport ["a"; "b"] false []; DImport ["a"; "x"] false []] (mkdw ∅ []))
  = [Ok tt; Err ModuleNotFound; Ok tt; Ok tt; Ok tt].
Proof. vm_compute. reflexivity. Qed.
Example package_raises : fst (drun_dots the_disk [DImport ["e"; "f"] false []; DImport ["d"] false [["e"; "f"]]; DImport ["d"] false []] (mkdw ∅ [])) = [Err (BodyErr 0); Err (BodyErr 0); Ok tt] /\
  ran (snd (drun_dots the_disk [DImport ["e"; "f"] false []; DImport ["d"] false [["e"; "f"]]; DImport ["d"] false []] (mkdw ∅ []))) = [["e"]; ["e"]].
Proof. vm_compute. repeat split. Qed.
Example in_a_module : fst (drun_dots the_disk [DPlain ["d"]; DImport ["d"; "x"] false []; DImport ["a"] true [["d"; "x"]]] (mkdw ∅ [])) = [Ok tt; Err ModuleNotFound; Err ModuleNotFound].
Proof. vm_compute. reflexivity. Qed.
Example dependencies : fst (drun_dots the_disk [DImport ["d"] false [["a"; "b"; "c"]]; DImport ["d"; "y"] false []; DImport ["e"] false [["a"; "b"; "z"]]] (mkdw ∅ []))
  = [Ok tt; Err ModuleNotFound; Ok tt] /\
  ran (snd (drun_dots the_disk [DImport ["d"] false [["a"; "b"; "c"]]; DImport ["e"] false [["a"; "b"; "z"]]] (mkdw ∅ []))) = [["a"]; ["a"; "b"]].
Proof. vm_compute. repeat split. Qed.
