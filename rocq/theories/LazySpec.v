(** * LazySpec: vocabulary of C61-C63, C72-C74 and C85 *)
From stdpp Require Import gmap strings.
From Coq Require Import String.
From Coq Require Import List Bool Arith.
From Verif Require Import Lazy.
Import ListNotations.
Local Open Scope nat_scope.

(** Nothing (or None) is registered under the name. *)
Definition unregistered (n : string) (w : world) : Prop := mods w !! n = None \/ mods w !! n = Some ENone.
Definition exists_spec (E : penv) (n : string) (w : world) : Prop := exists l, find_spec E n w = Found l.
(** One of the dependencies is missing (the ones before it were found). *)
Definition dep_missing (E : penv) (deps : list string) (w : world) : Prop :=
  exists a d b, deps = a ++ d :: b /\ Forall (fun x => exists_spec E x w) a /\ find_spec E d w = NotFound.
Definition deps_found (E : penv) (deps : list string) (w : world) : Prop := Forall (fun x => exists_spec E x w) deps.
(** rel_dependencies is None or consists of modules. *)
Definition rel_ok (rel : relarg) (w : world) : Prop :=
  match rel with
  | RelNone => True
  | RelStr => False
  | RelMods l => Forall (fun x => exists n i, x = Some n /\ mods w !! n = Some (EMod i)) l
  end.
(** The module cannot be had: a dependency or the module itself is missing. *)
Definition missing (E : penv) (args : iargs) (w : world) : Prop :=
  i_package args <> Some ""%string /\
  ((dep_missing E (i_deps args) w /\ forall e, find_spec E (full_name args) w <> FindRaises e) \/
   (deps_found E (i_deps args) w /\ rel_ok (i_rel args) w /\ find_spec E (full_name args) w = NotFound)).
Definition available (E : penv) (args : iargs) (w : world) : Prop :=
  i_package args <> Some ""%string /\ deps_found E (i_deps args) w /\ rel_ok (i_rel args) w /\
  find_spec E (full_name args) w = Found LdGood.
(** [w'] is [w] with the new module [i] of class [c] registered as [n]. *)
Definition adds (n : string) (i : nat) (c : mclass) (w w' : world) : Prop :=
  heap w !! i = None /\ (exists m, m_name m = n /\ m_class m = c /\ heap w' = heap w ++ [m]) /\ i = length (heap w) /\
  mods w' = <[n := EMod i]> (mods w) /\ lattrs w' = lattrs w /\ runs w' = runs w.
(** The module object [i] has the attribute [a] with the value [v], set by code. *)
Definition has_attr (i : nat) (a : string) (v : val) (w : world) : Prop :=
  exists m, heap w !! i = Some m /\ m_attrs m !! a = Some v.
(** What plain module objects answer. *)
Definition answers (m : modobj) (a : string) (r : res val) : Prop :=
  (exists v, m_attrs m !! a = Some v /\ r = Ok v) \/
  (m_attrs m !! a = None /\ (provided a = true /\ r = Ok VMeta \/ provided a = false /\ r = Err AttributeErr)).
(** Starting programs: nothing was run and no lazy attribute exists. *)
Definition started (w : world) : Prop := runs w = [] /\ lattrs w = [].
(** ** Vocabulary of C85 *)
(** Which of the dependencies of the package can be found. *)
Definition installed (E : penv) (w : world) (present : string -> bool) : Prop :=
  forall d, In d ["fasteners"; "urllib3"; "packaging"; "flask"]%string ->
  if present d then exists_spec E d w else find_spec E d w = NotFound.
(** The files of the package are there, and not imported yet. *)
Definition not_imported (E : penv) (w : world) : Prop :=
  forall n, In n ["syncstream.file"; "syncstream.webtools"; "syncstream.host"]%string ->
  mods w !! n = None /\ finder E n = Found LdGood.
(** The entries of sys.modules that are modules exist. *)
Definition modules_exist (w : world) : Prop := forall d j, mods w !! d = Some (EMod j) -> heap w !! j <> None.
(** A lazy module that is not loaded, or a placeholder. *)
Definition state_of (b : bool) : mclass := if b then CLazy else CPlaceholder.
(** The exported name: a lazy attribute that is not loaded, or None. *)
Definition exported (b : bool) (i : nat) (a : string) (h : option nat) (w : world) : Prop :=
  if b then exists j, h = Some j /\ lattrs w !! j = Some (mkla i a "syncstream" VNone) else h = None.
