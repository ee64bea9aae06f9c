(** * LazyFrom: "from M import a" and "from M import *" of lazy modules and placeholders

    The statements of CPython 3.11 (ceval.c: import_from, import_all_from) that use the
    attribute look-ups of /repo/syncstream/utils.py:139-164 and 330-349 (Lazy.v: [getattr]).
    Both suppress AttributeError of the first look-up, whatever raised it.  The import
    machinery looks up [__spec__], which is protected, and [__path__], which a lazy module
    and a placeholder do not have (utils.py:83, 332-335), before that; neither has an effect.
    Simplification: modules that are loaded are no packages (no [__path__]). *)
From stdpp Require Import gmap strings.
From Coq Require Import Ascii String.
From Coq Require Import List Bool Arith.
From Verif Require Import Lazy.
Import ListNotations.
Local Open Scope nat_scope.

(** What a name is bound to: the value of an attribute, or an entry of sys.modules. *)
Inductive bound := BVal (v : val) | BEntry (e : entry).

(** Names that "import *" leaves out. *)
Definition hidden (a : string) : bool := match a with String c _ => Ascii.eqb c "_"%char | EmptyString => false end.

Section Env.
  Variable E : penv.

  (** import_from: if the attribute does not exist, sys.modules["name.attr"].
      Simplification: [__name__] of the module was not set by a program. *)
  Definition from_import (fuel i : nat) (a : string) (w : world) : res bound * world :=
    let '(r, w1) := getattr E fuel i a w in
    match r with
    | Ok v => (Ok (BVal v), w1)
    | Err AttributeErr =>
        match heap w1 !! i with
        | None => (Err ImportErr, w1)
        | Some m =>
            match mods w1 !! (m_name m +:+ "." +:+ a)%string with
            | Some e => (Ok (BEntry e), w1)
            | None => (Err ImportErr, w1)
            end
        end
    | Err e => (Err e, w1)
    end.

  (** import_all_from: the names of [__all__], which is empty for a placeholder
      (utils.py:321-324), or else all names of [__dict__] without a leading underscore.
      [Ok None]: the names are those of an [__all__] that was set by code (not modelled). *)
  Definition star_import (fuel i : nat) (w : world) : res (option (gmap string val)) * world :=
    let '(r, w1) := getattr E fuel i "__all__" w in
    match r with
    | Ok VMeta => (Ok (Some ∅), w1)
    | Ok _ => (Ok None, w1)
    | Err AttributeErr =>
        match heap w1 !! i with
        | None => (Err AttributeErr, w1)
        | Some m => (Ok (Some (base.filter (fun kv : string * val => hidden (fst kv) = false) (m_attrs m))), w1)
        end
    | Err e => (Err e, w1)
    end.
End Env.
