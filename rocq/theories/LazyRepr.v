(** * LazyRepr: model of the texts that lazy modules, placeholders and lazy attributes show
    (repr() and str() of them; none of the classes has a __str__ of its own) *)
From stdpp Require Import gmap strings.
From Coq Require Import String.
From Coq Require Import List Bool Arith.
From Verif Require Import Lazy.
Import ListNotations.
Local Open Scope nat_scope.

Section Env.
  Variable E : penv.
  (** [spec.origin] of the module with this name, as a text *)
  Variable origin : string -> string.

  (** utils.py:133-135 *)
  Definition lazy_text (n : string) : string := ("<LazyModule " +:+ n +:+ " from """ +:+ origin n +:+ """>")%string.
  (** utils.py:317-319 *)
  Definition placeholder_text (n : string) : string := ("<ModulePlaceholder " +:+ n +:+ ">")%string.
  (** utils.py:211-214 *)
  Definition attribute_text (a n : string) : string := ("<LazyAttribute " +:+ a +:+ " from """ +:+ n +:+ """>")%string.

  (** repr() of a module object.  [Ok None]: some other text (the one of ModuleType, or one
      with a name that a program has set), which is not modelled.
      [_LazyModule.__repr__], utils.py:129-137: with [__spec__] set to None it ends in
      ModuleType.__repr__, that is importlib's _module_repr, whose first step is
      [getattr(m, "__loader__", None)].  A [__spec__] that was replaced by another object
      has no name.  [_ModulePlaceholder.__repr__], utils.py:315-319. *)
  Definition mod_repr (fuel i : nat) (w : world) : res (option string) * world :=
    match heap w !! i with
    | None => (Err AttributeErr, w)
    | Some m =>
        match m_class m with
        | CLazy =>
            let '(r, w1) := getattr E fuel i "__spec__" w in
            match r with
            | Err e => (Err e, w1)
            | Ok VMeta => (Ok (Some (lazy_text (m_name m))), w1)
            | Ok (VObj _) => (Err AttributeErr, w1)
            | Ok VNone =>
                let '(r2, w2) := getattr E fuel i "__loader__" w1 in
                (match r2 with Err AttributeErr | Ok _ => Ok None | Err e => Err e end, w2)
            end
        | CPlaceholder =>
            match m_attrs m !! "__name__"%string with
            | None => (Ok (Some (placeholder_text (m_name m))), w)
            | Some _ => (Ok None, w)
            end
        | CModule | CLoading => (Ok None, w)
        end
    end.

  (** repr() of a lazy attribute, utils.py:209-214: [__name__] is looked up in the module.
      ["_LazyAttribute__attr"] is in protected_kw (utils.py:174-185). *)
  Definition attr_repr (fuel j : nat) (w : world) : res (option string) * world :=
    match lattrs w !! j with
    | None => (Err AttributeErr, w)
    | Some l =>
        let '(r, w1) := getattr E fuel (la_mod l) "__name__" w in
        match r with
        | Err e => (Err e, w1)
        | Ok VMeta =>
            (Ok (option_map (fun m => attribute_text (la_attr l) (m_name m)) (heap w !! la_mod l)), w1)
        | Ok _ => (Ok None, w1)
        end
    end.
End Env.
