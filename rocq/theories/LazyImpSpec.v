(** * LazyImpSpec: vocabulary for threads that call lazy_import *)
From stdpp Require Import gmap strings.
From Coq Require Import String.
From Coq Require Import List Bool Arith.
From Verif Require Import Prog Lazy LazyImp.
Import ListNotations.
Local Open Scope nat_scope.

(** The entries of sys.modules that are modules exist and have the name of the entry. *)
Definition names_right (w : world) : Prop :=
  forall n i, mods w !! n = Some (EMod i) -> exists m, heap w !! i = Some m /\ m_name m = n.
(** Something that is a module is registered under the name. *)
Definition registered (n : string) (w : world) : Prop := exists i, mods w !! n = Some (EMod i).

(** Thread [t] has ended; its call number [k] was [args] and had the result [r]. *)
Definition called (css : list (list iargs)) (ps : list (prog icmd (list (outcome (res nat))))) (t k : nat)
    (args : iargs) (r : outcome (res nat)) : Prop :=
  exists cs rs, css !! t = Some cs /\ ps !! t = Some (Ret rs) /\ cs !! k = Some args /\ rs !! k = Some r.
(** Thread [t] calls lazy_import for the full name [n]. *)
Definition asks (css : list (list iargs)) (t : nat) (n : string) : Prop :=
  exists cs args, css !! t = Some cs /\ In args cs /\ full_name args = n.

(** Every name that the threads use can be found, and nothing else is registered under it. *)
Definition findable (E : penv) (w : world) (n : string) : Prop :=
  finder E n = Found LdGood /\
  match mods w !! n with
  | None => True
  | Some (EMod i) => exists m, heap w !! i = Some m /\ m_spec m = true
  | Some _ => False
  end.
Definition plain_args (E : penv) (w : world) (args : iargs) : Prop :=
  i_package args <> Some ""%string /\ findable E w (full_name args) /\ Forall (findable E w) (i_deps args) /\
  match i_rel args with
  | RelNone => True
  | RelStr => False
  | RelMods l => Forall (fun x => exists n, x = Some n /\ registered n w) l
  end.
