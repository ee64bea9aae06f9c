(** * LazyThrSpec: vocabulary for threads that use lazy modules *)
From stdpp Require Import gmap strings.
From Coq Require Import String.
From Coq Require Import List Bool Arith.
From Verif Require Import Prog Lazy LazyThr.
Import ListNotations.
Local Open Scope nat_scope.

(** The attributes after the statements [ss], all of which were executed. *)
Fixpoint defs (ss : list tstmt) (ats : gmap string nat) : gmap string nat :=
  match ss with
  | [] => ats
  | TDef a n :: ss' => defs ss' (<[a := n]> ats)
  | _ :: ss' => defs ss' ats
  end.
(** The attributes of a module whose code [ss] has returned; [ats]: those that were set from
    outside before the code was started keep their values. *)
Definition loaded (ss : list tstmt) (ats : gmap string nat) : gmap string nat := ats ∪ defs ss ats.

(** An attribute whose access loads the module. *)
Definition opens (a : string) : Prop := a <> "__path__"%string /\ Lazy.protected a = false.

(** What a module with the attributes [ats] answers. *)
Definition says (ats : gmap string nat) (a : string) (r : outcome lval) : Prop :=
  match ats !! a with
  | Some n => r = Good (VVal n)
  | None => if Lazy.provided a then exists v, r = Good v /\ forall n, v <> VVal n
            else r = Fail AttributeError
  end.

(** [told css ps t k c r]: in the execution that has reached the pool [ps], the thread [t] has
    ended; its call number [k] was [c] and had the result [r]. *)
Definition told (css : list (list tcall)) (ps : list (prog tcmd (list (outcome lval)))) (t k : nat) (c : tcall) (r : outcome lval) : Prop :=
  exists cs rs, css !! t = Some cs /\ ps !! t = Some (Ret rs) /\ cs !! k = Some c /\ rs !! k = Some r.

(** Every module uses only itself and modules with smaller numbers, and depends only on
    modules with smaller numbers. *)
Definition layered (code : nat -> list tstmt) (mods : list (gmap string nat * list nat)) : Prop :=
  (forall i j a, In (TUse j a) (code i) \/ In (TFrom j a) (code i) -> j <= i) /\
  (forall i ats ds d, mods !! i = Some (ats, ds) -> In d ds -> d < i).
(** A bound on the depth of calls that is large enough for [n] modules. *)
Definition depth_for (n : nat) : nat := 2 * n + 3.

(** What a call asks for: the attribute [a] of module [i]. *)
Definition wants (las : list (nat * string)) (c : tcall) (i : nat) (a : string) : Prop :=
  match c with Access j b => j = i /\ b = a | Force j => False | Attr k => las !! k = Some (i, a) end.
(** The module of a call. *)
Definition target (las : list (nat * string)) (c : tcall) (i : nat) : Prop :=
  match c with Access j b => j = i | Force j => j = i | Attr k => exists a, las !! k = Some (i, a) end.

(** In state [s] the code of module [i] has ended and left the attributes [ats]: it has
    returned, or it has raised after a part of its statements. *)
Definition ended (code : nat -> list tstmt) (mods : list (gmap string nat * list nat)) (s : st tworld) (i : nat) (ats : gmap string nat) : Prop :=
  exists m init ds, t_mods (dat s) !! i = Some m /\ mods !! i = Some (init, ds) /\ t_attrs m = ats /\
    ((t_run m = Over true /\ ats = loaded (code i) init) \/
     (t_run m = Over false /\ exists pre post, code i = pre ++ post /\ ats = defs pre init)).
