(** * ReaderSpec: vocabulary of C57 *)
From Coq Require Import List Arith.
From Verif Require Import Reader.
Import ListNotations.
Local Open Scope nat_scope.

Definition is_use (e : revent) : bool := match e with RUse _ => true | _ => false end.
Definition uses (h : list revent) : nat := length (filter is_use h).
(** The first REnter of [h] stands after [a]. *)
Definition entered_after (a h : list revent) : Prop := ~ In REnter a /\ exists b, h = a ++ REnter :: b.
(** What [e] should do after the history [h]. *)
Inductive does (h : list revent) : revent -> list pact -> Prop :=
| do_first_enter : ~ In REnter h -> does h REnter [PNew (uses h)]
| do_enter a : entered_after a h -> does h REnter []
| do_exit_outside : ~ In REnter h -> does h RExit []
| do_exit a : entered_after a h -> does h RExit [PClear (uses a)]
| do_temporary ok : ~ In REnter h -> does h (RUse ok) [PNew (uses h); PReq (uses h); PClear (uses h)]
| do_own ok a : entered_after a h -> does h (RUse ok) [PReq (uses a)].
Definition last_act (h : list revent) (e : revent) : list pact := fst (rd_step (snd (rd_run rd_init h)) e).
Definition pools_after (h : list revent) : list bool := rd_pools (snd (rd_run rd_init h)).

