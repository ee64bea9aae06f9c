(** * TimeoutSpec: vocabulary for C107 *)
From stdpp Require Import gmap.
From Coq Require Import List ZArith Bool Arith.
From Verif Require Import Prog Timeout.
Import ListNotations.
Local Open Scope nat_scope.

(** The timeout after the calls [cs] of one thread, [o] before them. *)
Definition now (o : option Z) (cs : list tcall) : option Z :=
  fold_left (fun o c => match c with TSet o' => o' | _ => o end) cs o.
(** What a call does when the timeout is [o]. *)
Definition answer (o : option Z) (c : tcall) : tres :=
  match c with TSet _ => RNothing | TGet => RTimeout o | TPut => RArgs (match o with None => true | Some _ => false end) o end.
(** Each call with the timeout of the calls before it. *)
Fixpoint answers (o : option Z) (cs : list tcall) : list tres :=
  match cs with [] => [] | c :: cs' => answer o c :: answers (now o [c]) cs' end.
(** [o] was set: it is the timeout at the start, or some thread sets it. *)
Definition was_set (o0 : option Z) (css : list (list tcall)) (o : option Z) : Prop :=
  o = o0 \/ exists cs, In cs css /\ In (TSet o) cs.
(** The attributes fit together. *)
Definition fits (d : tattrs) : Prop := t_block d = true <-> t_timeout d = None.
(** Thread [t] has ended and had the results [rs]. *)
Definition ended (ps : list (prog tcmd (list (outcome tres)))) (t : nat) (rs : list (outcome tres)) : Prop := ps !! t = Some (Ret rs).
