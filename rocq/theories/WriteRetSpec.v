(** * WriteRetSpec: what write() returns in any execution (C10, C22, C37) *)
From Coq Require Import List Arith.
From Verif Require Import PyStr Prog Spec.
Import ListNotations.

(** Thread [i], which made the calls [css[i]], has ended; its call number [k], [c], returned [r]. *)
Definition returned {C : Type -> Type} {K A : Type} (css : list (list K)) (ps : list (prog C (list (outcome A))))
  (i k : nat) (c : K) (r : A) : Prop :=
  exists cs rs, nth_error css i = Some cs /\ nth_error cs k = Some c /\
    nth_error ps i = Some (Ret rs) /\ nth_error rs k = Some (Good r).

(** The number returned by write(data) of a buffer: 1 for a single line break, otherwise the
    length of what follows the last line break. *)
Definition written (data : text) (n : nat) : Prop :=
  exists ls r, segments data ls r /\
    ((ls = [[]] /\ r = [] /\ n = 1) \/ (~ (ls = [[]] /\ r = []) /\ n = length r)).
