(** * PropOverride: overriding [parse_lines] (C15) *)
From stdpp Require Import gmap.
From Coq Require Import String.
From Coq Require Import List NArith ZArith Bool Arith.
From Verif Require Import PyStr Prog ProgFacts PyIO Base Spec LineBuf Override OverrideProofs.
Import ListNotations.
Local Open Scope nat_scope.

(** For every class of user attributes ([U], with commands [E]) and every override [ov]
    that takes no lock, returns normally and leaves the current line alone: the
    successive calls of the override received exactly the completed lines, in order. *)
Theorem C15_override_sees_completed_lines :
  forall (E : Type -> Type) (U : Type) (sem : Sem E U) (ov : list item -> prog (ucmd E) unit),
  (forall lines, nolock (ov lines) /\
     forall d, exists d', drun (ov lines) d = (Good tt, d') /\
       last_line (ub d') = last_line (ub d) /\ ucalls d' = ucalls d) ->
  forall m u texts g,
  log_steps (map (fun p => SWrite (snd p)) texts) slog0 g ->
  let s := user_writes ov texts (mkst (mkudata (mklbuf (dq_new m) sio_new) u []) stdpp.base.empty) in
  concat (ucalls (dat s)) = done g /\ sval (last_line (ub (dat s))) = pend g /\
  Forall (fun b => b <> []) (ucalls (dat s)).
Proof. exact @c15. Qed.
Print Assumptions C15_override_sees_completed_lines.

(** An override that raises makes write() raise the same exception; the lock is free
    again and the current line still holds the text it held before. *)
Theorem C15_override_raises :
  forall (E : Type -> Type) (U : Type) (sem : Sem E U) (ov : list item -> prog (ucmd E) unit) e,
  (forall lines, nolock (ov lines) /\
     forall d, exists d', drun (ov lines) d = (Fail e, d') /\
       last_line (ub d') = last_line (ub d) /\ ucalls d' = ucalls d) ->
  forall t data d v, last_line (ub d) = mksio v (length v) false ->
  (exists l ls r, segments data (l :: ls) r) ->
  exists d', run t (user_write ov data) (mkst d stdpp.base.empty) =
    (Fail e, mkst d' stdpp.base.empty) /\ last_line (ub d') = last_line (ub d).
Proof. exact @c15_raise. Qed.
Print Assumptions C15_override_raises.

(** An override that calls a locking method [c] of the same buffer blocks forever: the
    calling thread itself owns the lock it is waiting for. *)
Theorem C15_locking_override_deadlocks :
  forall c t data m q v, locking c = true -> 1 <= m -> length q <= m ->
  (exists l ls r, segments data (l :: ls) r) ->
  exists d, run t (lb_write_with (fun _ => bind (lb_call c) (fun _ => Ret tt)) data)
                (mkst (mklbuf (mkdeque q m) (mksio v (length v) false)) stdpp.base.empty) =
            (Block, mkst d {[ LL := Excl t 1 ]}).
Proof. exact c15_deadlock. Qed.
Print Assumptions C15_locking_override_deadlocks.

(** Non-vacuity: an override that counts the lines in a user attribute and stores the
    lines only when there are at least two. *)
Inductive count_cmd : Type -> Type := Add (n : nat) : count_cmd unit.
Definition count_exec X (c : count_cmd X) : nat -> outcome X * nat :=
  match c in count_cmd X return nat -> outcome X * nat with
  | Add k => fun n => (Good tt, n + k)
  end.
Local Instance count_sem : Sem count_cmd nat := {| cexec := count_exec |}.
Definition count_ov (lines : list item) : prog (ucmd count_cmd) unit :=
  bind (op (UE (Add (length lines)))) (fun _ =>
  if 2 <=? length lines then op (UB (DExtend lines)) else Ret tt).

Example C15_case_polite : forall lines, nolock (count_ov lines) /\
     forall d, exists d', drun (count_ov lines) d = (Good tt, d') /\
       last_line (ub d') = last_line (ub d) /\ ucalls d' = ucalls d.
Proof.
  intros lines. split.
  - apply nolock_bind; [apply nolock_op|]. intros _. destruct (2 <=? length lines);
      [apply nolock_op|constructor].
  - intros [[q f] u c]. unfold count_ov. rewrite drun_bind. simpl.
    destruct lines as [|? [|? ?]]; eexists; repeat split; reflexivity.
Qed.

Example C15_case :
  let s := user_writes count_ov
    [(0, txt "a"); (1, txt "b" ++ [10%N]); (0, txt "c" ++ [10%N] ++ txt "d" ++ [10%N] ++ txt "e")]
    (mkst (mkudata (mklbuf (dq_new 4) sio_new) 0 []) stdpp.base.empty) in
  ucalls (dat s) = [[IStr (txt "ab")]; [IStr (txt "c"); IStr (txt "d")]] /\ uu (dat s) = 3 /\
  dq (storage (ub (dat s))) = [IStr (txt "c"); IStr (txt "d")].
Proof. repeat split; vm_compute; reflexivity. Qed.
