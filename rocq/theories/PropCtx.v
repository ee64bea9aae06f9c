(** * PropCtx: redirecting sys.stdout and sys.stderr (C60)

    [exec b s]: execute Python code with [with] statements; [sees x y b l r]: what it should
    observe (CtxSpec.v).  Proofs are in CtxProofs.v. *)
From Coq Require Import List Bool Arith.
From Verif Require Import Ctx CtxSpec CtxProofs.
Import ListNotations.
Local Open Scope nat_scope.

(** Properly nested use restores both streams, also when the body or the closing of a mirror
    raises; inside, the innermost context decides. *)
Theorem C60_restored : forall b s l r s', nested_ok b -> exec b s = (l, r, s') ->
  out s' = out s /\ err s' = err s /\ sees (out s) (err s) b l r.
Proof. exact restores. Qed.
Print Assumptions C60_restored.
Definition s0 : sys := mksys (Some 100) (Some 101) (fun _ => (None, None)) (fun _ => []).
Definition b0 : block :=
  Seq (Try (With (Buf 1) false (Seq Look (With (Buf 2) true (Seq (With (ROut 7 3) false (With (ROut 7 4) false Look)) Throw)))))
      (With (RErr 8 1) false (With (Buf 1) false Look)).
Example C60_demo :
  nested_ok b0 /\ fst (exec b0 s0) = ([(Some 1, Some 1); (Some 4, Some 2); (Some 1, Some 1)], false) /\
  out (snd (exec b0 s0)) = Some 100 /\ err (snd (exec b0 s0)) = Some 101.
Proof. cbn. intuition discriminate. Qed.

(** Threads: leaving a buffer brings back what was there when it was entered, whatever
    happened in between. *)
Theorem C60_threads : forall h1 h2 o s, Forall (fun e => ~ (e = Enter (Buf o) \/ e = Leave (Buf o))) h2 ->
  out (ctx_run (h1 ++ Enter (Buf o) :: h2 ++ [Leave (Buf o)]) s) = out (ctx_run h1 s) /\
  err (ctx_run (h1 ++ Enter (Buf o) :: h2 ++ [Leave (Buf o)]) s) = err (ctx_run h1 s).
Proof. exact leave_any. Qed.
Print Assumptions C60_threads.
(** So overlapping contexts of two threads leave the streams redirected for ever. *)
Theorem C60_overlap_refuted : forall a b s, a <> b ->
  out (ctx_run [Enter (Buf a); Enter (Buf b); Leave (Buf a); Leave (Buf b)] s) = Some a /\
  err (ctx_run [Enter (Buf a); Enter (Buf b); Leave (Buf a); Leave (Buf b)] s) = Some a.
Proof. exact overlap. Qed.
Print Assumptions C60_overlap_refuted.
(** A buffer entered inside itself leaves sys.stdout = sys.stderr = None. *)
Theorem C60_reenter_refuted : forall o f1 f2 b s l r s', nested_ok b -> ~ In o (buffers b) ->
  exec (With (Buf o) f1 (With (Buf o) f2 b)) s = (l, r, s') -> out s' = None /\ err s' = None.
Proof. exact reentered. Qed.
Print Assumptions C60_reenter_refuted.
Example C60_reenter_demo :
  out (snd (exec (With (Buf 1) false (With (Buf 1) false Look)) s0)) = None /\
  out (snd (exec (With (ROut 7 1) false (With (ROut 7 1) false Look)) s0)) = Some 100 /\
  out (ctx_run [Enter (Buf 1); Enter (Buf 2); Leave (Buf 2); Leave (Buf 1)] s0) = Some 100.
Proof. repeat split. Qed.
