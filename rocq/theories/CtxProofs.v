(** * CtxProofs: proofs of C60 *)
From Coq Require Import List Bool Arith.
From Verif Require Import Ctx CtxSpec.
Import ListNotations.
Local Open Scope nat_scope.

Lemma upd_same {X} (f : nat -> X) k x : upd f k x k = x.
Proof. unfold upd. rewrite Nat.eqb_refl. reflexivity. Qed.
Lemma upd_other {X} (f : nat -> X) k x j : j <> k -> upd f k x j = f j.
Proof. intros H. unfold upd. apply Nat.eqb_neq in H. rewrite H. reflexivity. Qed.

Lemma block_restores b : nested_ok b -> forall s,
  let '(l, r, s') := exec b s in
  sees (out s) (err s) b l r /\ out s' = out s /\ err s' = err s /\
  (forall o, ~ In o (buffers b) -> saved s' o = saved s o) /\ (forall o, olds s' o = olds s o).
Proof.
  induction b as [| | |b1 IH1 b2 IH2|b IH|m f b IH]; intros Hn s; cbn [exec].
  - repeat split. constructor.
  - repeat split. constructor.
  - repeat split. constructor.
  - destruct Hn as [Hn1 Hn2]. specialize (IH1 Hn1 s). destruct (exec b1 s) as [[l1 r1] s1].
    destruct IH1 as (H1 & Ho1 & He1 & Hs1 & Hl1). cbn [buffers]. destruct r1.
    + split; [constructor; exact H1|]. split; [exact Ho1|]. split; [exact He1|]. split; [|exact Hl1].
      intros o Hi. apply Hs1. intros H. apply Hi, in_or_app. left. exact H.
    + specialize (IH2 Hn2 s1). destruct (exec b2 s1) as [[l2 r2] s2]. destruct IH2 as (H2 & Ho2 & He2 & Hs2 & Hl2).
      rewrite Ho1, He1 in H2. split; [econstructor; eassumption|]. split; [congruence|]. split; [congruence|]. split.
      * intros o Hi. rewrite Hs2, Hs1; [reflexivity| |]; intros H; apply Hi, in_or_app; auto.
      * intros o. rewrite Hl2. apply Hl1.
  - specialize (IH Hn s). destruct (exec b s) as [[l r] s1]. destruct IH as (H & Ho & He & Hs & Hl).
    split; [econstructor; exact H|]. auto.
  - destruct m as [o|o t|o t]; cbn [nested_ok buffers] in *.
    + destruct Hn as [Hi Hn]. specialize (IH Hn (enter (Buf o) s)). destruct (exec b (enter (Buf o) s)) as [[l r] s1].
      destruct IH as (H & Ho & He & Hs & Hl). cbn [enter out err saved olds] in *. cbn [leave out err saved olds].
      rewrite (Hs o Hi), upd_same. cbn [fst snd]. split; [constructor; exact H|]. split; [reflexivity|]. split; [reflexivity|]. split; [|exact Hl].
      intros o' Ho'. rewrite upd_other by (intros ->; apply Ho'; left; reflexivity).
      rewrite Hs by (intros Hb; apply Ho'; right; exact Hb). apply upd_other. intros ->. apply Ho'. left. reflexivity.
    + specialize (IH Hn (enter (ROut o t) s)). destruct (exec b (enter (ROut o t) s)) as [[l r] s1].
      destruct IH as (H & Ho & He & Hs & Hl). cbn [enter out err saved olds] in *. unfold leave.
      rewrite (Hl o), upd_same. cbn [out err saved olds]. split; [constructor; exact H|]. split; [reflexivity|].
      split; [exact He|]. split; [exact Hs|]. intros o'. destruct (Nat.eq_dec o' o) as [->|Hd].
      * apply upd_same.
      * rewrite upd_other, Hl, upd_other by exact Hd. reflexivity.
    + specialize (IH Hn (enter (RErr o t) s)). destruct (exec b (enter (RErr o t) s)) as [[l r] s1].
      destruct IH as (H & Ho & He & Hs & Hl). cbn [enter out err saved olds] in *. unfold leave.
      rewrite (Hl o), upd_same. cbn [out err saved olds]. split; [constructor; exact H|]. split; [exact Ho|].
      split; [reflexivity|]. split; [exact Hs|]. intros o'. destruct (Nat.eq_dec o' o) as [->|Hd].
      * apply upd_same.
      * rewrite upd_other, Hl, upd_other by exact Hd. reflexivity.
Qed.
(** The buffer can be used again afterwards. *)
Lemma restores b s l r s' : nested_ok b -> exec b s = (l, r, s') ->
  out s' = out s /\ err s' = err s /\ sees (out s) (err s) b l r.
Proof. intros Hn E. pose proof (block_restores b Hn s) as H. rewrite E in H. tauto. Qed.

(** A buffer inside itself. *)
Lemma reentered o f1 f2 b s l r s' : nested_ok b -> ~ In o (buffers b) ->
  exec (With (Buf o) f1 (With (Buf o) f2 b)) s = (l, r, s') -> out s' = None /\ err s' = None.
Proof.
  intros Hn Hi. cbn [exec]. pose proof (block_restores b Hn (enter (Buf o) (enter (Buf o) s))) as H.
  destruct (exec b (enter (Buf o) (enter (Buf o) s))) as [[l1 r1] s1]. destruct H as (_ & _ & _ & Hs & _).
  intros E. injection E as _ _ <-. cbn [leave out err saved]. rewrite upd_same. auto.
Qed.
(** Two threads whose contexts overlap. *)
Lemma overlap a b s : a <> b ->
  out (ctx_run [Enter (Buf a); Enter (Buf b); Leave (Buf a); Leave (Buf b)] s) = Some a /\
  err (ctx_run [Enter (Buf a); Enter (Buf b); Leave (Buf a); Leave (Buf b)] s) = Some a.
Proof.
  intros H. cbn [ctx_run fold_left ctx_step enter leave out err saved].
  rewrite (upd_other _ a _ b) by congruence. rewrite upd_same. auto.
Qed.
(** Any order of the calls of any number of threads: leaving a buffer brings back what was
    there when it was entered. *)
Definition about (o : nat) (e : ctx_event) : Prop := e = Enter (Buf o) \/ e = Leave (Buf o).
Lemma saved_kept o h : Forall (fun e => ~ about o e) h -> forall s, saved (ctx_run h s) o = saved s o.
Proof.
  induction 1 as [|e h He _ IH]; intros s; [reflexivity|].
  change (ctx_run (e :: h) s) with (ctx_run h (ctx_step s e)). rewrite IH.
  destruct e as [[o'|o' t|o' t]|[o'|o' t|o' t]]; cbn [ctx_step enter leave saved]; try reflexivity.
  - apply upd_other. intros ->. apply He. left. reflexivity.
  - apply upd_other. intros ->. apply He. right. reflexivity.
  - destruct (olds s o'); reflexivity.
  - destruct (olds s o'); reflexivity.
Qed.
Lemma leave_any h1 h2 o s : Forall (fun e => ~ about o e) h2 ->
  out (ctx_run (h1 ++ Enter (Buf o) :: h2 ++ [Leave (Buf o)]) s) = out (ctx_run h1 s) /\
  err (ctx_run (h1 ++ Enter (Buf o) :: h2 ++ [Leave (Buf o)]) s) = err (ctx_run h1 s).
Proof.
  intros H. unfold ctx_run at 1 3. rewrite fold_left_app. fold (ctx_run h1 s). cbn [fold_left]. rewrite fold_left_app.
  cbn [fold_left ctx_step]. fold (ctx_run h2 (enter (Buf o) (ctx_run h1 s))). cbn [leave out err].
  rewrite (saved_kept o h2 H). cbn [enter saved]. rewrite upd_same. auto.
Qed.
