(** * ReaderProofs: proofs of C57 *)
From Coq Require Import List ZArith Bool Arith Lia.
From Verif Require Import Reader ReaderSpec.
Import ListNotations.
Local Open Scope nat_scope.

Lemma rd_run_app h1 : forall s h2,
  rd_run s (h1 ++ h2) =
  (fst (rd_run s h1) ++ fst (rd_run (snd (rd_run s h1)) h2), snd (rd_run (snd (rd_run s h1)) h2)).
Proof.
  induction h1 as [|e h IH]; intros s h2; cbn [rd_run app fst snd].
  - destruct (rd_run s h2); reflexivity.
  - destruct (rd_step s e) as [l s1]. rewrite IH. destruct (rd_run s1 h) as [ls s2]. reflexivity.
Qed.
Lemma uses_app a b : uses (a ++ b) = uses a + uses b.
Proof. unfold uses. rewrite filter_app, app_length. reflexivity. Qed.

Lemma upd_last (l : list bool) x y : firstn (length l) (l ++ [x]) ++ [y] ++ skipn (S (length l)) (l ++ [x]) = l ++ [y].
Proof.
  rewrite firstn_app, Nat.sub_diag, firstn_all. cbn [firstn]. rewrite app_nil_r.
  rewrite skipn_all2 by (rewrite app_length; cbn; lia). reflexivity.
Qed.

(** Before the first REnter. *)
Lemma before h : ~ In REnter h -> snd (rd_run rd_init h) = mkrd None 0 (repeat false (uses h)).
Proof.
  induction h as [|e h IH] using rev_ind; [reflexivity|]. intros H.
  assert (Hh : ~ In REnter h) by (intros Hi; apply H, in_or_app; left; exact Hi).
  rewrite rd_run_app. cbn [snd]. rewrite (IH Hh), uses_app. destruct e as [| |ok].
  - exfalso. apply H, in_or_app. right. left. reflexivity.
  - cbn. rewrite Nat.add_0_r. reflexivity.
  - cbn [rd_run rd_step rd_use rd_http snd rd_stack rd_pools]. unfold rd_next. cbn [rd_pools]. rewrite repeat_length.
    change (uses [RUse ok]) with 1. rewrite Nat.add_1_r.
    f_equal. cbn [pacts_run pact_run repeat]. rewrite repeat_cons.
    assert (Hl : length (repeat false (uses h)) = uses h) by apply repeat_length.
    clear IH. revert Hl. generalize (repeat false (uses h)). intros l <-. rewrite !upd_last. reflexivity.
Qed.
Definition holding (b : list revent) : bool :=
  fold_left (fun x e => match e with RUse _ => true | RExit => false | REnter => x end) b false.
Lemma after a b : ~ In REnter a ->
  exists stack, (stack = 0 \/ stack = 1)%Z /\
  snd (rd_run rd_init (a ++ REnter :: b)) = mkrd (Some (uses a)) stack (repeat false (uses a) ++ [holding b]).
Proof.
  intros Ha. induction b as [|e b IH] using rev_ind.
  - exists 1%Z. split; [auto|]. rewrite rd_run_app. cbn [snd]. rewrite (before a Ha).
    cbn. unfold rd_next. cbn [rd_pools]. rewrite repeat_length. reflexivity.
  - destruct IH as (stack & Hs & IH).
    replace (a ++ REnter :: b ++ [e]) with ((a ++ REnter :: b) ++ [e]) by (rewrite <- app_assoc; reflexivity).
    rewrite rd_run_app. cbn [snd]. rewrite IH. unfold holding. rewrite fold_left_app. fold (holding b).
    cbn [fold_left]. destruct e as [| |ok].
    + exists stack. split; [exact Hs|]. reflexivity.
    + exists 0%Z. split; [auto|]. cbn [rd_run rd_step snd]. unfold rd_exit. cbn [rd_http rd_stack rd_pools].
      assert (Hl : length (repeat false (uses a)) = uses a) by apply repeat_length.
      replace (if (0 <? stack)%Z then (stack - 1)%Z else stack) with 0%Z by (destruct Hs as [-> | ->]; reflexivity).
      change (0 <=? 0)%Z with true. cbn [snd pacts_run pact_run].
      clear IH. revert Hl. generalize (repeat false (uses a)). intros l <-. rewrite upd_last. reflexivity.
    + exists stack. split; [exact Hs|]. cbn [rd_run rd_step snd]. unfold rd_use. cbn [rd_http rd_stack rd_pools snd pacts_run pact_run].
      assert (Hl : length (repeat false (uses a)) = uses a) by apply repeat_length.
      clear IH. revert Hl. generalize (repeat false (uses a)). intros l <-. rewrite upd_last. reflexivity.
Qed.
Lemma first_enter h : In REnter h -> exists a, entered_after a h.
Proof.
  induction h as [|e h IH]; [intros []|]. destruct e as [| |ok].
  - intros _. exists []. split; [intros []|]. exists h. reflexivity.
  - intros [H|H]; [discriminate|]. destruct (IH H) as (a & Ha & b & ->). exists (RExit :: a).
    split; [intros [E|E]; [discriminate|auto]|]. exists b. reflexivity.
  - intros [H|H]; [discriminate|]. destruct (IH H) as (a & Ha & b & ->). exists (RUse ok :: a).
    split; [intros [E|E]; [discriminate|auto]|]. exists b. reflexivity.
Qed.
Lemma enter_in a h : entered_after a h -> In REnter h.
Proof. intros (_ & b & ->). apply in_or_app. right. left. reflexivity. Qed.

Definition revent_dec (x y : revent) : {x = y} + {x <> y}.
Proof. decide equality. apply bool_dec. Defined.

Lemma what_happens h e l : last_act h e = l <-> does h e l.
Proof.
  assert (Hto : forall l, does h e l -> last_act h e = l).
  { clear l. intros l [H|a [Ha (b & ->)]|H|a [Ha (b & ->)]|ok H|ok a [Ha (b & ->)]]; unfold last_act.
    - rewrite (before h H). cbn. unfold rd_next. cbn [rd_pools]. rewrite repeat_length. reflexivity.
    - destruct (after a b Ha) as (st & _ & ->). reflexivity.
    - rewrite (before h H). reflexivity.
    - destruct (after a b Ha) as (st & Hs & ->). destruct Hs as [-> | ->]; reflexivity.
    - rewrite (before h H). cbn [rd_step]. unfold rd_use, rd_next. cbn [rd_http rd_pools fst]. rewrite repeat_length. reflexivity.
    - destruct (after a b Ha) as (st & _ & ->). reflexivity. }
  split; [|apply Hto]. intros <-.
  assert (Hd : exists l, does h e l).
  { assert (Hdec : In REnter h \/ ~ In REnter h).
    { destruct (in_dec revent_dec REnter h); auto. }
    destruct Hdec as [Hi|Hi].
    - destruct (first_enter h Hi) as (a & Ha). destruct e; eexists; econstructor; exact Ha.
    - destruct e; eexists; constructor; exact Hi. }
  destruct Hd as (l & Hd). rewrite (Hto l Hd). exact Hd.
Qed.

Lemma holding_iff b : holding b = true <-> exists b1 ok b2, b = b1 ++ RUse ok :: b2 /\ ~ In RExit b2.
Proof.
  induction b as [|e b IH] using rev_ind.
  - split; [discriminate|]. intros (b1 & ok & b2 & H & _). destruct b1; discriminate.
  - unfold holding. rewrite fold_left_app. fold (holding b). cbn [fold_left]. destruct e as [| |ok].
    + rewrite IH. split.
      * intros (b1 & ok & b2 & -> & H). exists b1, ok, (b2 ++ [REnter]). split; [rewrite <- app_assoc; reflexivity|].
        intros Hi. apply in_app_or in Hi. destruct Hi as [Hi|[Hi|[]]]; [auto|discriminate].
      * intros (b1 & ok & b2 & H & Hn). destruct b2 as [|y b2 _] using rev_ind.
        { apply app_inj_tail in H. destruct H; discriminate. }
        change (b1 ++ RUse ok :: b2 ++ [y]) with (b1 ++ (RUse ok :: b2) ++ [y]) in H. rewrite app_assoc in H.
        apply app_inj_tail in H. destruct H as [-> _]. exists b1, ok, b2. split; [reflexivity|].
        intros Hi. apply Hn, in_or_app. left. exact Hi.
    + split; [discriminate|]. intros (b1 & ok & b2 & H & Hn). exfalso. destruct b2 as [|y b2 _] using rev_ind.
      { apply app_inj_tail in H. destruct H; discriminate. }
      change (b1 ++ RUse ok :: b2 ++ [y]) with (b1 ++ (RUse ok :: b2) ++ [y]) in H. rewrite app_assoc in H.
      apply app_inj_tail in H. destruct H as [_ <-]. apply Hn, in_or_app. right. left. reflexivity.
    + split; [|reflexivity]. intros _. exists b, ok, []. split; [reflexivity|intros []].
Qed.
(** Which pools hold connections after [h]. *)
Lemma holding_pools h k : nth_error (pools_after h) k = Some true <->
  exists a b1 ok b2, ~ In REnter a /\ h = a ++ REnter :: b1 ++ RUse ok :: b2 /\ ~ In RExit b2 /\ k = uses a.
Proof.
  unfold pools_after. split.
  - intros H. destruct (in_dec revent_dec REnter h) as [Hi|Hi].
    + destruct (first_enter h Hi) as (a & Ha & b & ->). destruct (after a b Ha) as (st & _ & E). rewrite E in H. cbn [rd_pools] in H.
      destruct (Nat.lt_ge_cases k (uses a)) as [Hk|Hk].
      { rewrite nth_error_app1 in H by (rewrite repeat_length; exact Hk).
        rewrite nth_error_repeat in H by exact Hk. discriminate. }
      rewrite nth_error_app2, repeat_length in H by (rewrite repeat_length; exact Hk).
      destruct (k - uses a) as [|n] eqn:Ek; [|destruct n; discriminate]. cbn in H. injection H as H.
      apply holding_iff in H. destruct H as (b1 & ok & b2 & -> & Hn). exists a, b1, ok, b2.
      split; [exact Ha|]. split; [reflexivity|]. split; [exact Hn|lia].
    + rewrite (before h Hi) in H. cbn [rd_pools] in H. apply nth_error_In, repeat_spec in H. discriminate.
  - intros (a & b1 & ok & b2 & Ha & -> & Hn & ->). destruct (after a (b1 ++ RUse ok :: b2) Ha) as (st & _ & ->). cbn [rd_pools].
    rewrite nth_error_app2, repeat_length, Nat.sub_diag by (rewrite repeat_length; lia). cbn.
    f_equal. apply holding_iff. exists b1, ok, b2. auto.
Qed.
Lemma pools_count h : length (pools_after h) <= uses h + 1.
Proof.
  unfold pools_after. destruct (in_dec revent_dec REnter h) as [Hi|Hi].
  - destruct (first_enter h Hi) as (a & Ha & b & ->). destruct (after a b Ha) as (st & _ & ->). cbn [rd_pools].
    rewrite app_length, repeat_length, uses_app. cbn [length]. lia.
  - rewrite (before h Hi). cbn [rd_pools]. rewrite repeat_length. lia.
Qed.
