(** * ProcMain: exact sequential behaviour of LineProcBuffer *)
From stdpp Require Import gmap.
From Coq Require Import List NArith ZArith Bool Arith Lia.
From Verif Require Import PyStr Prog ProgFacts PyIO Base Spec SpecFacts LineBuf LineBufFacts Locks Held Proc.
Import ListNotations.
Local Open Scope nat_scope.

(** ** LineBuffer methods in the held-locks semantics *)
Lemma hok_withLL {A} (body : prog bcmd A) d hs r d' :
  allowedb hs LL Ex = true -> nolock body -> drun body d = (r, d') -> hok (with_lock LL Ex body) d hs r d'.
Proof. intros Ha Hn Hr. apply hok_with; [exact Ha|]. apply hok_nolock; assumption. Qed.

Lemma hok_lb_write_open m data q v hs : allowedb hs LL Ex = true -> 1 <= m -> length q <= m ->
  hok (lb_write data) (bd m q v false) hs (Good (wres data))
      (bd m (last_items m (q ++ wlines v data)) (wtail v data) false).
Proof.
  intros Ha Hm Hq. unfold lb_write, lb_write_with, lb_write_gen. eapply hok_bind.
  - apply hok_withLL; [exact Ha|nolock_tac|reflexivity].
  - cbn [negb]. apply hok_withLL; [exact Ha|apply nolock_write_body, nolock_parse|].
    apply write_body_run; assumption.
Qed.

Lemma hok_lb_write_closed m data q v hs : allowedb hs LL Ex = true ->
  hok (lb_write data) (bd m q v true) hs (Fail OSError) (bd m q v true).
Proof.
  intros Ha. unfold lb_write, lb_write_with, lb_write_gen. eapply hok_bind.
  - apply hok_withLL; [exact Ha|nolock_tac|reflexivity].
  - apply hok_raise.
Qed.

(** ** Updating the system *)
Definition set_main (b : lbuf) (d : psys) : psys :=
  mkps (s_mirs d) (s_qs d) (s_state d) b (s_n d) (s_cur d) (s_maxlen d).
Definition set_n (n : Z) (d : psys) : psys :=
  mkps (s_mirs d) (s_qs d) (s_state d) (s_main d) n (s_cur d) (s_maxlen d).
Definition set_queue (q : list msg) (d : psys) : psys :=
  mkps (s_mirs d) (set_nth (cur_q d) q (s_qs d)) (s_state d) (s_main d) (s_n d) (s_cur d) (s_maxlen d).
Definition queue (d : psys) : list msg := nth (cur_q d) (s_qs d) [].

Lemma hok_on_main {A} (p : prog bcmd A) d hs r b :
  hok p (s_main d) hs r b -> hok (on_main p) d hs r (set_main b d).
Proof.
  intros (hs' & E & H). exists hs'. split; [|exact H]. unfold on_main.
  rewrite (hrun_lift e_pb s_main set_main (fun _ => True)); auto.
  - rewrite E. reflexivity.
  - intros []; reflexivity.
  - intros X c d'. simpl. destruct (bexec c (s_main d')) as [r1 b1]. reflexivity.
Qed.

(** ** What receive() does with one message (main buffer open) *)
Record mainst := mkmain { mq : list item; mpend : text; mn : Z }.

Definition rstep (m : nat) (x : msg) (a : mainst) : bool * mainst :=
  match x with
  | QStr s => (true, mkmain (last_items m (mq a ++ wlines (mpend a) s)) (wtail (mpend a) s) (mn a))
  | QError g => ((0 <? mn a - 1)%Z, mkmain (last_items m (mq a ++ [IMsg g])) (mpend a) (mn a - 1)%Z)
  | QWarning g => (true, mkmain (last_items m (mq a ++ [IMsg g])) (mpend a) (mn a))
  | QClose => ((0 <? mn a - 1)%Z, mkmain (mq a) (mpend a) (mn a - 1)%Z)
  | QStop => (false, mkmain (mq a) (mpend a) 0%Z)
  | QOther => (false, a)
  end.

(** With a closed main buffer, text is lost and receive() raises. *)
Definition rstepc (m : nat) (c : bool) (x : msg) (a : mainst) : outcome bool * mainst :=
  match x, c with
  | QStr _, true => (Fail OSError, a)
  | _, _ => (Good (fst (rstep m x a)), snd (rstep m x a))
  end.

Definition main_is (m : nat) (c : bool) (d : psys) (a : mainst) : Prop :=
  s_main d = bd m (mq a) (mpend a) c /\ s_n d = mn a /\ length (mq a) <= m /\ 1 <= m.
Definition main_set (m : nat) (c : bool) (a : mainst) (d : psys) : psys :=
  set_n (mn a) (set_main (bd m (mq a) (mpend a) c) d).

Lemma rstep_len m x a : length (mq a) <= m -> length (mq (snd (rstep m x a))) <= m.
Proof.
  intros H. destruct x; simpl; auto; rewrite last_items_length; lia.
Qed.

Lemma hok_check_close d hs :
  hok lp_check_close d hs (Good (0 <? s_n d - 1)%Z) (set_n (s_n d - 1)%Z d).
Proof.
  unfold lp_check_close. eapply hok_bind; [eapply hok_op; reflexivity|].
  eapply hok_bind; [eapply hok_op; reflexivity|]. eapply hok_bind; [eapply hok_op; reflexivity|]. apply hok_ret.
Qed.

Lemma set_nth_same {A} (l : list A) i d : i < length l -> set_nth i (nth i l d) l = l.
Proof. revert i. induction l as [|x l IH]; intros [|i] H; simpl in *; try lia; auto. f_equal. apply IH. lia. Qed.

Lemma rstepc_len m c x a : length (mq a) <= m -> length (mq (snd (rstepc m c x a))) <= m.
Proof. intros H. pose proof (rstep_len m x a H). destruct x, c; simpl in *; auto. Qed.

Lemma hok_receive_gen m c d a x rest : main_is m c d a -> queue d = x :: rest ->
  hok lp_receive d [] (fst (rstepc m c x a)) (main_set m c (snd (rstepc m c x a)) (set_queue rest d)).
Proof.
  intros (Hb & Hn & Hq & Hm) Hx. unfold lp_receive. apply hok_with; [reflexivity|].
  assert (HcL : allowedb [CFG] LL Ex = true) by reflexivity.
  eapply (hok_bind _ _ _ _ x _ _ _).
  { eapply hok_op. cbn [cexec psem pexec]. unfold queue in Hx. rewrite Hx. reflexivity. }
  change (mkps (s_mirs d) (set_nth (cur_q d) rest (s_qs d)) (s_state d) (s_main d) (s_n d) (s_cur d) (s_maxlen d))
    with (set_queue rest d).
  destruct a as [q v n]. unfold main_set. cbn [mq mpend mn] in *. destruct x; cbn [rstepc rstep fst snd mq mpend mn].
  - destruct c; cbn [fst snd mq mpend mn].
    { replace (set_n n (set_main (bd m q v true) (set_queue rest d)))
        with (set_main (bd m q v true) (set_queue rest d)) by (rewrite <- Hn; reflexivity).
      eapply hok_bind_fail. apply hok_on_main. cbn [s_main set_queue]. rewrite Hb. apply hok_lb_write_closed, HcL. }
    eapply hok_bind.
    + apply hok_on_main. cbn [s_main set_queue]. rewrite Hb. apply hok_lb_write_open; assumption.
    + replace (set_n n (set_main (bd m (last_items m (q ++ wlines v data)) (wtail v data) false) (set_queue rest d)))
        with (set_main (bd m (last_items m (q ++ wlines v data)) (wtail v data) false) (set_queue rest d));
        [apply hok_ret|]. rewrite <- Hn. reflexivity.
  - eapply hok_bind.
    + eapply hok_op. cbn [cexec psem pexec s_main set_queue]. rewrite Hb. cbn [bexec]. unfold on_dq. cbn [storage bd].
      rewrite dq_append_spec by assumption. reflexivity.
    + rewrite <- Hn. apply (hok_check_close (mkps _ _ _ _ _ _ _)).
  - eapply hok_bind.
    + eapply hok_op. cbn [cexec psem pexec s_main set_queue]. rewrite Hb. cbn [bexec]. unfold on_dq. cbn [storage bd].
      rewrite dq_append_spec by assumption. reflexivity.
    + rewrite <- Hn. apply (hok_ret true (mkps _ _ _ _ _ _ _)).
  - rewrite <- Hn, <- Hb. apply (hok_check_close (set_queue rest d)).
  - rewrite <- Hb. eapply hok_bind; [eapply hok_op; reflexivity|]. apply (hok_ret false (mkps _ _ _ _ _ _ _)).
  - rewrite <- Hb, <- Hn. apply (hok_ret false (set_queue rest d)).
Qed.

Lemma hok_receive m d a x rest : main_is m false d a -> queue d = x :: rest ->
  hok lp_receive d [] (Good (fst (rstep m x a))) (main_set m false (snd (rstep m x a)) (set_queue rest d)).
Proof.
  intros H1 H2. pose proof (hok_receive_gen m false d a x rest H1 H2) as H. destruct x; exact H.
Qed.

Lemma hok_receive_empty d : queue d = [] -> hok lp_receive d [] Block d.
Proof.
  intros Hx. apply hok_with; [reflexivity|]. apply hok_bind_block. eapply hok_op.
  cbn [cexec psem pexec]. unfold queue in Hx. rewrite Hx. reflexivity.
Qed.

(** ** wait(): the loop of receive over the queue *)
Fixpoint wstep (m : nat) (xs : list msg) (a : mainst) : option (mainst * list msg) :=
  match xs with
  | [] => None                                (* blocks on the empty queue *)
  | x :: xs' => let '(go, a') := rstep m x a in
                if go then wstep m xs' a' else Some (a', xs')
  end.

(** The state after receiving all messages. *)
Definition rsteps (m : nat) (xs : list msg) (a : mainst) : mainst :=
  fold_left (fun a x => snd (rstep m x a)) xs a.

Definition valid_q (d : psys) : Prop := cur_q d < length (s_qs d).

Lemma set_nth_length {A} i (x : A) l : length (set_nth i x l) = length l.
Proof. revert i. induction l as [|y l IH]; intros [|i]; simpl; auto. Qed.
Lemma nth_set_nth {A} i (x d : A) l : i < length l -> nth i (set_nth i x l) d = x.
Proof. revert i. induction l as [|y l IH]; intros [|i] H; simpl in *; try lia; auto. apply IH. lia. Qed.
Lemma nth_set_nth_ne {A} i j (x d : A) l : i <> j -> nth i (set_nth j x l) d = nth i l d.
Proof. revert i j. induction l as [|y l IH]; intros [|i] [|j] H; simpl in *; auto; try congruence. Qed.
Lemma set_nth_set_nth {A} i (x y : A) l : set_nth i x (set_nth i y l) = set_nth i x l.
Proof. revert i. induction l as [|z l IH]; intros [|i]; simpl; auto. f_equal. apply IH. Qed.

Lemma queue_set_queue q d : valid_q d -> queue (set_queue q d) = q.
Proof. intros H. unfold queue, cur_q, set_queue. simpl. apply nth_set_nth, H. Qed.
Lemma set_queue_twice q q' d : set_queue q (set_queue q' d) = set_queue q d.
Proof. unfold set_queue, cur_q. simpl. rewrite set_nth_set_nth. reflexivity. Qed.
Lemma queue_main_set m false a d : queue (main_set m false a d) = queue d.
Proof. reflexivity. Qed.
Lemma set_queue_same d : valid_q d -> set_queue (queue d) d = d.
Proof. intros H. unfold set_queue, queue. rewrite set_nth_same by exact H. destruct d; reflexivity. Qed.
Lemma valid_main_set m false a d : valid_q (main_set m false a d) <-> valid_q d.
Proof. reflexivity. Qed.
Lemma valid_set_queue q d : valid_q (set_queue q d) <-> valid_q d.
Proof. unfold valid_q, cur_q, set_queue. simpl. rewrite set_nth_length. reflexivity. Qed.
Lemma main_is_set m c a d : length (mq a) <= m -> 1 <= m -> main_is m c (main_set m c a d) a.
Proof. intros. split; [reflexivity|]. split; [reflexivity|]. auto. Qed.
Lemma main_set_twice m a a' q d : main_set m false a (set_queue q (main_set m false a' d)) = main_set m false a (set_queue q d).
Proof. reflexivity. Qed.

Lemma hok_wait_ok m : forall xs fuel d a a' rest, valid_q d -> main_is m false d a -> queue d = xs ->
  wstep m xs a = Some (a', rest) -> length xs <= fuel ->
  hok (lp_wait fuel) d [] (Good tt) (main_set m false a' (set_queue rest d)).
Proof.
  induction xs as [|x xs IH]; intros fuel d a a' rest Hv Hm Hq Hw Hf; [discriminate|].
  destruct fuel as [|fuel]; [simpl in Hf; lia|]. cbn [lp_wait].
  pose proof (hok_receive m d a x xs Hm Hq) as Hr. cbn [wstep] in Hw.
  pose proof Hm as (_ & _ & Hlen & Hm1). pose proof (rstep_len m x a Hlen) as Hlen'.
  destruct (rstep m x a) as [go a1]. cbn [fst snd] in *. eapply hok_bind; [exact Hr|]. destruct go.
  - set (d1 := main_set m false a1 (set_queue xs d)) in *.
    replace (main_set m false a' (set_queue rest d)) with (main_set m false a' (set_queue rest d1)).
    + apply (IH fuel d1 a1); auto.
      * subst d1. rewrite valid_main_set, valid_set_queue. exact Hv.
      * apply main_is_set; assumption.
      * subst d1. rewrite queue_main_set, queue_set_queue by exact Hv. reflexivity.
      * simpl in Hf. lia.
    + subst d1. rewrite main_set_twice, set_queue_twice. reflexivity.
  - injection Hw as <- <-. apply hok_ret.
Qed.

Lemma hok_wait_block m : forall xs fuel d a, valid_q d -> main_is m false d a -> queue d = xs ->
  wstep m xs a = None -> length xs < fuel ->
  hok (lp_wait fuel) d [] Block (main_set m false (rsteps m xs a) (set_queue [] d)).
Proof.
  induction xs as [|x xs IH]; intros fuel d a Hv Hm Hq Hw Hf.
  - destruct fuel as [|fuel]; [simpl in Hf; lia|]. cbn [lp_wait]. simpl rsteps.
    replace (main_set m false a (set_queue [] d)) with d.
    + apply hok_bind_block, hok_receive_empty, Hq.
    + rewrite <- Hq, set_queue_same by exact Hv. destruct Hm as (H1 & H2 & _).
      unfold main_set, set_n, set_main. simpl. rewrite <- H1, <- H2. destruct d; reflexivity.
  - destruct fuel as [|fuel]; [simpl in Hf; lia|]. cbn [lp_wait].
    pose proof (hok_receive m d a x xs Hm Hq) as Hr. cbn [wstep] in Hw. cbn [rsteps fold_left].
    pose proof Hm as (_ & _ & Hlen & Hm1). pose proof (rstep_len m x a Hlen) as Hlen'.
    destruct (rstep m x a) as [go a1]. cbn [fst snd] in *. eapply hok_bind; [exact Hr|]. destruct go; [|discriminate].
    set (d1 := main_set m false a1 (set_queue xs d)) in *.
    replace (main_set m false (fold_left (fun a x => snd (rstep m x a)) xs a1) (set_queue [] d))
      with (main_set m false (rsteps m xs a1) (set_queue [] d1)).
    + apply (IH fuel d1 a1); auto.
      * subst d1. rewrite valid_main_set, valid_set_queue. exact Hv.
      * apply main_is_set; assumption.
      * subst d1. rewrite queue_main_set, queue_set_queue by exact Hv. reflexivity.
      * simpl in Hf. lia.
    + subst d1. rewrite main_set_twice, set_queue_twice. reflexivity.
Qed.
