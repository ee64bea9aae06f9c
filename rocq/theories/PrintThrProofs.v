(** * PrintThrProofs: proofs for PropPrintThr.v *)
From stdpp Require Import gmap.
From Coq Require Import List NArith ZArith Bool Arith Lia.
From Verif Require Import PyStr Prog ProgFacts PyIO Base Spec SpecFacts LineBuf LineBufSpec LineBufFacts LineBufProofs LineBufConcProofs Conc Locks Atomic Serial Blocks
  Ctx CtxProofs Print PrintSpec PrintProofs PrintThr.
From Verif Require MirLedger.
From Verif Require PrintPoolProofs.
Import ListNotations.
Local Open Scope prog_scope.
Local Open Scope nat_scope.

Lemma texec_nb X (c : tcmd X) d : fst (texec c d) <> Block.
Proof.
  destruct c as [a|o data|o X c]; simpl.
  - destruct a; simpl; try discriminate. destruct (olds (pr_sys d) o); discriminate.
  - discriminate.
  - pose proof (bexec_nb X c (pr_buf d o)) as H. destruct (bexec c (pr_buf d o)). exact H.
Qed.

(** ** The parts: 1 are the attributes, [2 * o] the LineBuffer [o], [2 * o + 3] the stream [o] *)
Definition eqT (l : nat) (d d' : tproc) : Prop :=
  if l =? 1 then pr_sys d = pr_sys d'
  else if Nat.even l then pr_buf d (Nat.div2 l) = pr_buf d' (Nat.div2 l)
  else pr_con d (Nat.div2 l - 1) = pr_con d' (Nat.div2 l - 1).
Lemma eqT_equiv l : Equivalence (eqT l).
Proof.
  unfold eqT. destruct (l =? 1); [|destruct (Nat.even l)]; (split; [intros ?; reflexivity|intros ? ? H; symmetry; exact H|intros ? ? ? H1 H2; etransitivity; eauto]).
Qed.
Lemma eqT_sys d d' : eqT 1 d d' <-> pr_sys d = pr_sys d'.
Proof. reflexivity. Qed.
Lemma even_2 o : Nat.even (2 * o) = true.
Proof. rewrite Nat.even_mul. reflexivity. Qed.
Lemma eqT_buf o d d' : eqT (2 * o) d d' <-> pr_buf d o = pr_buf d' o.
Proof.
  unfold eqT. replace (2 * o =? 1) with false by (symmetry; apply Nat.eqb_neq; lia).
  rewrite even_2, Nat.div2_double. reflexivity.
Qed.
Lemma odd_3 o : Nat.even (2 * o + 3) = false.
Proof. rewrite Nat.even_add, even_2. reflexivity. Qed.
Lemma div2_3 o : Nat.div2 (2 * o + 3) - 1 = o.
Proof. replace (2 * o + 3) with (S (2 * (o + 1))) by lia. rewrite Nat.div2_succ_double. lia. Qed.
Lemma eqT_con o d d' : eqT (2 * o + 3) d d' <-> pr_con d o = pr_con d' o.
Proof.
  unfold eqT. replace (2 * o + 3 =? 1) with false by (symmetry; apply Nat.eqb_neq; lia).
  rewrite odd_3, div2_3. reflexivity.
Qed.
(** Every number is one of these. *)
Lemma part_cases l : l = 1 \/ (exists o, l = 2 * o) \/ (exists o, l = 2 * o + 3).
Proof.
  destruct (Nat.Even_or_Odd l) as [[o ->]|[o ->]]; [right; left; eauto|].
  destruct o as [|o]; [left; reflexivity|]. right; right. exists o. lia.
Qed.

(** ** Events *)
Lemma puts_app o l l' : puts o (l ++ l') = puts o l ++ puts o l'.
Proof. apply flat_map_app. Qed.
Lemma follows_app s l s1 : follows s l s1 -> forall l' s', follows s1 l' s' -> follows s (l ++ l') s'.
Proof. induction 1; intros l' s2 H2; cbn [app]; [exact H2|constructor; auto|econstructor; eauto]. Qed.
Lemma follows_app_inv l : forall s l' s', follows s (l ++ l') s' -> exists s1, follows s l s1 /\ follows s1 l' s'.
Proof.
  induction l as [|e l IH]; intros s l' s' H; cbn [app] in H; [exists s; split; [constructor|exact H]|].
  inversion H; subst.
  - destruct (IH _ _ _ H4) as (s1 & H1 & H2). exists s1. split; [constructor; exact H1|exact H2].
  - destruct (IH _ _ _ H5) as (s2 & H1 & H2). exists s2. split; [econstructor; eauto|exact H2].
Qed.
Lemma log_steps_app os g g1 : log_steps os g g1 -> forall os' g2, log_steps os' g1 g2 -> log_steps (os ++ os') g g2.
Proof. induction 1; intros os' g3 H3; cbn [app]; [exact H3|econstructor; eauto]. Qed.
Lemma map_snd_pair {X} (i : nat) (es : list X) : map snd (map (pair i) es) = es.
Proof. rewrite map_map. induction es as [|e es IH]; [reflexivity|]. cbn [map]. rewrite IH. reflexivity. Qed.

Lemma does_hangs exc b es : ~ does exc b es Hangs.
Proof.
  intros H. remember Hangs as r eqn:E. induction H; try discriminate; auto.
  destruct H1; cbn in E; try discriminate; auto.
Qed.

(** ** Methods of one LineBuffer *)
Section At.
  Variable o : nat.
  Lemma reg_buf X (c : bcmd X) m : m = Ex -> reg (fun _ => True) eqT (fun _ (_ : tproc) => tt) (2 * o) m (TBuf o c).
  Proof.
    intros ->. split; [|split; [|split]].
    - intros d1 d2 E. apply eqT_buf in E. simpl. rewrite E. destruct (bexec c (pr_buf d2 o)) as [r b].
      split; [reflexivity|]. apply eqT_buf. simpl. rewrite !upd_same. reflexivity.
    - intros l d Hl _. simpl. destruct (bexec c (pr_buf d o)) as [r b]. simpl.
      destruct (part_cases l) as [->|[[o' ->]|[o' ->]]].
      + apply eqT_sys. reflexivity.
      + apply eqT_buf. simpl. rewrite upd_other by lia. reflexivity.
      + apply eqT_con. reflexivity.
    - reflexivity.
    - discriminate.
  Qed.
  Lemma sec_at {A} (p : prog bcmd A) : nolock p ->
    sec (fun _ => True) eqT (fun _ (_ : tproc) => tt) (2 * o) Ex (at_obj o (try_finally p (release LL))).
  Proof.
    induction 1 as [a|e|X c k h Hk IHk Hh IHh]; simpl.
    - apply sec_end.
    - apply sec_end.
    - apply sec_op; [apply reg_buf; reflexivity|auto..].
  Qed.
  Definition ret_of {A} (r : outcome A) : prog bcmd A :=
    match r with Good a => Ret a | Fail e => Raise e | Block => Raise RuntimeError end.
  Definition after_at {A} (p : prog bcmd A) (d : tproc) : tproc := snd (srun (at_obj o p) d).
  Lemma upto_at {A} (p : prog bcmd A) : nolock p -> forall d,
    upto (2 * o) (at_obj o (try_finally p (release LL))) d = Some (at_obj o (ret_of (fst (drun p (pr_buf d o)))), after_at p d) /\
    pr_sys (after_at p d) = pr_sys d /\ (forall o', pr_con (after_at p d) o' = pr_con d o') /\
    pr_buf (after_at p d) o = snd (drun p (pr_buf d o)) /\ (forall o', o' <> o -> pr_buf (after_at p d) o' = pr_buf d o').
  Proof.
    induction 1 as [a|e|X c k h Hk IHk Hh IHh]; intros d.
    - simpl. rewrite Nat.eqb_refl. auto.
    - simpl. rewrite Nat.eqb_refl. auto.
    - pose proof (bexec_nb X c (pr_buf d o)) as Hnb. unfold after_at in *. simpl.
      destruct (bexec c (pr_buf d o)) as [r b] eqn:E. cbn [fst] in Hnb.
      assert (Hu : pr_buf (mktproc (pr_sys d) (pr_con d) (upd (pr_buf d) o b)) o = b) by apply upd_same.
      destruct r as [x|e|]; [| |congruence].
      + specialize (IHk x (mktproc (pr_sys d) (pr_con d) (upd (pr_buf d) o b))). rewrite Hu in IHk.
        destruct IHk as (H1 & H2 & H3 & H4 & H5). split; [exact H1|]. split; [exact H2|]. split; [exact H3|]. split; [exact H4|].
        intros o' Ho'. rewrite H5 by exact Ho'. simpl. apply upd_other, Ho'.
      + specialize (IHh e (mktproc (pr_sys d) (pr_con d) (upd (pr_buf d) o b))). rewrite Hu in IHh.
        destruct IHh as (H1 & H2 & H3 & H4 & H5). split; [exact H1|]. split; [exact H2|]. split; [exact H3|]. split; [exact H4|].
        intros o' Ho'. rewrite H5 by exact Ho'. simpl. apply upd_other, Ho'.
  Qed.
End At.

(** ** The account *)
Section Account.
  Variable isbuf : nat -> bool.
  Variable exc : exn -> excobj.
  Variable size : nat -> nat.                (* maxlen of the LineBuffers *)
  Variable log0 : nat -> slog.               (* their logs in the beginning *)
  Variable d0 : tproc.
  Hypothesis Hsize : forall o, isbuf o = true -> 1 <= size o.

  Definition Jt (l : nat) (g : list (nat * event)) (d : tproc) : Prop :=
    if l =? 1 then follows (pr_sys d0) (map snd g) (pr_sys d)
    else if Nat.even l then let o := Nat.div2 l in
      isbuf o = true -> exists lg, log_steps (map SWrite (puts o (map snd g))) (log0 o) lg /\ buf_shows (size o) lg (pr_buf d o)
    else let o := Nat.div2 l - 1 in isbuf o = false -> pr_con d o = pr_con d0 o ++ concat (puts o (map snd g)).
  Lemma Jt_sys g d : Jt 1 g d <-> follows (pr_sys d0) (map snd g) (pr_sys d).
  Proof. reflexivity. Qed.
  Lemma Jt_buf o g d : Jt (2 * o) g d <->
    (isbuf o = true -> exists lg, log_steps (map SWrite (puts o (map snd g))) (log0 o) lg /\ buf_shows (size o) lg (pr_buf d o)).
  Proof.
    unfold Jt. replace (2 * o =? 1) with false by (symmetry; apply Nat.eqb_neq; lia).
    rewrite even_2, Nat.div2_double. reflexivity.
  Qed.
  Lemma Jt_con o g d : Jt (2 * o + 3) g d <-> (isbuf o = false -> pr_con d o = pr_con d0 o ++ concat (puts o (map snd g))).
  Proof.
    unfold Jt. replace (2 * o + 3 =? 1) with false by (symmetry; apply Nat.eqb_neq; lia). rewrite odd_3, div2_3. reflexivity.
  Qed.
  Lemma Jt_eq L g d d' : eqT L d d' -> Jt L g d -> Jt L g d'.
  Proof.
    unfold eqT, Jt. destruct (L =? 1); [intros <-; auto|]. destruct (Nat.even L); intros E; cbv zeta; rewrite E; auto.
  Qed.
  Notation bl i R p := (blk (fun _ => True) eqT (fun _ (_ : tproc) => tt) Jt i tt R p).

  (** Events that concern other parts only. *)
  Lemma stable_attr a r l g d i : l <> 1 -> Jt l g d -> Jt l (g ++ map (pair i) [Attr a r]) d.
  Proof.
    intros Hl. destruct (part_cases l) as [->|[[o ->]|[o ->]]]; [congruence|rewrite !Jt_buf|rewrite !Jt_con];
      rewrite map_app, map_snd_pair, puts_app; cbn [puts flat_map]; rewrite !app_nil_r; auto.
  Qed.
  Lemma puts_other o o' data : o' <> o -> puts o [Put o' data] = [].
  Proof. intros H. apply Nat.eqb_neq in H. cbn. rewrite H. reflexivity. Qed.
  Lemma puts_own o data : puts o [Put o data] = [data].
  Proof. cbn. rewrite Nat.eqb_refl. reflexivity. Qed.
  Lemma stable_put o data l g d i : l <> (if isbuf o then 2 * o else 2 * o + 3) -> Jt l g d -> Jt l (g ++ map (pair i) [Put o data]) d.
  Proof.
    intros Hl. destruct (part_cases l) as [->|[[o' ->]|[o' ->]]]; [rewrite !Jt_sys|rewrite !Jt_buf|rewrite !Jt_con];
      rewrite map_app, map_snd_pair, ?puts_app.
    - intros H. eapply follows_app; [exact H|]. constructor. constructor.
    - intros H Hb. destruct (Nat.eq_dec o o') as [->|Hne]; [rewrite Hb in Hl; lia|]. rewrite puts_other, app_nil_r by exact Hne. auto.
    - intros H Hb. destruct (Nat.eq_dec o o') as [->|Hne]; [rewrite Hb in Hl; lia|]. rewrite puts_other, app_nil_r by exact Hne. auto.
  Qed.

  Lemma reg_attr a : reg (fun _ => True) eqT (fun _ (_ : tproc) => tt) 1 Ex (TAttr a).
  Proof.
    split; [|split; [|split]].
    - intros d1 d2 E. apply eqT_sys in E. simpl. rewrite E. destruct (attr a (pr_sys d2)) as [r s]. split; reflexivity.
    - intros l d Hl _. simpl. destruct (attr a (pr_sys d)) as [r s]. simpl.
      destruct (part_cases l) as [->|[[o' ->]|[o' ->]]]; [congruence|apply eqT_buf|apply eqT_con]; reflexivity.
    - reflexivity.
    - discriminate.
  Qed.
  Lemma bl_attr i a (R : list event -> unit -> outcome (option nat) -> Prop) :
    (forall s, R [Attr a (fst (attr a s))] tt (fst (attr a s))) -> bl i R (top a).
  Proof.
    intros H. apply (blk_one _ _ _ _ _ _ _ 1 _ (fun g d => [Attr a (fst (attr a (pr_sys d)))])); [exact I|reflexivity|apply reg_attr|].
    intros g d HJ. apply Jt_sys in HJ.
    assert (E : cexec (TAttr a) d = (fst (attr a (pr_sys d)), mktproc (snd (attr a (pr_sys d))) (pr_con d) (pr_buf d))).
    { simpl. destruct (attr a (pr_sys d)). reflexivity. }
    split; [|split].
    - rewrite E. apply Jt_sys. cbn [snd pr_sys]. rewrite map_app, map_snd_pair. eapply follows_app; [exact HJ|].
      econstructor; [|constructor]. destruct (attr a (pr_sys d)). reflexivity.
    - intros l g' d1 Hl _. apply stable_attr, Hl.
    - rewrite E. apply H.
  Qed.
  (** An attribute, then the rest. *)
  Lemma bl_then {A} i a (k : option nat -> prog tcmd A) (R : list event -> unit -> outcome A -> Prop) :
    (forall s x, fst (attr a s) = Good x -> bl i (fun es o r => R (did a x :: es) o r) (k x)) ->
    (forall s e, fst (attr a s) = Fail e -> R [Attr a (Fail e)] tt (Fail e)) ->
    bl i R (bind (top a) k).
  Proof.
    intros Hk He. eapply (blk_bind _ _ _ _ i tt (fun es o r => exists s, r = fst (attr a s) /\ es = [Attr a r])).
    - apply bl_attr. intros s. exists s. auto.
    - intros es [] x (s & E & ->). apply (Hk s x). auto.
    - intros es [] e (s & E & ->). apply (He s). auto.
  Qed.
  (** The answer is always a value. *)
  Lemma bl_get {A} i a (k : option nat -> prog tcmd A) (R : list event -> unit -> outcome A -> Prop) :
    (forall o, a <> Pop o) -> (forall s x, fst (attr a s) = Good x -> bl i (fun es o r => R (did a x :: es) o r) (k x)) ->
    bl i R (bind (top a) k).
  Proof.
    intros Ha Hk. apply bl_then; [exact Hk|]. intros s e He. destruct a; try discriminate. destruct (Ha o eq_refl).
  Qed.
  Lemma bl_ret {A} i (a : A) (R : list event -> unit -> outcome A -> Prop) : R [] tt (Good a) -> bl i R (Ret a).
  Proof. apply blk_ret. Qed.

  Ltac one := apply bl_get; [intros ?; discriminate|intros ? ? E; cbn in E; injection E as <-].
  Ltac two := apply bl_get; [intros ?; discriminate|intros ? ? _].
  Lemma bl_enter i m : bl i (fun es _ r => enters m es /\ r = Good tt) (t_enter m).
  Proof.
    destruct m as [o|o t|o t]; cbn [t_enter]; two.
    - one. two. one. one. one. apply bl_ret. split; [constructor|reflexivity].
    - one. one. apply bl_ret. split; [constructor|reflexivity].
    - one. one. apply bl_ret. split; [constructor|reflexivity].
  Qed.
  Lemma pop_fail o s e : fst (attr (Pop o) s) = Fail e -> e = IndexError.
  Proof. simpl. destruct (olds s o); simpl; [congruence|discriminate]. Qed.
  Lemma bl_leave i m : bl i (fun es _ r => leaves m es r) (t_leave m).
  Proof.
    destruct m as [o|o t|o t]; cbn [t_leave].
    - two. one. two. one. one. one. apply bl_ret. constructor.
    - apply bl_then.
      + intros s x _. one. apply bl_ret. constructor.
      + intros s e He. apply pop_fail in He. subst e. constructor.
    - apply bl_then.
      + intros s x _. one. apply bl_ret. constructor.
      + intros s e He. apply pop_fail in He. subst e. constructor.
  Qed.

  (** write() *)
  Lemma shows_bd m g b : buf_shows m g b <-> b = bd m (last_items m (done g)) (pend g) false.
  Proof.
    unfold buf_shows, bd, fl. destruct b as [[q m'] [v p c]]. simpl. split.
    - intros (-> & -> & -> & -> & ->). reflexivity.
    - intros E. injection E as -> -> -> -> ->. auto.
  Qed.
  Lemma shows_write m g data : 1 <= m -> exists n g',
    log_write data g g' /\ drun (lb_write_body lb_parse_lines data) (bd m (last_items m (done g)) (pend g) false) =
      (Good n, bd m (last_items m (done g')) (pend g') false).
  Proof.
    intros Hm. exists (wres data), (gwrite data g). split; [apply log_write_fun; reflexivity|].
    rewrite write_body_run; [|exact Hm|rewrite last_items_length; lia]. rewrite last_items_app_idem. reflexivity.
  Qed.

  Lemma bl_lb i o data : isbuf o = true ->
    bl i (fun es _ r => es = [Put o data] /\ exists n, r = Good n) (at_obj o (lb_write data)).
  Proof.
    intros Hb. pose proof (Hsize o Hb) as Hm.
    set (body := lb_write_body lb_parse_lines data).
    assert (Hn : nolock body) by (apply nolock_write_body; intros l; apply nolock_parse).
    assert (H2 : bl i (fun es _ r => es = [Put o data] /\ exists n, r = Good n) (at_obj o (with_lock LL Ex body))).
    { apply (blk_enter _ _ _ _ _ _ _ (2 * o) Ex _ _ (fun _ _ => [Put o data])
               (fun g d => at_obj o (ret_of (fst (drun body (pr_buf d o))))) (fun g d => after_at o body d)).
      - exact I.
      - unfold reent. rewrite <- Nat.negb_even, even_2. reflexivity.
      - apply sec_at, Hn.
      - intros g d HJ. destruct (upto_at o body Hn d) as (U1 & U2 & U3 & U4 & U5).
        split; [exact U1|]. split.
        + apply Jt_buf. intros _. destruct (proj1 (Jt_buf o g d) HJ Hb) as (lg & L1 & L2). apply shows_bd in L2.
          destruct (shows_write (size o) lg data Hm) as (n & g' & W1 & W2). exists g'. rewrite map_app, map_snd_pair, puts_app, puts_own, map_app. split.
          * eapply log_steps_app; [exact L1|]. econstructor; [constructor; exact W1|constructor].
          * apply shows_bd. rewrite U4, L2. unfold body. rewrite W2. reflexivity.
        + intros l g' d1 Hl _. apply stable_put. rewrite Hb. exact Hl.
      - intros g d HJ. destruct (proj1 (Jt_buf o g d) HJ Hb) as (lg & L1 & L2). apply shows_bd in L2.
        destruct (shows_write (size o) lg data Hm) as (n & g' & W1 & W2). rewrite L2. unfold body. rewrite W2. cbn [fst ret_of at_obj].
        apply bl_ret. split; [reflexivity|eauto]. }
    apply (blk_enter _ _ _ _ _ _ _ (2 * o) Ex _ _ (fun _ _ => [])
             (fun g d => at_obj o (with_lock LL Ex body)) (fun g d => snd (texec (TBuf o FClosed) d))).
    - exact I.
    - unfold reent. rewrite <- Nat.negb_even, even_2. reflexivity.
    - cbn. apply sec_op; [apply reg_buf; reflexivity| |]; intros; cbn; apply sec_end.
    - intros g d HJ. destruct (proj1 (Jt_buf o g d) HJ Hb) as (lg & L1 & L2). apply shows_bd in L2. split; [|split].
      + cbn. rewrite L2. cbn. rewrite Nat.eqb_refl. reflexivity.
      + apply Jt_buf. intros _. exists lg. rewrite app_nil_r. split; [exact L1|]. apply shows_bd. cbn. rewrite L2. cbn. apply upd_same.
      + intros l g' d1 _ _. rewrite app_nil_r. auto.
    - intros g d _. exact H2.
  Qed.
  Lemma reg_say o data : reg (fun _ => True) eqT (fun _ (_ : tproc) => tt) (2 * o + 3) Ex (TSay o data).
  Proof.
    split; [|split; [|split]].
    - intros d1 d2 E. apply eqT_con in E. split; [reflexivity|]. apply eqT_con. simpl. rewrite !upd_same, E. reflexivity.
    - intros l d Hl _. simpl. destruct (part_cases l) as [->|[[o' ->]|[o' ->]]]; [apply eqT_sys|apply eqT_buf|apply eqT_con]; simpl; auto.
      rewrite upd_other by lia. reflexivity.
    - reflexivity.
    - discriminate.
  Qed.
  Lemma bl_write i o data : bl i (fun es _ r => es = [Put o data] /\ exists n, r = Good n) (t_write isbuf o data).
  Proof.
    unfold t_write. destruct (isbuf o) eqn:Hb; [apply bl_lb, Hb|].
    apply (blk_one _ _ _ _ _ _ _ (2 * o + 3) _ (fun _ _ => [Put o data])); [exact I| |apply reg_say|].
    - unfold reent. rewrite <- Nat.negb_even, odd_3. reflexivity.
    - intros g d HJ. split; [|split; [|split; [reflexivity|eauto]]].
      + apply Jt_con. intros _. rewrite map_app, map_snd_pair, puts_app, puts_own, concat_app. simpl. rewrite upd_same.
        rewrite (proj1 (Jt_con o g d) HJ Hb), app_nil_r, <- app_assoc. reflexivity.
      + intros l g' d1 Hl _. apply stable_put. rewrite Hb. exact Hl.
  Qed.
  Lemma bl_puts i o ts : bl i (fun es _ r => es = map (Put o) ts /\ r = Good Ends) (t_puts isbuf exc o ts).
  Proof.
    induction ts as [|data ts IH]; cbn [t_puts map]; [apply bl_ret; auto|].
    eapply (blk_bind _ _ _ _ i tt (fun es _ r => es = [Put o data] /\ exists n, r = Good (Good n))).
    - eapply blk_attempt; [apply bl_write|]. intros es [] r (-> & n & ->). eauto.
    - intros es [] a (-> & n & E). injection E as ->. cbn [after_call]. eapply blk_more; [apply IH|].
      intros es [] r (-> & ->). auto.
    - intros es [] e (_ & n & E). discriminate.
  Qed.
  Lemma bl_print i x ts : bl i (fun es _ r => es = put x ts /\ r = Good Ends) (t_print isbuf exc x ts).
  Proof. destruct x as [o|]; cbn [t_print put]; [apply bl_puts|apply bl_ret; auto]. Qed.

  Lemma bl_code i b : bl i (fun es _ r => exists e, r = Good e /\ does exc b es e) (tprog isbuf exc b).
  Proof.
    induction b as [|te ts|e|b1 IH1 b2 IH2|b IH|m b IH]; cbn [tprog].
    - apply bl_ret. eexists. split; [reflexivity|constructor].
    - destruct te.
      + apply bl_get; [intros ?; discriminate|]. intros _ y _. destruct y as [o|].
        * eapply blk_more; [apply bl_print|]. intros es [] r (-> & ->). eexists. split; [reflexivity|]. apply (do_err exc ts o).
        * apply bl_get; [intros ?; discriminate|]. intros _ x _.
          eapply blk_more; [apply bl_print|]. intros es [] r (-> & ->). eexists. split; [reflexivity|]. constructor.
      + apply bl_get; [intros ?; discriminate|]. intros _ x _.
        eapply blk_more; [apply bl_print|]. intros es [] r (-> & ->). eexists. split; [reflexivity|]. constructor.
    - apply bl_ret. eexists. split; [reflexivity|constructor].
    - eapply blk_bind; [apply IH1| |].
      + intros es [] a (e & E & H1). injection E as ->. destruct e as [|e|].
        * eapply blk_more; [apply IH2|]. intros es2 [] r (e2 & -> & H2). eexists. split; [reflexivity|]. econstructor; eauto.
        * apply bl_ret. eexists. split; [reflexivity|]. rewrite app_nil_r. apply do_stop, H1.
        * exfalso. revert H1. apply does_hangs.
      + intros es [] e (x & E & _). discriminate.
    - eapply blk_bind; [apply IH| |].
      + intros es [] a (e & E & H1). injection E as ->. apply bl_ret. eexists. split; [reflexivity|]. rewrite app_nil_r. destruct e as [|e|].
        * apply do_try, H1.
        * eapply do_caught, H1.
        * exfalso. revert H1. apply does_hangs.
      + intros es [] e (x & E & _). discriminate.
    - eapply blk_bind; [apply bl_enter| |intros es [] e (_ & E); discriminate].
      intros es1 [] _ (H1 & _). eapply blk_bind; [apply IH| |intros es [] e (x & E & _); discriminate].
      intros es2 [] a (e & E & H2). injection E as ->. eapply blk_bind; [eapply blk_attempt; [apply bl_leave|]| |].
      + intros es [] r H. instantiate (1 := fun es _ r => exists x, r = Good x /\ leaves m es x). cbn beta. eauto.
      + intros es3 [] a' (x & E & H3). injection E as ->. apply bl_ret. eexists. split; [reflexivity|]. rewrite app_nil_r. econstructor; eauto.
      + intros es3 [] a' (x & E & H3). discriminate.
  Qed.

  Lemma wlk_at {A} o b (p : prog bcmd A) : nolock p -> wlk b (2 * o :: b) (at_obj o (try_finally p (release LL))).
  Proof. induction 1; cbn; constructor; auto; constructor. Qed.
  Lemma wlk_write b o data : may_acq b (2 * o) Ex -> wlk b b (t_write isbuf o data).
  Proof.
    intros Hb. unfold t_write. destruct (isbuf o); [|cbn; constructor; intros; constructor].
    cbn. constructor; [exact Hb|]. cbn. constructor; intros; cbn; constructor; [|constructor].
    destruct (negb (negb x)); cbn; [constructor|]. constructor; [exact Hb|].
    apply wlk_at. apply nolock_write_body. intros l. apply nolock_parse.
  Qed.
  Lemma free_acq l : may_acq [] l Ex.
  Proof. split; [discriminate|]. left. constructor. Qed.
  Lemma wlk_print x ts : wlk [] [] (t_print isbuf exc x ts).
  Proof.
    destruct x as [o|]; cbn [t_print]; [|constructor]. induction ts as [|data ts IH]; cbn [t_puts]; [constructor|].
    apply wlk_bind; [apply wlk_attempt, wlk_write, free_acq|]. intros a. destruct (after_call exc a Ends); [exact IH|constructor..].
  Qed.
  Lemma wlk_top {A} a (k : option nat -> prog tcmd A) : (forall x, wlk [] [] (k x)) -> wlk [] [] (bind (top a) k).
  Proof. intros H. cbn. constructor; [exact H|constructor]. Qed.
  Lemma wlk_code b : wlk [] [] (tprog isbuf exc b).
  Proof.
    induction b as [|te ts|e|b1 IH1 b2 IH2|b IH|m b IH]; cbn [tprog].
    - constructor.
    - destruct te; apply wlk_top; intros y; [|apply wlk_print].
      destruct y; [apply wlk_print|]. apply wlk_top. intros x. apply wlk_print.
    - constructor.
    - apply wlk_bind; [exact IH1|]. intros [| |]; [exact IH2|constructor..].
    - apply wlk_bind; [exact IH|]. intros r. constructor.
    - apply wlk_bind.
      + destruct m; cbn [t_enter]; repeat (apply wlk_top; intros ?); constructor.
      + intros _. apply wlk_bind; [exact IH|]. intros r. apply wlk_bind; [|intros x; constructor].
        apply wlk_attempt. destruct m; cbn [t_leave]; repeat (apply wlk_top; intros ?); constructor.
  Qed.
  Lemma wlk_tpool codes : Forall (wlk [] []) (t_pool isbuf exc codes).
  Proof. apply List.Forall_forall. intros p Hp. apply in_map_iff in Hp. destruct Hp as (b & <- & _). apply wlk_code. Qed.
End Account.

Lemma map_events_of {X} i (g : list (nat * X)) : tagged i g = events_of i g.
Proof. reflexivity. Qed.

Lemma c91_account isbuf exc size log codes d sch ps s' :
  (forall o, isbuf o = true -> 1 <= size o /\ buf_shows (size o) (log o) (pr_buf d o)) ->
  sched_run sch (t_pool isbuf exc codes, mkst d ∅) = Some (ps, s') -> Forall (fun p => finished p = true) ps ->
  exists g : list (nat * event),
    Forall (fun e => fst e < length codes) g /\
    (forall i c, codes !! i = Some c -> exists r, ps !! i = Some (Ret r) /\ does exc c (events_of i g) r) /\
    follows (pr_sys d) (map snd g) (pr_sys (dat s')) /\
    (forall o, isbuf o = false -> pr_con (dat s') o = pr_con d o ++ concat (puts o (map snd g))) /\
    (forall o, isbuf o = true -> exists lg, log_steps (map SWrite (puts o (map snd g))) (log o) lg /\
       buf_shows (size o) lg (pr_buf (dat s') o)).
Proof.
  intros Hb Hr Hfin.
  pose (Rf := fun (i : nat) (es : list event) (_ : unit) (r : outcome ending) =>
    match codes !! i with None => False | Some c => exists e, r = Good e /\ does exc c es e end).
  pose proof (blocks (fun _ => True) texec_nb eqT eqT_equiv (fun _ (_ : tproc) => tt) (Jt isbuf size log d) (Jt_eq isbuf size log d) Rf sch
    (t_pool isbuf exc codes) d ps s') as HB.
  destruct HB as (g & G1 & G2 & G3); auto.
  - apply wlk_tpool.
  - intros i p Hp. unfold t_pool in Hp. rewrite list_lookup_fmap in Hp. unfold Rf.
    destruct (codes !! i) as [c|]; [|discriminate]. injection Hp as <-. apply bl_code. intros o Ho. apply Hb, Ho.
  - intros l _. destruct (part_cases l) as [->|[[o ->]|[o ->]]].
    + apply Jt_sys. constructor.
    + apply Jt_buf. intros Ho. exists (log o). split; [constructor|]. apply Hb, Ho.
    + apply Jt_con. intros _. cbn. rewrite app_nil_r. reflexivity.
  - exists g. assert (Hlen : length ps = length codes).
    { transitivity (length (t_pool isbuf exc codes)); [exact (MirLedger.pool_length sch _ _ Hr)|]. apply map_length. }
    split; [rewrite <- Hlen; exact G1|]. split; [|split; [|split]].
    + intros i c Hc. assert (Hi : i < length ps) by (rewrite Hlen; eapply lookup_lt_Some; eauto).
      destruct (lookup_lt_is_Some_2 ps i Hi) as [p Hp]. destruct (G2 i p Hp) as (r & E & _ & HR). unfold Rf in HR. rewrite Hc in HR.
      destruct HR as (e & -> & HR). subst p. exists e. auto.
    + exact (G3 1 I).
    + intros o. exact (proj1 (Jt_con isbuf size log d o g (dat s')) (G3 _ I)).
    + intros o. exact (proj1 (Jt_buf isbuf size log d o g (dat s')) (G3 _ I)).
Qed.

(** ** One thread redirects *)
Definition still (e : event) : Prop :=
  match e with Put _ _ => True | Attr a r => match a with GetOut | GetErr | LoadOut _ | LoadErr _ => True | _ => False end end.
Lemma still_attr a r s s1 : still (Attr a r) -> attr a s = (r, s1) -> s1 = s.
Proof. destruct a; cbn; intros H E; try contradiction; injection E as <- <-; reflexivity. Qed.
Lemma follows_of k g : forall s s', follows s (map snd g) s' -> (forall i e, In (i, e) g -> i <> k -> still e) ->
  follows s (events_of k g) s'.
Proof.
  induction g as [|[i e] g IH]; intros s s' H Hq; cbn [map snd] in H; [exact H|].
  assert (Hq' : forall i e, In (i, e) g -> i <> k -> still e) by (intros; eapply Hq; eauto; right; eassumption).
  unfold events_of. cbn [filter fst]. destruct (Nat.eqb_spec i k) as [->|Hne].
  - cbn [map snd]. inversion H; subst; [apply fo_put; apply IH; auto|eapply fo_attr; [eassumption|apply IH; auto]].
  - assert (Hs : still e) by (eapply Hq; [left; reflexivity|exact Hne]).
    inversion H; subst; [apply IH; auto|]. rewrite (still_attr a r s s1 Hs H3) in H5. apply IH; auto.
Qed.
Lemma follows_still l : forall s s', follows s l s' -> Forall still l -> s' = s.
Proof.
  induction l as [|e l IH]; intros s s' H Hs; inversion H; subst; inversion Hs; subst; auto.
  rewrite (still_attr a r s s1) in H5 by assumption. auto.
Qed.
Lemma still_put x ts : Forall still (put x ts).
Proof. destruct x as [o|]; cbn; [|constructor]. apply List.Forall_forall. intros e He. apply in_map_iff in He. destruct He as (t & <- & _). exact I. Qed.
Lemma no_context_still exc b es r : does exc b es r -> no_context b -> Forall still es.
Proof.
  induction 1 as [|ts x|ts o|ts x|e|b1 b2 l1 l2 r H1 IH1 H2 IH2|b1 b2 l e H IH|b l H IH|b l e H IH|m b l1 l2 l3 r x He H IH Hl];
    cbn [no_context]; intros Hn; try contradiction; try solve [constructor].
  - constructor; [exact I|apply still_put].
  - constructor; [exact I|apply still_put].
  - constructor; [exact I|]. constructor; [exact I|apply still_put].
  - apply List.Forall_app. destruct Hn. auto.
  - apply IH, Hn.
  - apply IH, Hn.
  - apply IH, Hn.
Qed.

(** The states on the way. *)
Fixpoint always (P : sys -> Prop) (s : sys) (l : list event) : Prop :=
  P s /\ match l with
         | [] => True
         | Put _ _ :: l => always P s l
         | Attr a _ :: l => always P (snd (attr a s)) l
         end.
Lemma always_head P s l : always P s l -> P s.
Proof. destruct l; intros [H _]; exact H. Qed.
Lemma always_more (P Q : sys -> Prop) l : (forall s, P s -> Q s) -> forall s, always P s l -> always Q s l.
Proof. intros H. induction l as [|[a r|o data] l IH]; cbn; intros s [H1 H2]; auto. Qed.
Lemma always_app P l : forall s s1 l', always P s l -> follows s l s1 -> always P s1 l' -> always P s (l ++ l').
Proof.
  induction l as [|e l IH]; intros s s1 l' H Hf H'; cbn [app].
  - inversion Hf; subst. exact H'.
  - inversion Hf; subst; cbn in *; destruct H as [H1 H2]; split; auto; [eapply IH; eauto|].
    rewrite H3 in *. cbn [snd] in *. eapply IH; eauto.
Qed.
Lemma always_of P k g : forall s s', follows s (map snd g) s' -> (forall i e, In (i, e) g -> i <> k -> still e) ->
  always P s (events_of k g) -> always P s (map snd g).
Proof.
  induction g as [|[i e] g IH]; intros s s' H Hq HA; cbn [map snd] in *; [exact HA|].
  assert (Hq' : forall i e, In (i, e) g -> i <> k -> still e) by (intros; eapply Hq; eauto; right; eassumption).
  unfold events_of in HA. cbn [filter fst] in HA. destruct (Nat.eqb_spec i k) as [->|Hne].
  - cbn [map snd] in HA. inversion H; subst; cbn in HA |- *; destruct HA as [H1 H2]; split; auto; [eapply IH; eauto|].
    rewrite H3 in *. cbn [snd] in *. eapply IH; eauto.
  - assert (Hs : still e) by (eapply Hq; [left; reflexivity|exact Hne]).
    pose proof (always_head _ _ _ HA) as H1.
    inversion H; subst; cbn; split; auto; [eapply IH; eauto|].
    match goal with E : attr ?a s = (?r, ?s1) |- _ => rewrite E; cbn [snd]; rewrite (still_attr a r s s1 Hs E) in * end. eapply IH; eauto.
Qed.

Definition among (s : sys) (ts : list nat) (x : option nat) : Prop := x = out s \/ x = err s \/ exists o, x = Some o /\ In o ts.
Definition look_among (s : sys) (ts : list nat) (s1 : sys) : Prop := among s ts (out s1) /\ among s ts (err s1).
Lemma among_self s ts : look_among s ts s.
Proof. split; [left|right; left]; reflexivity. Qed.
Lemma among_more s s1 ts ts' x : look_among s ts' s1 -> incl ts ts' -> among s1 ts x -> among s ts' x.
Proof. intros [H1 H2] Hi [->|[->|(o & -> & Ho)]]; auto. right; right. eauto. Qed.
Lemma look_more s s1 ts ts' s2 : look_among s ts' s1 -> incl ts ts' -> look_among s1 ts s2 -> look_among s ts' s2.
Proof. intros H Hi [H1 H2]. split; eapply among_more; eauto. Qed.

Lemma put_pairs_app l l' : put_pairs (l ++ l') = put_pairs l ++ put_pairs l'.
Proof. apply flat_map_app. Qed.
Lemma wrote_pairs_app l l' : wrote_pairs (l ++ l') = wrote_pairs l ++ wrote_pairs l'.
Proof. apply flat_map_app. Qed.
Lemma all_good_app l l' : all_good l -> all_good l' -> all_good (l ++ l').
Proof. intros H1 H2. apply List.Forall_app. auto. Qed.
Lemma keeps_trans b1 b2 s s1 s2 : keeps b1 s s1 -> keeps b2 s1 s2 -> keeps (KSeq b1 b2) s s2.
Proof.
  intros (A1 & A2 & A3 & A4) (B1 & B2 & B3 & B4). split; [congruence|]. split; [congruence|]. split.
  - intros o Ho. cbn [entered] in Ho. rewrite B3, A3; auto; intros H; apply Ho, in_or_app; auto.
  - intros o. rewrite B4. apply A4.
Qed.
Ltac inv H := inversion H; subst; clear H.
Ltac run_attrs := repeat match goal with
  | H : follows _ (Attr _ _ :: _) _ |- _ => inv H
  | H : follows _ (Put _ _ :: _) _ |- _ => inv H
  | H : follows _ [] _ |- _ => inv H
  | H : attr _ _ = _ |- _ => cbn in H; injection H; clear H; intros; subst
  end.

Definition eq_sys (s s' : sys) : Prop :=
  out s = out s' /\ err s = err s' /\ (forall o, saved s o = saved s' o) /\ (forall o, olds s o = olds s' o).
Definition tgt (m : manager) : nat := match m with Buf o => o | ROut _ t => t | RErr _ t => t end.
Lemma enters_follows m l s s1 : enters m l -> follows s l s1 ->
  eq_sys s1 (enter m s) /\ always (look_among s [tgt m]) s l /\ put_pairs l = [].
Proof.
  intros He Hf. destruct He as [o x y|o t x|o t x]; run_attrs; (split; [|split; [|reflexivity]]).
  - split; [reflexivity|]. split; [reflexivity|]. split; [|reflexivity]. intros o'. cbn. unfold upd. destruct (o' =? o); [|reflexivity]. rewrite Nat.eqb_refl. reflexivity.
  - cbn. unfold look_among, among. cbn. intuition eauto.
  - repeat split.
  - cbn. unfold look_among, among. cbn. intuition eauto.
  - repeat split.
  - cbn. unfold look_among, among. cbn. intuition eauto.
Qed.
Definition between (s s1 s2 : sys) : Prop := (out s2 = out s \/ out s2 = out s1) /\ (err s2 = err s \/ err s2 = err s1).
Lemma leaves_follows m l x s s1 : leaves m l x -> follows s l s1 ->
  match m with Buf _ => True | ROut o _ | RErr o _ => olds s o <> [] end ->
  x = Good tt /\ eq_sys s1 (leave m s) /\ always (between s s1) s l /\ put_pairs l = [].
Proof.
  intros Hl Hf Hne. destruct Hl as [o x y|o t x|o t x|o t|o t].
  - run_attrs. split; [reflexivity|]. split; [|split; [|reflexivity]].
    + split; [reflexivity|]. split; [reflexivity|]. split; [|reflexivity]. intros o'. cbn. unfold upd. destruct (o' =? o); [|reflexivity]. rewrite Nat.eqb_refl. reflexivity.
    + cbn. unfold between. cbn. intuition eauto.
  - inv Hf. match goal with H : attr (Pop _) _ = _ |- _ => rename H into H2; cbn in H2 end. destruct (olds s o) as [|z zs] eqn:E; [congruence|]. injection H2 as <- <-. run_attrs.
    split; [reflexivity|]. split; [|split; [|reflexivity]].
    + cbn [leave]. rewrite E. repeat split.
    + cbn. rewrite E. unfold between. cbn. intuition eauto.
  - inv Hf. match goal with H : attr (Pop _) _ = _ |- _ => rename H into H2; cbn in H2 end. destruct (olds s o) as [|z zs] eqn:E; [congruence|]. injection H2 as <- <-. run_attrs.
    split; [reflexivity|]. split; [|split; [|reflexivity]].
    + cbn [leave]. rewrite E. repeat split.
    + cbn. rewrite E. unfold between. cbn. intuition eauto.
  - inv Hf. match goal with H : attr (Pop _) _ = _ |- _ => rename H into H2; cbn in H2 end. destruct (olds s o) as [|z zs] eqn:E; [congruence|discriminate].
  - inv Hf. match goal with H : attr (Pop _) _ = _ |- _ => rename H into H2; cbn in H2 end. destruct (olds s o) as [|z zs] eqn:E; [congruence|discriminate].
Qed.

(** One thread alone, or one whose attributes no other thread changes. *)
Lemma follows_put x ts : forall s s', follows s (put x ts) s' -> s' = s.
Proof.
  destruct x as [o|]; cbn; [|intros; run_attrs; reflexivity].
  induction ts as [|t ts IH]; cbn; intros s s' H; run_attrs; [reflexivity|]. match goal with F : follows _ _ _ |- _ => apply IH in F; exact F end.
Qed.
Lemma always_put (P : sys -> Prop) x ts s : P s -> always P s (put x ts).
Proof. intros H. destruct x as [o|]; cbn; [|auto]. induction ts as [|t ts IH]; cbn; auto. Qed.
Lemma keeps_put te ts s : keeps (put_all te ts) s s.
Proof. repeat split. Qed.
Definition wrote_all (x : option nat) (ts : list text) : list happened :=
  match x with None => [] | Some o => map (fun t => Wrote o t (Good 0)) ts end.
Lemma told_all exc x y (te : bool) ts (z : option nat) : z = (if te then match y with Some _ => y | None => x end else x) ->
  told exc x y (put_all te ts) (wrote_all z ts) Ends /\ all_good (wrote_all z ts) /\ wrote_pairs (wrote_all z ts) = put_pairs (put z ts).
Proof.
  intros Hz. induction ts as [|t ts IH]; cbn [put_all].
  - destruct z; (split; [constructor|]; split; [constructor|reflexivity]).
  - destruct IH as (T & G & W). destruct z as [o|]; cbn [wrote_all put map] in *.
    + split; [|split].
      * change (Wrote o t (Good 0) :: map (fun t0 => Wrote o t0 (Good 0)) ts) with ([Wrote o t (Good 0)] ++ map (fun t0 => Wrote o t0 (Good 0)) ts).
        eapply t_seq; [|exact T]. destruct te; [destruct y as [o'|]|].
        -- apply (t_err exc _ _ o t (Good 0)). congruence.
        -- apply (t_err_out exc _ _ o t (Good 0)); congruence.
        -- apply (t_out exc _ _ o t (Good 0)). congruence.
      * constructor; [eexists; reflexivity|exact G].
      * cbn. f_equal. exact W.
    + split; [|split; [constructor|reflexivity]].
      apply (t_seq exc x y (KPut te t) (put_all te ts) [] []); [|exact T]. destruct te; [destruct y; [discriminate|]|]; subst x; constructor.
Qed.

(** One thread alone, or one whose attributes no other thread changes. *)
Lemma does_told exc b es r : does exc b es r -> well_nested (as_code b) -> forall s s', follows s es s' ->
  (exists l, told exc (out s) (err s) (as_code b) l r /\ all_good l /\ wrote_pairs l = put_pairs es) /\
  keeps (as_code b) s s' /\ always (look_among s (targets b)) s es.
Proof.
  induction 1 as [|ts x|ts o|ts x|e|b1 b2 l1 l2 r H1 IH1 H2 IH2|b1 b2 l e H IH|b l H IH|b l e H IH|m b l1 l2 l3 r x He H IH Hl];
    cbn [as_code well_nested]; intros Hn s s' Hf.
  - run_attrs. split; [exists []; repeat constructor|]. split; [repeat split|]. cbn. split; [apply among_self|exact I].
  - run_attrs. match goal with F : follows _ _ _ |- _ => apply follows_put in F; subst end.
    split; [eexists; apply told_all; reflexivity|]. split; [apply keeps_put|]. cbn. split; [apply among_self|]. apply always_put, among_self.
  - inversion Hf as [| |? ? ? ? ? ? Ea F]; subst. cbn in Ea. injection Ea as Ea <-. apply (follows_put (Some o)) in F. subst s'. rewrite Ea.
    split; [eexists; apply told_all; reflexivity|]. split; [apply keeps_put|]. cbn [always]. split; [apply among_self|]. apply (always_put _ (Some o)), among_self.
  - inversion Hf as [| |? ? ? ? ? ? Ea F]; subst. cbn in Ea. injection Ea as Ea <-. run_attrs.
    match goal with F : follows _ _ _ |- _ => apply follows_put in F; subst end. rewrite Ea.
    split; [eexists; apply told_all; reflexivity|]. split; [apply keeps_put|].
    cbn. split; [apply among_self|]. split; [apply among_self|]. apply always_put, among_self.
  - run_attrs. split; [exists []; repeat constructor|]. split; [repeat split|]. cbn. split; [apply among_self|exact I].
  - destruct Hn as [N1 N2]. destruct (follows_app_inv _ _ _ _ Hf) as (s1 & F1 & F2).
    destruct (IH1 N1 _ _ F1) as ((l1' & T1 & G1 & W1) & K1 & A1). destruct (IH2 N2 _ _ F2) as ((l2' & T2 & G2 & W2) & K2 & A2).
    pose proof K1 as (E1 & E2 & _). rewrite E1, E2 in T2. split; [|split].
    + exists (l1' ++ l2'). split; [econstructor; eauto|]. split; [apply all_good_app; auto|]. rewrite wrote_pairs_app, put_pairs_app, W1, W2. reflexivity.
    + eapply keeps_trans; eauto.
    + eapply always_app; [|exact F1|].
      * eapply always_more; [|exact A1]. intros s2. apply look_more; [apply among_self|]. cbn. apply incl_appl, incl_refl.
      * eapply always_more; [|exact A2]. intros s2. apply look_more; [split; [left|right; left]; auto|]. cbn. apply incl_appr, incl_refl.
  - destruct Hn as [N1 N2]. destruct (IH N1 _ _ Hf) as ((l' & T1 & G1 & W1) & K1 & A1). split; [|split].
    + exists l'. split; [apply t_stop; [discriminate|exact T1]|auto].
    + destruct K1 as (E1 & E2 & E3 & E4). repeat split; auto. intros o Ho. apply E3. intros Hi. apply Ho. cbn. apply in_or_app. auto.
    + eapply always_more; [|exact A1]. intros s2. apply look_more; [apply among_self|]. cbn. apply incl_appl, incl_refl.
  - destruct (IH Hn _ _ Hf) as ((l' & T1 & G1 & W1) & K1 & A1). split; [|split; [exact K1|exact A1]].
    exists l'. split; [apply t_try; auto|auto].
  - destruct (IH Hn _ _ Hf) as ((l' & T1 & G1 & W1) & K1 & A1). split; [|split; [exact K1|exact A1]].
    exists l'. split; [eapply t_caught; eauto|auto].
  - destruct (follows_app_inv _ _ _ _ Hf) as (s1 & F1 & F23). destruct (follows_app_inv _ _ _ _ F23) as (s2 & F2 & F3).
    assert (Hr : r <> Hangs) by (intros ->; exact (does_hangs _ _ _ H)).
    assert (N : well_nested (as_code b)) by (destruct m; tauto). destruct (IH N _ _ F2) as ((l' & T1 & G1 & W1) & (E1 & E2 & E3 & E4) & A1).
    destruct (enters_follows _ _ _ _ He F1) as ((S1 & S2 & S3 & S4) & A0 & P1). rewrite S1, S2 in T1.
    assert (Hne : match m with Buf _ => True | ROut o _ | RErr o _ => olds s2 o <> [] end).
    { destruct m as [o|o t|o t]; [exact I|..]; rewrite E4, S4; cbn; rewrite upd_same; discriminate. }
    destruct (leaves_follows _ _ _ _ _ Hl F3 Hne) as (-> & (L1 & L2 & L3 & L4) & A2 & P3).
    assert (K : keeps (KWith m (as_code b)) s s').
    { destruct m as [o|o t|o t]; cbn [leave enter] in *.
      - destruct Hn as [Ni _]. cbn in *. rewrite E3, S3, upd_same in L1, L2 by exact Ni. cbn in L1, L2.
        split; [exact L1|]. split; [exact L2|]. split.
        + intros o' Ho'. cbn in Ho'. rewrite L3, upd_other by (intros ->; apply Ho'; auto). rewrite E3 by (intros Hi; apply Ho'; auto).
          rewrite S3. apply upd_other. intros ->; apply Ho'; auto.
        + intros o'. rewrite L4, E4. apply S4.
      - rewrite E4, S4 in L1, L2, L3, L4. cbn in L1, L2, L3, L4, S1, S2, S3, S4. rewrite upd_same in L1, L2, L3, L4. cbn in L1, L2, L3, L4.
        split; [exact L1|]. split; [congruence|]. split.
        + intros o' Ho'. rewrite L3, E3, S3 by exact Ho'. reflexivity.
        + intros o'. rewrite L4. destruct (Nat.eq_dec o' o) as [->|Hd]; [apply upd_same|].
          rewrite upd_other, E4, S4, upd_other by exact Hd. reflexivity.
      - rewrite E4, S4 in L1, L2, L3, L4. cbn in L1, L2, L3, L4, S1, S2, S3, S4. rewrite upd_same in L1, L2, L3, L4. cbn in L1, L2, L3, L4.
        split; [congruence|]. split; [exact L2|]. split.
        + intros o' Ho'. rewrite L3, E3, S3 by exact Ho'. reflexivity.
        + intros o'. rewrite L4. destruct (Nat.eq_dec o' o) as [->|Hd]; [apply upd_same|].
          rewrite upd_other, E4, S4, upd_other by exact Hd. reflexivity. }
    split; [|split; [exact K|]].
    + cbn [after_call]. rewrite !put_pairs_app, P1, P3, <- W1, app_nil_r. cbn [app]. destruct m as [o|o t|o t].
      * exists (l' ++ [Left o (exc_value r) (Good tt)]). split; [apply (t_buf exc _ _ o (as_code b) l' r (Good tt) Hr T1)|]. split.
        -- apply all_good_app; [exact G1|repeat constructor].
        -- rewrite wrote_pairs_app. cbn. apply app_nil_r.
      * exists l'. split; [apply t_rout; [exact Hr|exact T1]|auto].
      * exists l'. split; [apply t_rerr; [exact Hr|exact T1]|auto].
    + set (ts := targets (TWith m b)).
      assert (It : In (tgt m) ts) by (destruct m; left; reflexivity).
      assert (Is : incl (targets b) ts) by (destruct m; apply incl_tl, incl_refl).
      assert (V1 : look_among s ts s1).
      { destruct m as [o|o t|o t]; cbn in S1, S2, It; unfold look_among, among; rewrite S1, S2; eauto 10. }
      assert (V2 : look_among s ts s2) by (unfold look_among in *; rewrite E1, E2; exact V1).
      assert (V3 : look_among s ts s').
      { destruct K as (K1 & K2 & _). unfold look_among, among. rewrite K1, K2. auto. }
      eapply always_app; [|exact F1|].
      { eapply always_more; [|exact A0]. intros x. apply look_more; [apply among_self|]. intros y [<-|[]]. exact It. }
      eapply always_app; [|exact F2|].
      { eapply always_more; [|exact A1]. intros x. apply look_more; assumption. }
      eapply always_more; [|exact A2]. intros x [B1 B2]. unfold look_among in *.
      destruct B1 as [->| ->], B2 as [->| ->]; tauto.
Qed.

Lemma in_events {X} i (e : X) g : In (i, e) g <-> In e (events_of i g).
Proof.
  unfold events_of. split.
  - intros H. apply in_map_iff. exists (i, e). split; [reflexivity|]. apply List.filter_In. cbn. rewrite Nat.eqb_refl. auto.
  - intros H. apply in_map_iff in H. destruct H as ([j x] & <- & H). apply List.filter_In in H. destruct H as [H1 H2]. cbn in H2.
    apply Nat.eqb_eq in H2. subst j. exact H1.
Qed.
Lemma in_put o data x ts : In (Put o data) (put x ts) -> x = Some o.
Proof. destruct x as [p|]; cbn; [|intros []]. intros H. apply in_map_iff in H. destruct H as (t & E & _). congruence. Qed.
(** A thread writes only to what it has found. *)
Lemma does_looks exc b es r o data : does exc b es r -> In (Put o data) es ->
  In (did GetOut (Some o)) es \/ In (did GetErr (Some o)) es.
Proof.
  induction 1 as [|ts x|ts p|ts x|e|b1 b2 l1 l2 r H1 IH1 H2 IH2|b1 b2 l e H IH|b l H IH|b l e H IH|m b l1 l2 l3 r x He H IH Hl];
    cbn [In]; intros Hi; try contradiction; auto.
  - destruct Hi as [Hi|Hi]; [discriminate|]. apply in_put in Hi. subst x. auto.
  - destruct Hi as [Hi|Hi]; [discriminate|]. apply in_put in Hi. injection Hi as ->. auto.
  - destruct Hi as [Hi|[Hi|Hi]]; [discriminate|discriminate|]. apply in_put in Hi. subst x. auto.
  - apply in_app_or in Hi. rewrite !in_app_iff. destruct Hi as [Hi|Hi]; [apply IH1 in Hi|apply IH2 in Hi]; tauto.
  - apply in_app_or in Hi. rewrite !in_app_iff. destruct Hi as [Hi|Hi].
    { destruct He; cbn in Hi; repeat (destruct Hi as [Hi|Hi]; [discriminate|]); destruct Hi. }
    apply in_app_or in Hi. destruct Hi as [Hi|Hi]; [apply IH in Hi; tauto|].
    destruct Hl; cbn in Hi; repeat (destruct Hi as [Hi|Hi]; [discriminate|]); destruct Hi.
Qed.
Lemma always_looks P l : forall s s', follows s l s' -> always P s l ->
  (forall x, In (did GetOut x) l -> exists s1, P s1 /\ out s1 = x) /\ (forall x, In (did GetErr x) l -> exists s1, P s1 /\ err s1 = x).
Proof.
  induction l as [|e l IH]; intros s s' Hf HA; [split; intros x []|].
  destruct HA as [A1 A2]. inversion Hf; subst; cbn in A2.
  - match goal with F : follows _ l _ |- _ => destruct (IH _ _ F A2) as [I1 I2] end. split; intros x [Hx|Hx]; try discriminate; eauto.
  - match goal with E : attr _ _ = _ |- _ => rewrite E in A2; rename E into Ea end. cbn [snd] in A2.
    match goal with F : follows _ l _ |- _ => destruct (IH _ _ F A2) as [I1 I2] end.
    split; intros x [Hx|Hx]; eauto; injection Hx as -> ->; cbn in Ea; injection Ea as <- <-; eauto.
Qed.

Lemma c91_one isbuf exc size log codes d sch ps s' k ck :
  (forall o, isbuf o = true -> 1 <= size o /\ buf_shows (size o) (log o) (pr_buf d o)) ->
  codes !! k = Some ck -> well_nested (as_code ck) -> (forall i c, codes !! i = Some c -> i <> k -> no_context c) ->
  sched_run sch (t_pool isbuf exc codes, mkst d ∅) = Some (ps, s') -> Forall (fun p => finished p = true) ps ->
  exists g : list (nat * event),
    Forall (fun e => fst e < length codes) g /\
    (forall i c, codes !! i = Some c -> exists r, ps !! i = Some (Ret r) /\ does exc c (events_of i g) r) /\
    (forall o, isbuf o = false -> pr_con (dat s') o = pr_con d o ++ concat (puts o (map snd g))) /\
    (forall o, isbuf o = true -> exists lg, log_steps (map SWrite (puts o (map snd g))) (log o) lg /\
       buf_shows (size o) lg (pr_buf (dat s') o)) /\
    (exists l r, ps !! k = Some (Ret r) /\ told exc (out (pr_sys d)) (err (pr_sys d)) (as_code ck) l r /\ all_good l /\
       put_pairs (events_of k g) = wrote_pairs l) /\
    out (pr_sys (dat s')) = out (pr_sys d) /\ err (pr_sys (dat s')) = err (pr_sys d) /\
    (forall i o data, In (Put o data) (events_of i g) ->
       out (pr_sys d) = Some o \/ err (pr_sys d) = Some o \/ In o (targets ck)).
Proof.
  intros Hb Hk Hn Ho Hr Hfin. destruct (c91_account isbuf exc size log codes d sch ps s' Hb Hr Hfin) as (g & G1 & G2 & G3 & G4 & G5).
  assert (Hq : forall i e, In (i, e) g -> i <> k -> still e).
  { intros i e Hi Hne. rewrite List.Forall_forall in G1. specialize (G1 _ Hi). cbn in G1.
    destruct (lookup_lt_is_Some_2 codes i G1) as [c Hc]. destruct (G2 i c Hc) as (r & _ & Hd).
    pose proof (no_context_still _ _ _ _ Hd (Ho i c Hc Hne)) as Hs. rewrite List.Forall_forall in Hs. apply Hs, in_events, Hi. }
  destruct (G2 k ck Hk) as (r & Pk & Dk). pose proof (follows_of k g _ _ G3 Hq) as Fk.
  destruct (does_told _ _ _ _ Dk Hn _ _ Fk) as ((l & T1 & T2 & T3) & (K1 & K2 & _) & A).
  pose proof (always_of _ k g _ _ G3 Hq A) as AA. destruct (always_looks _ _ _ _ G3 AA) as [B1 B2].
  exists g. split; [exact G1|]. split; [exact G2|]. split; [exact G4|]. split; [exact G5|]. split; [exists l, r; auto|].
  split; [exact K1|]. split; [exact K2|]. intros i o data Hi.
  assert (Hi' : In (i, Put o data) g) by (apply in_events, Hi). rewrite List.Forall_forall in G1. specialize (G1 _ Hi'). cbn in G1.
  destruct (lookup_lt_is_Some_2 codes i G1) as [c Hc]. destruct (G2 i c Hc) as (r' & _ & Hd).
  assert (Hg : forall e, In e (events_of i g) -> In e (map snd g)).
  { intros e He. apply in_events in He. apply in_map_iff. exists (i, e). auto. }
  destruct (does_looks _ _ _ _ _ _ Hd Hi) as [H|H]; apply Hg in H;
    [destruct (B1 _ H) as (s1 & [M1 M2] & E)|destruct (B2 _ H) as (s1 & [M1 M2] & E)].
  - rewrite E in M1. destruct M1 as [M|[M|(o' & M & M')]]; auto. injection M as <-. auto.
  - rewrite E in M2. destruct M2 as [M|[M|(o' & M & M')]]; auto. injection M as <-. auto.
Qed.

(** ** All threads print into the same LineBuffer *)
Fixpoint no_with (b : code) : Prop :=
  match b with KSeq b1 b2 => no_with b1 /\ no_with b2 | KTry b => no_with b | KWith _ _ => False | _ => True end.
Lemma no_context_with b : no_context b -> no_with (as_code b).
Proof. induction b; cbn; try tauto. intros _. induction texts; cbn; auto. Qed.
Lemma told_one exc o b l r : told exc (Some o) (Some o) b l r -> no_with b -> wrote_pairs l = map (pair o) (texts_to o l).
Proof.
  intros H. remember (Some o) as x eqn:Ex in H at 1. remember (Some o) as y eqn:Ey in H. revert Ex Ey.
  induction H; cbn [no_with]; intros Ex Ey Hn; try contradiction; try discriminate; auto.
  - assert (o0 = o) by congruence. subst o0. cbn. rewrite Nat.eqb_refl. reflexivity.
  - assert (o0 = o) by congruence. subst o0. cbn. rewrite Nat.eqb_refl. reflexivity.
  - congruence.
  - destruct Hn. unfold texts_to. rewrite wrote_pairs_app, flat_map_app, map_app. f_equal; auto.
  - destruct Hn. auto.
Qed.
Definition order_text (g : list (nat * event)) : list (nat * text) :=
  flat_map (fun e => match snd e with Put _ data => [(fst e, data)] | _ => [] end) g.
Lemma order_text_of i g : events_of i (order_text g) = map snd (put_pairs (events_of i g)).
Proof.
  unfold events_of, order_text, put_pairs. induction g as [|[j [a r|o data]] g IH]; cbn; [reflexivity|..].
  - destruct (j =? i); cbn; exact IH.
  - destruct (j =? i); cbn; [f_equal|]; exact IH.
Qed.
Lemma order_text_all o g : (forall e, In e g -> match snd e with Put o' _ => o' = o | _ => True end) ->
  map snd (order_text g) = puts o (map snd g).
Proof.
  induction g as [|[j [a r|o' data]] g IH]; intros H; cbn; [reflexivity|..].
  - apply IH. intros e He. apply H. right. exact He.
  - pose proof (H _ (or_introl eq_refl)) as E. cbn in E. subst o'. rewrite Nat.eqb_refl. cbn. f_equal.
    apply IH. intros e He. apply H. right. exact He.
Qed.
Lemma put_all_nested te ts : well_nested (put_all te ts).
Proof. induction ts; cbn; auto. Qed.
Lemma no_context_nested b : no_context b -> well_nested (as_code b).
Proof. induction b; cbn; try tauto. intros _. apply put_all_nested. Qed.
Lemma puts_none o o' (g : list (nat * event)) : (forall e, In e g -> match snd e with Put o1 _ => o1 = o | _ => True end) -> o' <> o -> puts o' (map snd g) = [].
Proof.
  intros H Hne. induction g as [|[j [a r|o1 data]] g IH]; cbn; [reflexivity|..].
  - apply IH. intros e He. apply H. right. exact He.
  - pose proof (H _ (or_introl eq_refl)) as E. cbn in E. subst o1. apply Nat.eqb_neq in Hne. rewrite Nat.eqb_sym, Hne.
    apply IH. intros e He. apply H. right. exact He.
Qed.

Lemma c91_inside isbuf exc size log codes d sch ps s' o :
  (forall o, isbuf o = true -> 1 <= size o /\ buf_shows (size o) (log o) (pr_buf d o)) ->
  isbuf o = true -> out (pr_sys d) = Some o -> err (pr_sys d) = Some o -> Forall no_context codes ->
  sched_run sch (t_pool isbuf exc codes, mkst d ∅) = Some (ps, s') -> Forall (fun p => finished p = true) ps ->
  exists order : list (nat * text),
    Forall (fun e => fst e < length codes) order /\
    (forall i c, codes !! i = Some c -> exists l r, ps !! i = Some (Ret r) /\
       told exc (Some o) (Some o) (as_code c) l r /\ all_good l /\ events_of i order = texts_to o l) /\
    (exists lg, log_steps (map SWrite (map snd order)) (log o) lg /\ buf_shows (size o) lg (pr_buf (dat s') o)) /\
    pr_sys (dat s') = pr_sys d /\ (forall o', isbuf o' = false -> pr_con (dat s') o' = pr_con d o').
Proof.
  intros Hb Ho E1 E2 Hn Hr Hfin. destruct (c91_account isbuf exc size log codes d sch ps s' Hb Hr Hfin) as (g & G1 & G2 & G3 & G4 & G5).
  assert (Hcode : forall i e, In (i, e) g -> exists c, codes !! i = Some c /\ no_context c).
  { intros i e Hi. rewrite List.Forall_forall in G1. specialize (G1 _ Hi). cbn in G1.
    destruct (lookup_lt_is_Some_2 codes i G1) as [c Hc]. exists c. split; [exact Hc|]. rewrite Forall_lookup in Hn. eauto. }
  assert (Hq : forall i e, In (i, e) g -> still e).
  { intros i e Hi. destruct (Hcode i e Hi) as (c & Hc & Hnc). destruct (G2 i c Hc) as (r & _ & Hd).
    pose proof (no_context_still _ _ _ _ Hd Hnc) as Hs. rewrite List.Forall_forall in Hs. apply Hs, in_events, Hi. }
  assert (Es : pr_sys (dat s') = pr_sys d).
  { eapply follows_still; [exact G3|]. apply List.Forall_forall. intros e He. apply in_map_iff in He. destruct He as ([i x] & <- & He). eauto. }
  assert (Hthr : forall i c, codes !! i = Some c -> exists l r, ps !! i = Some (Ret r) /\
       told exc (Some o) (Some o) (as_code c) l r /\ all_good l /\ put_pairs (events_of i g) = map (pair o) (texts_to o l)).
  { intros i c Hc. destruct (G2 i c Hc) as (r & Hp & Hd). rewrite Forall_lookup in Hn. pose proof (Hn i c Hc) as Hnc.
    assert (Hq' : forall j e, In (j, e) g -> j <> i -> still e) by eauto.
    pose proof (follows_of i g _ _ G3 Hq') as Fi.
    destruct (does_told _ _ _ _ Hd (no_context_nested _ Hnc) _ _ Fi) as ((l & T1 & T2 & T3) & _).
    rewrite E1, E2 in T1. exists l, r. split; [exact Hp|]. split; [exact T1|]. split; [exact T2|].
    rewrite <- T3. eapply told_one; [exact T1|]. apply no_context_with, Hnc. }
  assert (Hall : forall e, In e g -> match snd e with Put o' _ => o' = o | _ => True end).
  { intros [i e] Hi. destruct (Hcode i e Hi) as (c & Hc & _). destruct (Hthr i c Hc) as (l & r & _ & _ & _ & Hpp).
    destruct e as [a x|o' data]; cbn; [exact I|]. apply in_events in Hi.
    assert (Hin : In (o', data) (put_pairs (events_of i g))) by (apply in_flat_map; exists (Put o' data); split; [exact Hi|left; reflexivity]).
    rewrite Hpp in Hin. apply in_map_iff in Hin. destruct Hin as (? & E & _). congruence. }
  exists (order_text g). split; [|split; [|split; [|split; [exact Es|]]]].
  - apply List.Forall_forall. intros [i t] Hi. apply in_flat_map in Hi. destruct Hi as ([j e] & Hj & Hi).
    rewrite List.Forall_forall in G1. specialize (G1 _ Hj). destruct e; cbn in *; [destruct Hi|]. destruct Hi as [E|[]]. injection E as <- _. exact G1.
  - intros i c Hc. destruct (Hthr i c Hc) as (l & r & Hp & T1 & T2 & T3). exists l, r. split; [exact Hp|]. split; [exact T1|]. split; [exact T2|].
    rewrite order_text_of, T3. rewrite map_map. cbn. apply map_id.
  - rewrite (order_text_all o g Hall). apply G5, Ho.
  - intros o' Ho'. rewrite G4 by exact Ho'. rewrite (puts_none o o' g Hall) by congruence. cbn. apply app_nil_r.
Qed.

(** Complete lines. *)
Lemma complete_write t ls dn : segments t ls [] -> log_write t (mkslog dn []) (mkslog (dn ++ map IStr ls) []).
Proof.
  intros H. destruct ls as [|l ls].
  - cbn. rewrite app_nil_r. apply (lw_none t dn [] [] H).
  - apply (lw_some t dn [] l ls [] H).
Qed.
Lemma complete_seg t : complete t -> segments t (fst (SpecFacts.seg t)) [].
Proof.
  intros [ls H]. pose proof H as H'. apply SpecFacts.segments_seg in H'. rewrite H'. exact H.
Qed.
Definition text_items (ts : list text) : list item := flat_map (fun t => map IStr (fst (SpecFacts.seg t))) ts.
Lemma complete_writes ts : Forall complete ts -> forall dn,
  log_steps (map SWrite ts) (mkslog dn []) (mkslog (dn ++ text_items ts) []).
Proof.
  induction 1 as [|t ts H _ IH]; intros dn; cbn.
  - rewrite app_nil_r. constructor.
  - econstructor; [constructor; apply complete_write, complete_seg, H|]. rewrite app_assoc. apply IH.
Qed.
Definition order_items (o : list (nat * text)) : list (nat * item) :=
  flat_map (fun e => map (fun l => (fst e, IStr l)) (fst (SpecFacts.seg (snd e)))) o.
Lemma order_items_all o : map snd (order_items o) = text_items (map snd o).
Proof.
  unfold order_items, text_items. induction o as [|[i t] o IH]; cbn; [reflexivity|]. rewrite map_app, map_map. cbn. f_equal. exact IH.
Qed.
Lemma order_items_of i o : events_of i (order_items o) = text_items (events_of i o).
Proof.
  unfold events_of, order_items, text_items. induction o as [|[j t] o IH]; cbn; [reflexivity|]. rewrite List.filter_app, map_app.
  etransitivity; [apply f_equal, IH|]. clear IH. destruct (j =? i) eqn:E; cbn.
  - f_equal. induction (fst (SpecFacts.seg t)) as [|l ls IHl]; cbn; [reflexivity|]. rewrite E. cbn. rewrite IHl. reflexivity.
  - replace (map snd _) with (@nil item); [reflexivity|].
    induction (fst (SpecFacts.seg t)) as [|l ls IHl]; cbn; [reflexivity|]. rewrite E. exact IHl.
Qed.
Lemma log_steps_same ops g g1 : log_steps ops g g1 -> forall g2, log_steps ops g g2 -> g1 = g2.
Proof.
  intros H1 g2 H2. apply LineBufProofs.log_steps_fun in H1, H2. congruence.
Qed.

Lemma c91_lines isbuf exc size log codes d sch ps s' o :
  (forall o, isbuf o = true -> 1 <= size o /\ buf_shows (size o) (log o) (pr_buf d o)) ->
  isbuf o = true -> out (pr_sys d) = Some o -> err (pr_sys d) = Some o -> Forall no_context codes ->
  pend (log o) = [] -> (forall c, In c codes -> Forall complete (code_texts (as_code c))) ->
  sched_run sch (t_pool isbuf exc codes, mkst d ∅) = Some (ps, s') -> Forall (fun p => finished p = true) ps ->
  exists itemss li,
    Forall2 (fun c items => exists l r, told exc (Some o) (Some o) (as_code c) l r /\ all_good l /\
      log_steps (map SWrite (texts_to o l)) slog0 (mkslog items [])) codes itemss /\
    order_of itemss li /\ buf_shows (size o) (mkslog (done (log o) ++ map snd li) []) (pr_buf (dat s') o).
Proof.
  intros Hb Ho E1 E2 Hn Hp Ht Hr Hfin.
  destruct (c91_inside isbuf exc size log codes d sch ps s' o Hb Ho E1 E2 Hn Hr Hfin) as (order & G1 & G2 & (lg & G3 & G4) & _).
  assert (Hin : forall c l r, In c codes -> told exc (Some o) (Some o) (as_code c) l r -> Forall complete (texts_to o l)).
  { intros c l r Hc Hl. eapply PrintPoolProofs.told_texts; eauto. }
  set (itemss := imap (fun i _ => text_items (events_of i order)) codes).
  assert (Hlen : length itemss = length codes) by apply imap_length.
  exists itemss, (order_items order). split; [|split; [split|]].
  - apply Forall2_same_length_lookup_2; [symmetry; exact Hlen|]. intros i c items Hc Hi.
    unfold itemss in Hi. rewrite list_lookup_imap, Hc in Hi. cbn in Hi. injection Hi as <-.
    destruct (G2 i c Hc) as (l & r & _ & T1 & T2 & T3). exists l, r. split; [exact T1|]. split; [exact T2|].
    rewrite T3. apply (complete_writes (texts_to o l)). apply elem_of_list_lookup_2, elem_of_list_In in Hc. eauto.
  - rewrite Hlen. apply List.Forall_forall. intros [i x] Hx. apply in_flat_map in Hx. destruct Hx as ([j t] & Hj & Hx).
    rewrite List.Forall_forall in G1. specialize (G1 _ Hj). apply in_map_iff in Hx. destruct Hx as (? & E & _). injection E as <- _. exact G1.
  - intros i items Hi. unfold itemss in Hi. rewrite lookup_nth_error in Hi. rewrite list_lookup_imap in Hi.
    destruct (codes !! i) as [c|]; [|discriminate]. cbn in Hi. injection Hi as <-. apply order_items_of.
  - destruct (log o) as [dn pd]. cbn in *. subst pd. rewrite order_items_all.
    assert (Hc : Forall complete (map snd order)).
    { apply List.Forall_forall. intros t Hti. apply in_map_iff in Hti. destruct Hti as ([i t'] & <- & Hti).
      pose proof Hti as Hlt. rewrite List.Forall_forall in G1. specialize (G1 _ Hti). cbn in G1.
      destruct (lookup_lt_is_Some_2 codes i G1) as [c Hc]. destruct (G2 i c Hc) as (l & r & _ & T1 & _ & T3).
      apply in_events in Hlt. rewrite T3 in Hlt. apply elem_of_list_lookup_2, elem_of_list_In in Hc.
      pose proof (Hin c l r Hc T1) as HF. rewrite List.Forall_forall in HF. exact (HF _ Hlt). }
    rewrite (log_steps_same _ _ _ G3 _ (complete_writes _ Hc dn)) in G4. exact G4.
Qed.

(** ** No deadlock *)
Lemma c91_progress isbuf exc codes d sch ps s' :
  sched_run sch (t_pool isbuf exc codes, mkst d ∅) = Some (ps, s') ->
  (Forall (fun p => finished p = true) ps /\ lks s' = ∅) \/ exists i c, cstep i (ps, s') = Some c.
Proof. intros Hr. exact (lock_progress texec_nb _ d sch ps s' (wlk_tpool isbuf exc codes) Hr). Qed.
