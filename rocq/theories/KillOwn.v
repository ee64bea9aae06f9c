(** * KillOwn: which locks a process uses

    A process that uses one mirror acquires only the state lock and the RLocks of this
    mirror; wait() acquires only the locks of the main buffer. *)
From stdpp Require Import gmap.
From Coq Require Import List NArith ZArith Bool Arith Lia.
From Verif Require Import PyStr Prog ProgFacts PyIO Base Spec LineBuf Proc ProcSpec.
Import ListNotations.
Local Open Scope prog_scope.
Local Open Scope nat_scope.

(** ** Programs that acquire only the locks in [S] *)
Section Acqs.
  Context {C : Type -> Type}.
  Variables (res : forall X, C X -> X -> Prop) (S : nat -> Prop).
  Inductive acqs {A} (R : A -> Prop) : prog C A -> Prop :=
  | aq_ret a : R a -> acqs R (Ret a)
  | aq_raise e : acqs R (Raise e)
  | aq_acq l k h : S l -> acqs R (k tt) -> (forall e, acqs R (h e)) -> acqs R (Act (Acq l Ex) k h)
  | aq_rel l k h : acqs R (k tt) -> (forall e, acqs R (h e)) -> acqs R (Act (Rel l) k h)
  | aq_op X (c : C X) k h : (forall x, res X c x -> acqs R (k x)) -> (forall e, acqs R (h e)) -> acqs R (Act (Op c) k h).
  Definition aq_shape {A} (R : A -> Prop) (q : prog C A) : Prop :=
    match q with
    | Ret a => R a
    | Raise _ => True
    | @Act _ _ X c k h =>
        match c in cmd _ X return (X -> prog C A) -> Prop with
        | Op c => fun k => forall x, res _ c x -> acqs R (k x)
        | Acq l m => fun k => m = Ex /\ S l /\ acqs R (k tt)
        | Rel _ => fun k => acqs R (k tt)
        end k /\ forall e, acqs R (h e)
    end.
  Lemma aq_shaped {A} (R : A -> Prop) q : acqs R q -> aq_shape R q.
  Proof. destruct 1; simpl; auto. Qed.
  Lemma aq_bind {A B} (R : A -> Prop) (R' : B -> Prop) p f : acqs R p -> (forall a, R a -> acqs R' (f a)) -> acqs R' (bind p f).
  Proof. intros H Hf. induction H; cbn [bind]; auto; constructor; auto. Qed.
  Lemma aq_cmd {X} (R : X -> Prop) (c : C X) : (forall x, res X c x -> R x) -> acqs R (op c).
  Proof. intros H. unfold op. apply aq_op; [intros x Hx; constructor; auto|intros e; constructor]. Qed.
  Lemma aq_with {A} (R : A -> Prop) l p : S l -> acqs R p -> acqs R (with_lock l Ex p).
  Proof.
    intros Hl Hp. unfold with_lock. constructor; [exact Hl| |intros; constructor].
    induction Hp as [a Ha|e|l0 k h H0 _ IHk _ IHh|l0 k h _ IHk _ IHh|X c k h _ IHk _ IHh]; cbn [try_finally].
    - unfold release. cbn [bind]. constructor; [constructor; exact Ha|intros; constructor].
    - unfold release. cbn [bind]. constructor; [constructor|intros; constructor].
    - constructor; auto.
    - constructor; auto.
    - apply aq_op; auto.
  Qed.
  Notation any := (fun _ => True).
  Lemma aq_attempt {A} (p : prog C A) : acqs any p -> acqs any (attempt p).
  Proof. induction 1; cbn [attempt]; constructor; auto. Qed.
  Lemma aq_thread {A} (cs : list (prog C A)) : Forall (acqs any) cs -> forall rs, acqs any (thread_from rs cs).
  Proof.
    induction 1 as [|c cs Hc _ IH]; intros rs; cbn [thread_from]; [constructor; exact I|].
    eapply aq_bind; [apply aq_attempt, Hc|]. intros a _. apply IH.
  Qed.
End Acqs.
Notation acq_any res S := (acqs res S (fun _ => True)).

Ltac aqt := repeat first
  [ assumption
  | match goal with H : forall A p, acqs _ _ _ p -> acqs _ _ _ (with_m p) |- acqs _ _ _ (with_m _) => apply H end
  | apply aq_ret; exact I | apply aq_raise | apply aq_cmd; intros; exact I
  | match goal with
    | H : forall _, acqs _ _ _ _ |- _ => apply H
    | H : forall _ _, acqs _ _ _ _ |- _ => apply H
    end
  | apply aq_with; [solve [auto]|]
  | eapply (aq_bind _ _ (fun _ => True)); [|intros ? _]
  | match goal with
    | |- acqs _ _ _ (if ?b then _ else _) => destruct b
    | |- acqs _ _ _ (match ?b with _ => _ end) => destruct b
    end ].

(** ** The locks of a process *)
(** The RLock objects of mirror [i]. *)
Definition rlock_of (i l : nat) : Prop := exists c, l = mlock (lock_no i c).
Definition uses (i l : nat) : Prop := l = STL \/ rlock_of i l.
Definition w_res (X : Type) (c : scmd X) : X -> Prop :=
  match c in scmd X return X -> Prop with
  | SM i c => match c in mcmd X return X -> Prop with MRef => fun r => forall n, r = Some n -> rlock_of i (mlock n) | _ => fun _ => True end
  | SP _ => fun _ => True
  end.
Definition i_res (i : nat) (X : Type) (c : mcmd X) : X -> Prop := w_res X (SM i c).

Lemma tri_succ a : S a * S (S a) / 2 = a * S a / 2 + S a.
Proof. replace (S a * S (S a)) with (a * S a + S a * 2) by lia. apply Nat.div_add. lia. Qed.
Lemma tri_le a b : a <= b -> a * S a / 2 <= b * S b / 2.
Proof. induction 1 as [|b _ IH]; [lia|]. rewrite tri_succ. lia. Qed.
Lemma lock_no_inj i j c e : lock_no i c = lock_no j e -> i = j.
Proof.
  unfold lock_no. intros H.
  assert (G : forall a b x y, x <= a -> y <= b -> a * S a / 2 + x = b * S b / 2 + y -> ~ a < b).
  { intros a b x y Hx Hy E Hlt. pose proof (tri_le (S a) b Hlt) as H1. rewrite tri_succ in H1. lia. }
  assert (E : i + c = j + e).
  { pose proof (G (i + c) (j + e) c e ltac:(lia) ltac:(lia) H). pose proof (G (j + e) (i + c) e c ltac:(lia) ltac:(lia) (eq_sym H)). lia. }
  rewrite E in H. lia.
Qed.
Lemma rlock_inj i j l : rlock_of i l -> rlock_of j l -> i = j.
Proof. intros [c ->] [e E]. unfold mlock in E. apply (lock_no_inj i j c e). lia. Qed.
Lemma rlock_ge i l : rlock_of i l -> 7 <= l.
Proof. intros [c ->]. unfold mlock. lia. Qed.

Section Mirror.
  Variable i : nat.
  Notation aq := (acq_any (i_res i) (uses i)).
  Lemma aq_lock {A} (p : prog mcmd A) : aq p -> aq (with_m p).
  Proof.
    intros Hp. unfold with_m. apply (aq_bind _ _ (uses i)); [|intros l Hl; apply aq_with; assumption].
    unfold lm_lock. eapply (aq_bind _ _ (fun _ => True)); [aqt|]. intros r _. eapply (aq_bind _ _ (fun _ => True)); [destruct r; aqt|]. intros _ _.
    eapply aq_bind; [apply aq_cmd; intros x Hx; exact Hx|]. cbn. intros [n|] Hn; [|constructor]. constructor. right. exact (Hn n eq_refl).
  Qed.
  Lemma aq_call c : aq (lm_call c).
  Proof.
    assert (Hm : forall A (p : prog mcmd A), aq p -> aq (with_m p)) by (intros A p; apply aq_lock).
    assert (Hst : uses i STL) by (left; reflexivity).
    assert (Hput : forall m, aq (lm_put m)) by (intros m; unfold lm_put; aqt).
    assert (Hc : aq (with_m (mop MClosed))) by (apply Hm; aqt).
    assert (Hd : forall data, aq (lm_send_data data)) by (intros data; unfold lm_send_data; aqt).
    assert (Hb : forall data, aq (lm_write_body data)) by (intros data; unfold lm_write_body; cbv zeta; aqt).
    assert (Hw : aq lm_writable) by (apply Hm; aqt).
    assert (Hr : aq lm_readable) by (apply Hm; aqt).
    assert (Hn : aq lm_new_line) by (apply Hm; aqt).
    assert (Hs : forall m, aq (lm_send_signal m)) by (intros m; unfold lm_send_signal; aqt).
    assert (Hcl : aq lm_clear) by (apply Hm; aqt).
    assert (Hcc : aq (with_m (mop MClose))) by (apply Hm; aqt).
    destruct c; cbn [lm_call]; (eapply (aq_bind _ _ (fun _ => True)); [|intros; constructor; exact I]);
      unfold lm_write, lm_read, lm_close, lm_flush, lm_closed, lm_send_eof, lm_send_error, lm_send_warning, lm_fileno, lm_seek, lm_isatty, lm_seekable;
      aqt.
  Qed.
End Mirror.
Lemma aq_sys_m {A} i S (R : A -> Prop) p : acqs (i_res i) S R p -> acqs w_res S R (sys_m i p).
Proof. unfold sys_m. induction 1; cbn [lift lift_cmd]; constructor; auto. Qed.
Lemma aq_producer w : acq_any w_res (uses (fst w)) (producer w).
Proof.
  unfold producer. apply aq_sys_m. eapply (aq_bind _ _ (fun _ => True)); [|intros; constructor; exact I].
  apply aq_thread. apply List.Forall_forall. intros p Hp. apply in_map_iff in Hp as (c & <- & _). apply aq_call.
Qed.

(** wait() *)
Definition main_lock (l : nat) : Prop := l < STL.
Section Main.
  Notation aq := (acq_any (fun _ _ _ => True) main_lock).
  Lemma aq_lb_write data : aq (lb_write data).
  Proof.
    assert (HL : main_lock LL) by (unfold main_lock, LL, STL; lia).
    assert (Hp : forall l, aq (lb_parse_lines l)) by (intros l; unfold lb_parse_lines; aqt).
    assert (Hb : aq (lb_write_body lb_parse_lines data)).
    { unfold lb_write_body, lb_write_body_gen. cbv zeta. destruct (_ && _); [aqt|].
      destruct (is_end_line_break data); (destruct (1 <? _); [aqt|destruct (_ =? 1); aqt]). }
    unfold lb_write, lb_write_with, lb_write_gen. eapply (aq_bind _ _ (fun _ => True)); [aqt|]. intros w _. destruct (negb w); [constructor|].
    apply aq_with; [exact HL|exact Hb].
  Qed.
  Lemma aq_on_main {A} (R : A -> Prop) p : acqs (fun _ _ _ => True) main_lock R p -> acqs (fun _ _ _ => True) main_lock R (on_main p).
  Proof. unfold on_main. induction 1; cbn [lift lift_cmd]; constructor; auto. Qed.
  Lemma aq_wait fuel : aq (lp_wait fuel).
  Proof.
    assert (Hcf : main_lock CFG) by (unfold main_lock, CFG, STL; lia).
    assert (Hcc : aq lp_check_close) by (unfold lp_check_close; aqt).
    assert (Hrc : aq lp_receive).
    { unfold lp_receive. apply aq_with; [exact Hcf|]. eapply (aq_bind _ _ (fun _ => True)); [aqt|]. intros m _.
      destruct m; try (eapply (aq_bind _ _ (fun _ => True)); [apply aq_on_main, aq_lb_write|intros; aqt]); aqt. }
    induction fuel as [|fuel IH]; cbn [lp_wait]; aqt.
  Qed.
End Main.
Lemma aq_sys_p {A} S (R : A -> Prop) p : acqs (fun _ _ _ => True) S R p -> acqs w_res S R (sys_p p).
Proof. unfold sys_p. induction 1; cbn [lift lift_cmd]; constructor; auto. Qed.
Lemma aq_waiter fuel : acq_any w_res main_lock (waiter fuel).
Proof.
  unfold waiter. apply aq_sys_p. eapply (aq_bind _ _ (fun _ => True)); [|intros; constructor; exact I].
  apply aq_attempt, aq_wait.
Qed.

(** ** The identities of the mirrors *)
Definition ids (d : psys) : Prop :=
  forall i m, s_mirs d !! i = Some m -> m_id m = i /\ forall n, m_ref m = Some n -> exists c, n = lock_no i c.
Lemma set_nth_lookup {A} i (x : A) : forall l j y, set_nth i x l !! j = Some y -> (j = i /\ y = x) \/ (j <> i /\ l !! j = Some y).
Proof.
  induction i as [|i IH]; intros l j y H; destruct l as [|z l]; simpl in H; try discriminate; destruct j as [|j]; simpl in H |- *.
  - injection H as <-. auto.
  - right. auto.
  - injection H as <-. right. auto.
  - destruct (IH l j y H) as [[-> ->]|[Hn E]]; auto.
Qed.
Lemma set_nth_len {A} i (x : A) : forall l, length (set_nth i x l) = length l.
Proof. induction i as [|i IH]; intros [|y l]; simpl; auto. Qed.
Lemma mexec_ids {X} (c : mcmd X) e r e' i : mexec c e = (r, e') ->
  (m_id (e_mir e) = i /\ forall n, m_ref (e_mir e) = Some n -> exists c, n = lock_no i c) ->
  m_id (e_mir e') = i /\ forall n, m_ref (e_mir e') = Some n -> exists c, n = lock_no i c.
Proof.
  intros E H. destruct c; simpl in E; unfold on_buf in E; try (injection E as <- <-; exact H);
    try (match type of E with context [let '(_, _) := ?t in _] => destruct t as [? ?] end; injection E as <- <-; exact H).
  - injection E as <- <-. simpl. destruct H as [<- _]. split; [reflexivity|]. intros n [= <-]. eauto.
  - destruct (q_full _ _); [destruct block|]; injection E as <- <-; exact H.
Qed.
Lemma ids_step {X} (c : scmd X) d r d' : ids d -> cexec c d = (r, d') -> ids d' /\ forall x, r = Good x -> w_res X c x.
Proof.
  intros Ha E. split.
  - destruct c as [i X c|X c]; simpl in E.
    + destruct (mexec c (get_menv i d)) as [r' e] eqn:Em. injection E as <- <-. intros j m Hj. simpl in Hj.
      pose proof (lookup_lt_Some _ _ _ Hj) as Hlt. rewrite set_nth_len in Hlt.
      apply set_nth_lookup in Hj as [[-> ->]|[Hn Hj]]; [|apply Ha, Hj].
      apply (mexec_ids _ _ _ _ i Em). simpl. apply Ha. unfold mir_at. apply lookup_lt_is_Some_2 in Hlt as [m Hm].
      rewrite (nth_lookup_Some _ _ _ _ Hm). exact Hm.
    + destruct c; simpl in E; try (injection E as <- <-; exact Ha).
      * destruct (bexec c (s_main d)) as [r' b]. injection E as <- <-. exact Ha.
      * destruct (nth (cur_q d) (s_qs d) []) as [|m q]; injection E as <- <-; exact Ha.
      * injection E as <- <-. intros j m Hj. simpl in Hj. apply lookup_app_Some in Hj as [Hj|[Hl Hj]]; [apply Ha, Hj|].
        apply list_lookup_singleton_Some in Hj as [Hj <-]. simpl. split; [lia|discriminate].
  - intros x ->. destruct c as [i X c|X c]; [|exact I]. destruct c; try exact I. simpl in E |- *. injection E as <- _. intros n Hn.
    unfold mir_at in Hn. destruct (s_mirs d !! i) as [m|] eqn:Em.
    + rewrite (nth_lookup_Some _ _ _ _ Em) in Hn. destruct (proj2 (Ha i m Em) n Hn) as [c ->]. exists c. reflexivity.
    + rewrite nth_overflow in Hn by (apply lookup_ge_None; exact Em). discriminate.
Qed.
Lemma ids_run {A} t (p : prog scmd A) : forall s r s', ids (dat s) -> run t p s = (r, s') -> ids (dat s').
Proof.
  induction p as [a|e|X c k IHk h IHh]; intros s r s' Hi E; simpl in E; [injection E as _ <-; exact Hi|injection E as _ <-; exact Hi|].
  assert (Hst : forall o s1, exec t c s = (o, s1) -> ids (dat s1)).
  { intros o s1 Ec. destruct c as [l m|l|X c]; simpl in Ec.
    - destruct (lock_acq _ _ _ _ _) as [o' k']. injection Ec as _ <-. exact Hi.
    - destruct (lock_rel _ _ _) as [o' k']. injection Ec as _ <-. exact Hi.
    - change (sexec c (dat s)) with (cexec c (dat s)) in Ec. destruct (cexec c (dat s)) as [o' d'] eqn:Ecc. injection Ec as _ <-. exact (proj1 (ids_step _ _ _ _ Hi Ecc)). }
  destruct (exec t c s) as [[x|e|] s1] eqn:Ec; [eapply IHk; [|exact E]; eapply Hst; reflexivity|eapply IHh; [|exact E]; eapply Hst; reflexivity|].
  injection E as _ <-. eapply Hst; reflexivity.
Qed.
Lemma preach_ids m d : preach m d -> ids d.
Proof.
  intros [xs H]. assert (H0 : ids (lp_fresh m)).
  { intros i x Hx. simpl in Hx. apply list_lookup_singleton_Some in Hx as [-> <-]. simpl. split; [reflexivity|discriminate]. }
  induction H as [d|t x xs d d1 d2 Hs _ IH]; [exact H0|]. apply IH. clear IH.
  destruct Hs as [i c r d d' _ Hr _|c r d d' Hr _|i m' d Hi Hp].
  - exact (ids_run _ _ _ _ _ (H0 : ids (dat (idle d))) Hr).
  - exact (ids_run _ _ _ _ _ (H0 : ids (dat (idle d))) Hr).
  - intros j y Hj. simpl in Hj. apply lookup_app_Some in Hj as [Hj|[Hl Hj]]; [apply H0, Hj|].
    apply list_lookup_singleton_Some in Hj as [Hj <-]. unfold mir_pickle in Hp. destruct (sclosed _); [discriminate|].
    destruct (m_ref (mir_at d i)); [discriminate|]. injection Hp as <-. simpl. split; [lia|discriminate].
Qed.

(** ** Any schedule *)
Section Pool.
  Context {A : Type}.
  Variable F : nat -> nat -> Prop.        (* the locks of each thread *)
  Definition owns (ps : list (prog scmd A)) (s : st psys) : Prop :=
    ids (dat s) /\ (forall i p, ps !! i = Some p -> acq_any w_res (F i) p) /\
    forall l, match lks s !! l with Some (Excl o _) => F o l | Some (Shared _) => False | None => True end.
  Lemma owns_step i ps s ps' s' : owns ps s -> cstep i (ps, s) = Some (ps', s') -> owns ps' s'.
  Proof.
    intros (Hi & Hp & Hl) Hs. unfold cstep in Hs. simpl in Hs. destruct (ps !! i) as [p|] eqn:Ep; [|discriminate].
    destruct (pstep i p s) as [[p1 s1]|] eqn:Es; [|discriminate]. injection Hs as <- <-.
    pose proof (aq_shaped _ _ _ _ (Hp i p Ep)) as Ha.
    assert (Hps : forall q, acq_any w_res (F i) q -> forall j p', <[i:=q]> ps !! j = Some p' -> acq_any w_res (F j) p').
    { intros q Hq j p' Hj. destruct (decide (j = i)) as [->|Hne].
      - rewrite list_lookup_insert in Hj by (apply lookup_lt_is_Some_1; eauto). injection Hj as <-. exact Hq.
      - rewrite list_lookup_insert_ne in Hj by auto. eauto. }
    assert (Hins : forall l o n, F o l -> forall l', match (<[l:=Excl o n]> (lks s) : locks) !! l' with Some (Excl o _) => F o l' | Some (Shared _) => False | None => True end).
    { intros l o n Ho l'. destruct (decide (l = l')) as [->|Hne]; [rewrite lookup_insert; exact Ho|]. rewrite lookup_insert_ne by auto. apply Hl. }
    assert (Hdel : forall l l', match (delete l (lks s) : locks) !! l' with Some (Excl o _) => F o l' | Some (Shared _) => False | None => True end).
    { intros l l'. destruct (decide (l = l')) as [->|Hne]; [rewrite lookup_delete; exact I|]. rewrite lookup_delete_ne by auto. apply Hl. }
    destruct p as [a|e|X c k h]; [discriminate|discriminate|]. cbn [aq_shape] in Ha. simpl in Es. destruct c as [l m|l|X c]; simpl in Es.
    - destruct Ha as ((-> & HF & Hk) & _). unfold lock_acq in Es. pose proof (Hl l) as H0. destruct (lks s !! l) as [[o n|os]|].
      + destruct (reent l && (o =? i)); [|discriminate]. injection Es as <- <-. split; [exact Hi|split; [apply Hps, Hk|apply Hins, H0]].
      + contradiction.
      + injection Es as <- <-. split; [exact Hi|split; [apply Hps, Hk|apply Hins, HF]].
    - destruct Ha as (Hk & Hh). unfold lock_rel in Es. pose proof (Hl l) as H0.
      destruct (lks s !! l) as [[o [|[|n]]|os]|]; try contradiction; injection Es as <- <-;
        (split; [exact Hi|]; split; [apply Hps; auto|]; simpl; first [apply Hdel|apply Hins; exact H0|exact Hl]).
    - destruct Ha as (Hk & Hh). change (sexec c (dat s)) with (cexec c (dat s)) in Es. destruct (cexec c (dat s)) as [o d'] eqn:Ec.
      destruct (ids_step _ _ _ _ Hi Ec) as [Hi' Hx].
      destruct o as [x|e|]; [..|discriminate]; injection Es as <- <-; (split; [exact Hi'|]; split; [apply Hps; auto|exact Hl]).
  Qed.
  Lemma owns_sched sch : forall ps s ps' s', owns ps s -> sched_run sch (ps, s) = Some (ps', s') -> owns ps' s'.
  Proof.
    induction sch as [|j sch IH]; intros ps s ps' s' Ho Hr; simpl in Hr; [injection Hr as <- <-; exact Ho|].
    destruct (cstep j (ps, s)) as [[ps1 s1]|] eqn:E; [|discriminate]. eapply IH; [|exact Hr]. eapply owns_step; eauto.
  Qed.
End Pool.
