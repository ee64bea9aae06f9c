(** * MirClose: threads that close one LineProcMirror at the same time (C79) *)
From stdpp Require Import gmap relations.
From Coq Require Import List NArith ZArith Bool Arith Lia.
From Verif Require Import PyStr Prog ProgFacts PyIO Base Spec LineBuf LineBufConcProofs Proc ProcSpec Stable.
Import ListNotations.
Local Open Scope prog_scope.
Local Open Scope nat_scope.

Definition closes {X} (c : mcmd X) : bool := match c with MClose => true | _ => false end.

Lemma n_ends_app q x : n_ends (q ++ [x]) = n_ends q + if is_end x then 1 else 0.
Proof. unfold n_ends. rewrite List.filter_app, app_length. simpl. destruct (is_end x); reflexivity. Qed.

(** Commands that do not close the buffer leave it open or closed, as it is. *)
Lemma step_closed {X} (c : mcmd X) d r d' : closes c = false -> mexec c d = (r, d') ->
  is_closed (e_mir d') = is_closed (e_mir d).
Proof.
  unfold is_closed. destruct d as [[[w p cl] rf ag ti ha qn id cn] q qm es].
  destruct c; simpl; try discriminate; intros _; try (intros E; injection E as <- <-; reflexivity);
    try (unfold on_buf; simpl; destruct cl; simpl; intros E; injection E as <- <-; reflexivity).
  - destruct cl, s; simpl; intros E; injection E as <- <-; reflexivity.
  - destruct (q_full _ _); [destruct block|]; intros E; injection E as <- <-; reflexivity.
Qed.
Lemma step_ends {X} (c : mcmd X) d r d' : mexec c d = (r, d') ->
  n_ends (e_q d) <= n_ends (e_q d').
Proof.
  destruct d as [[[w p cl] rf ag ti ha qn id cn] q qm es].
  destruct c; simpl; try (intros E; injection E as <- <-; apply le_n);
    try (unfold on_buf; simpl; destruct cl; simpl; intros E; injection E as <- <-; apply le_n).
  destruct (q_full _ _); [destruct block|]; intros E; injection E as <- <-; simpl; rewrite ?n_ends_app; lia.
Qed.

(** ** Closed, and signalled *)
Section Close.
  Variable d0 : menv.
  Definition ended (d : menv) : Prop := is_closed (e_mir d0) = true \/ n_ends (e_q d0) < n_ends (e_q d).
  Definition I (d : menv) : Prop :=
    n_ends (e_q d0) <= n_ends (e_q d) /\ (is_closed (e_mir d) = true -> ended d).
  Definition Rel (d d' : menv) : Prop :=
    (is_closed (e_mir d) = true -> is_closed (e_mir d') = true) /\ n_ends (e_q d) <= n_ends (e_q d').
  Lemma Rel_refl d : Rel d d.
  Proof. split; auto. Qed.
  Notation stable := (stable I Rel).
  Notation tri := (tri I Rel).
  Definition T : menv -> Prop := fun _ => True.
  Lemma st_ended : stable ended.
  Proof. intros d d' _ _ [_ H] [H1|H1]; [left; exact H1|right; lia]. Qed.
  Lemma st_closed : stable (fun d => is_closed (e_mir d) = true).
  Proof. intros d d' _ _ [H _]. exact H. Qed.
  Lemma st_true : stable T.
  Proof. intros d d' _ _ _ _. exact Logic.I. Qed.

  Lemma step_I {X} (c : mcmd X) d r d' : closes c = false -> I d -> mexec c d = (r, d') -> I d' /\ Rel d d'.
  Proof.
    intros Hc [H1 H2] E. pose proof (step_closed c d r d' Hc E) as E1. pose proof (step_ends c d r d' E) as E2.
    split; [split|split].
    - lia.
    - rewrite E1. intros H. destruct (H2 H) as [H3|H3]; [left; exact H3|right; lia].
    - congruence.
    - exact E2.
  Qed.
  Notation quiet := (allops (fun X (c : mcmd X) => closes c = false)).
  Lemma tri_quiet {A} (p : prog mcmd A) : quiet p -> tri T p (fun _ _ => True).
  Proof.
    intros H. apply tri_allops. revert H. induction p as [a|e|X c k IHk h IHh]; simpl; auto.
    intros (H1 & H2 & H3). split; [|auto]. destruct c as [l m|l|X c]; auto. intros d r d'. apply step_I, H1.
  Qed.

  Lemma quiet_lock : quiet lm_lock.
  Proof.
    unfold lm_lock. apply allops_bind; [apply allops_op; reflexivity|]. intros r. apply allops_bind; [destruct r; simpl; auto|].
    intros _. apply allops_bind; [apply allops_op; reflexivity|]. intros [n|]; simpl; auto.
  Qed.
  Lemma quiet_with {A} (p : prog mcmd A) : quiet p -> quiet (with_m p).
  Proof. intros H. unfold with_m. apply allops_bind; [apply quiet_lock|]. intros l. apply allops_with, H. Qed.
  Lemma quiet_put m : quiet (lm_put m).
  Proof. unfold lm_put. apply allops_bind; [apply allops_op; reflexivity|]. intros t. apply allops_op. reflexivity. Qed.
  Lemma quiet_send_data data : quiet (lm_send_data data).
  Proof.
    unfold lm_send_data. apply allops_bind; [apply quiet_with, allops_op; reflexivity|]. intros [|]; [exact Logic.I|apply quiet_put].
  Qed.
  Ltac q := cbv zeta; repeat match goal with
    | |- allops _ (bind _ _) => apply allops_bind; [|intros ?]
    | |- allops _ (with_m _) => apply quiet_with
    | |- allops _ (with_lock _ _ _) => apply allops_with
    | |- allops _ (lm_send_data _) => apply quiet_send_data
    | |- allops _ (lm_put _) => apply quiet_put
    | |- allops _ (op _) => apply allops_op; reflexivity
    | |- allops _ (Ret _) => exact Logic.I
    | |- allops _ (Raise _) => exact Logic.I
    | |- allops _ (if ?b then _ else _) => destruct b
    | |- allops _ (match ?o with Some _ => _ | None => _ end) => destruct o
    end.
  Lemma quiet_write_body data : quiet (lm_write_body data).
  Proof. unfold lm_write_body. q. Qed.
  Lemma quiet_new_line : quiet lm_new_line.
  Proof. unfold lm_new_line. q. apply quiet_write_body. Qed.
  Lemma quiet_signal m : quiet (lm_send_signal m).
  Proof. unfold lm_send_signal. q. apply quiet_new_line. Qed.
  Lemma quiet_clear : quiet lm_clear.
  Proof. unfold lm_clear. q. Qed.
  Lemma quiet_call c : (forall exc, c <> CClose exc) -> quiet (lm_call c).
  Proof.
    intros H. destruct c; cbn [lm_call]; unfold mret; try (apply allops_bind; [|intros ?; exact Logic.I]);
      try (exfalso; eapply H; reflexivity);
      unfold lm_write, lm_read, lm_flush, lm_closed, lm_readable, lm_writable, lm_fileno, lm_seek, lm_isatty, lm_seekable,
        lm_send_eof, lm_send_error, lm_send_warning;
      q; try apply quiet_write_body; try apply quiet_new_line; try apply quiet_signal; try apply quiet_clear.
  Qed.

  (** ** close() *)
  Lemma tri_kept {A} (p : prog mcmd A) phi : stable phi -> quiet p -> tri phi p (fun _ d => phi d).
  Proof.
    intros Hs Hq. eapply tri_weaken; [apply (tri_frame _ _ p T (fun _ _ => True) phi Hs), tri_quiet, Hq| |].
    - intros d _ H. split; [exact Logic.I|exact H].
    - intros r d _ [_ H]. exact H.
  Qed.
  Lemma tri_with_m {A} (p : prog mcmd A) phi Q : stable phi -> tri phi p Q ->
    tri phi (with_m p) (fun r d => Q r d \/ exists e, r = Fail e).
  Proof.
    intros Hs Hp. unfold with_m. eapply tri_bind; [apply (tri_kept _ _ Hs quiet_lock)| |].
    - intros l. cbn beta. apply tri_with, Hp.
    - intros e d _ _. right. eauto.
  Qed.
  (** The check of [closed]. *)
  Lemma tri_check phi : stable phi ->
    tri phi (with_m (mop MClosed)) (fun r d => match r with Good true => is_closed (e_mir d) = true /\ phi d | _ => phi d end \/ exists e, r = Fail e).
  Proof.
    intros Hs. apply tri_with_m; [exact Hs|]. apply tri_op.
    - intros d r d' Hd Hp E. destruct (step_I MClosed d r d' eq_refl Hd E) as [H1 H2]. split; [exact H1|]. split; [exact H2|].
      pose proof (Hs d d' Hd H1 H2 Hp) as Hq.
      simpl in E. unfold on_buf in E. simpl in E. injection E as <- <-.
      unfold is_closed. simpl in *. destruct (sclosed (m_buf (e_mir d))); auto.
    - intros [[|]|e|]; try exact Hs. intros d d' H1 H2 H3 [H4 H5]. split; [exact (st_closed d d' H1 H2 H3 H4)|exact (Hs d d' H1 H2 H3 H5)].
  Qed.
  Lemma tri_put m : is_end m = true -> tri T (lm_put m) (fun r d => match r with Good _ => ended d | _ => True end).
  Proof.
    intros Hm. unfold lm_put. eapply tri_bind; [apply (tri_kept (mop MTimeout) T st_true)| |].
    - apply allops_op. reflexivity.
    - intros t. apply tri_op.
      + intros d r d' Hd Hp E. destruct (step_I (MPut m _ t) d r d' eq_refl Hd E) as [H1 H2]. split; [exact H1|]. split; [exact H2|].
        simpl in E. destruct r as [x|e|]; [|exact Logic.I|exact Logic.I].
        destruct (q_full _ _); [destruct t; discriminate|]. injection E as _ <-. right. simpl. rewrite n_ends_app, Hm.
        destruct Hd as [Hd _]. lia.
      + intros [x|e|]; [exact st_ended|exact st_true|exact st_true].
    - auto.
  Qed.
  Lemma tri_signal m : is_end m = true ->
    tri T (lm_send_signal m) (fun r d => match r with Good _ => ended d | _ => True end).
  Proof.
    intros Hm. unfold lm_send_signal. eapply tri_bind; [apply (tri_check T st_true)| |].
    - intros [|].
      + simpl. intros d [_ Hd] [[H _]|[e He]]; [auto|discriminate].
      + eapply (tri_weaken I Rel _ T); [|intros d _ _; exact Logic.I|intros r d _ H; exact H].
        eapply tri_bind; [apply (tri_kept _ T st_true quiet_new_line)| |auto]. intros u. apply tri_put, Hm.
    - auto.
  Qed.
  Definition post (c : mcall) (r : outcome mres) (d : menv) : Prop :=
    match c, r with CClose _, Good _ => is_closed (e_mir d) = true | _, _ => True end.
  Lemma tri_close exc : tri T (lm_close exc) (fun r d => match r with Good _ => is_closed (e_mir d) = true | _ => True end).
  Proof.
    unfold lm_close. eapply tri_bind; [apply (tri_check T st_true)| |].
    - intros [|].
      + simpl. intros d _ [[H _]|[e He]]; [auto|discriminate].
      + eapply (tri_weaken I Rel _ T); [|intros d _ _; exact Logic.I|intros r d _ H; exact H].
        eapply tri_bind with (Q := fun r d => match r with Good _ => ended d | _ => True end).
        { destruct exc as [e|]; apply tri_signal; reflexivity. }
        2: { auto. }
        intros u. eapply tri_bind; [apply (tri_kept _ _ st_ended quiet_clear)| |auto]. intros u'.
        eapply tri_weaken; [apply tri_with_m with (phi := ended); [exact st_ended|]|auto|].
        * apply tri_op with (Q := fun r d => is_closed (e_mir d) = true); [|intros _; exact st_closed].
          intros d r d' [H1 H2] He E. simpl in E. unfold on_buf in E. simpl in E. injection E as <- <-.
          split; [split; [exact H1|intros _; exact He]|]. split; [split; [intros _; reflexivity|apply le_n]|reflexivity].
        * intros r d _ [H|[e ->]]; [destruct r; auto|exact Logic.I].
    - auto.
  Qed.
  Lemma post_stable c r : stable (post c r).
  Proof. destruct c, r; try exact st_true. exact st_closed. Qed.
  Lemma call_post c : tri (fun _ => True) (lm_call c) (post c).
  Proof.
    assert (H : (forall exc, c <> CClose exc) \/ exists exc, c = CClose exc).
    { destruct c; try (left; intros ?; discriminate). right. eauto. }
    destruct H as [H|[exc ->]].
    - eapply tri_weaken; [apply (tri_quiet _ (quiet_call c H))|auto|]. intros r d _ _. destruct c; try exact Logic.I. exfalso. eapply H. reflexivity.
    - cbn [lm_call]. unfold mret. eapply tri_bind; [apply tri_close| |auto]. intros a. simpl. auto.
  Qed.

  Lemma I0 : I d0.
  Proof. split; [apply le_n|]. intros H. left. exact H. Qed.

  Theorem close_pool css sch lk ps' s' :
    sched_run sch (mir_pool css, mkst d0 lk) = Some (ps', s') ->
    I (dat s') /\ (is_closed (e_mir d0) = true -> is_closed (e_mir (dat s')) = true) /\
    forall i cs rs, css !! i = Some cs -> ps' !! i = Some (Ret rs) -> Forall2 (fun c r => post c r (dat s')) cs rs.
  Proof.
    intros Hr. destruct (stable_pool I Rel lm_call post post_stable call_post Rel_refl css sch d0 lk ps' s' I0 Hr) as (H1 & H2 & H3).
    split; [exact H1|]. split; [|exact H3]. clear -H2. induction H2 as [|d d1 d2 [H _] _ IH]; auto.
  Qed.
End Close.

(** ** At most one end signal per call that may send one *)
Definition end_put {X} (c : cmd mcmd X) : bool := match c with Op (MPut m _ _) => is_end m | _ => false end.
Fixpoint ends_le {A} (n : nat) (p : prog mcmd A) : Prop :=
  match p with
  | Ret _ | Raise _ => True
  | Act c k h =>
      if end_put c then match n with O => False | S n' => (forall x, ends_le n' (k x)) /\ (forall e, ends_le n' (h e)) end
      else (forall x, ends_le n (k x)) /\ (forall e, ends_le n (h e))
  end.
Lemma ends_le_more {A} (p : prog mcmd A) : forall n m, n <= m -> ends_le n p -> ends_le m p.
Proof.
  induction p as [a|e|X c k IHk h IHh]; intros n m Hnm H; simpl in *; auto.
  destruct (end_put c).
  - destruct n as [|n]; [contradiction|]. destruct m as [|m]; [lia|]. destruct H as [H1 H2].
    split; [intros x; eapply IHk; [|apply H1]; lia|intros e; eapply IHh; [|apply H2]; lia].
  - destruct H as [H1 H2]. split; [intros x; eapply IHk; [|apply H1]; lia|intros e; eapply IHh; [|apply H2]; lia].
Qed.
Lemma ends_le_bind {A B} (p : prog mcmd A) (f : A -> prog mcmd B) m : (forall a, ends_le m (f a)) -> forall n, ends_le n p ->
  ends_le (n + m) (bind p f).
Proof.
  intros Hf. induction p as [a|e|X c k IHk h IHh]; intros n H; simpl in *; [apply (ends_le_more _ m); [lia|apply Hf]|exact Logic.I|].
  destruct (end_put c).
  - destruct n as [|n]; [contradiction|]. destruct H as [H1 H2]. simpl. split; auto.
  - destruct H as [H1 H2]. split; auto.
Qed.
Lemma ends_le_finally {A} (p : prog mcmd A) l : forall n, ends_le n p -> ends_le n (try_finally p (release l)).
Proof.
  induction p as [a|e|X c k IHk h IHh]; intros n H; simpl in *; [auto|auto|].
  destruct (end_put c); [|destruct H as [H1 H2]; split; auto].
  destruct n as [|n]; [contradiction|]. destruct H as [H1 H2]. split; auto.
Qed.
Lemma ends_le_with {A} (p : prog mcmd A) l m n : ends_le n p -> ends_le n (with_lock l m p).
Proof. intros H. simpl. split; [intros _; apply ends_le_finally, H|auto]. Qed.
Lemma ends_le_attempt {A} (p : prog mcmd A) : forall n, ends_le n p -> ends_le n (attempt p).
Proof.
  induction p as [a|e|X c k IHk h IHh]; intros n H; simpl in *; [auto|auto|].
  destruct (end_put c); [|destruct H as [H1 H2]; split; auto].
  destruct n as [|n]; [contradiction|]. destruct H as [H1 H2]. split; auto.
Qed.
Lemma le_lock : ends_le 0 lm_lock.
Proof.
  unfold lm_lock. simpl. split; [|auto]. intros [n|]; simpl; (split; [|auto]).
  - intros [m|]; simpl; auto.
  - intros _. split; [|auto]. intros [m|]; simpl; auto.
Qed.
Lemma le_with {A} n (p : prog mcmd A) : ends_le n p -> ends_le n (with_m p).
Proof. intros H. unfold with_m. change n with (0 + n). apply ends_le_bind; [|apply le_lock]. intros l. apply ends_le_with, H. Qed.
Lemma le_put m : ends_le (if is_end m then 1 else 0) (lm_put m).
Proof. unfold lm_put. simpl. split; [|auto]. intros t. destruct (is_end m); split; auto. Qed.
Lemma le_bind {A B} (p : prog mcmd A) (f : A -> prog mcmd B) n : ends_le 0 p -> (forall a, ends_le n (f a)) -> ends_le n (bind p f).
Proof. intros H1 H2. change n with (0 + n). apply ends_le_bind; auto. Qed.
Ltac e0 := cbv zeta; repeat match goal with
  | |- ends_le _ (bind _ _) => apply le_bind; [|intros ?]
  | |- ends_le _ (with_m _) => apply le_with
  | |- ends_le _ (with_lock _ _ _) => apply ends_le_with
  | |- ends_le _ (lm_put ?m) => refine (ends_le_more _ _ _ _ (le_put m)); simpl; lia
  | |- ends_le _ (op _) => simpl; auto; fail
  | |- ends_le _ (Ret _) => exact Logic.I
  | |- ends_le _ (Raise _) => exact Logic.I
  | |- ends_le _ (if ?b then _ else _) => destruct b
  | |- ends_le _ (match ?o with Some _ => _ | None => _ end) => destruct o
  end.
Lemma le_send_data data : ends_le 0 (lm_send_data data).
Proof. unfold lm_send_data. e0. Qed.
Lemma le_write_body data : ends_le 0 (lm_write_body data).
Proof. unfold lm_write_body. e0; apply le_send_data. Qed.
Lemma le_new_line : ends_le 0 lm_new_line.
Proof. unfold lm_new_line. e0. apply le_write_body. Qed.
Lemma le_signal m : ends_le (if is_end m then 1 else 0) (lm_send_signal m).
Proof. unfold lm_send_signal. e0. apply le_new_line. Qed.
Lemma le_call c : ends_le (if may_end c then 1 else 0) (lm_call c).
Proof.
  assert (Hr : forall X (f : X -> mres) p n, ends_le n p -> ends_le n (mret f p)).
  { intros X f p n H. unfold mret. rewrite <- (Nat.add_0_r n). apply ends_le_bind; [intros a; exact Logic.I|exact H]. }
  destruct c; cbn [lm_call may_end]; apply Hr;
    unfold lm_write, lm_read, lm_flush, lm_closed, lm_readable, lm_writable, lm_fileno, lm_seek, lm_isatty, lm_seekable,
      lm_send_eof, lm_send_error, lm_send_warning, lm_clear; e0;
    try apply le_write_body; try apply le_new_line; try apply le_send_data;
    try (eapply ends_le_more; [|apply le_signal]; simpl; lia).
  unfold lm_close. apply le_bind; [e0|]. intros [|]; [exact Logic.I|].
  change 1 with (1 + 0). apply ends_le_bind; [intros u; unfold lm_clear; e0|].
  destruct exc as [e|]; [apply (le_signal (QError (gm_init (GMExc e))))|apply (le_signal QClose)].
Qed.
Lemma le_thread cs : forall rs, ends_le (length (List.filter may_end cs)) (thread_from rs (map lm_call cs)).
Proof.
  induction cs as [|c cs IH]; intros rs; cbn [map thread_from List.filter]; [exact Logic.I|].
  replace (length (if may_end c then c :: List.filter may_end cs else List.filter may_end cs))
    with ((if may_end c then 1 else 0) + length (List.filter may_end cs)) by (destruct (may_end c); reflexivity).
  apply ends_le_bind; [intros r; apply IH|]. apply ends_le_attempt, le_call.
Qed.

Lemma le_step {A} i (p : prog mcmd A) s p' s' n : ends_le n p -> pstep i p s = Some (p', s') ->
  exists n', ends_le n' p' /\ n_ends (e_q (dat s')) + n' <= n_ends (e_q (dat s)) + n.
Proof.
  intros H E. destruct p as [a|e|X c k h]; [discriminate|discriminate|]. simpl in H, E.
  destruct c as [l m|l|X c]; simpl in E, H.
  - exists n. destruct (lock_acq _ _ _ _ _) as [[[]|e|] lk]; try discriminate; injection E as <- <-; simpl; split; try lia; apply H.
  - exists n. destruct (lock_rel _ _ _) as [[[]|e|] lk]; try discriminate; injection E as <- <-; simpl; split; try lia; apply H.
  - destruct (end_put (Op c)) eqn:Ee.
    + change (end_put (Op c)) with (match c with MPut m _ _ => is_end m | _ => false end) in Ee.
      simpl in H. rewrite Ee in H. destruct n as [|n]; [contradiction|]. exists n.
      assert (Hq : forall r d', mexec c (dat s) = (r, d') -> n_ends (e_q d') <= S (n_ends (e_q (dat s)))).
      { clear -Ee. destruct c; try discriminate. simpl. intros r d'.
        destruct (q_full _ _); [destruct block|]; intros E; injection E as <- <-; simpl; rewrite ?n_ends_app; try lia. destruct (is_end m); lia. }
      destruct (mexec c (dat s)) as [r d'] eqn:Ec. pose proof (Hq _ _ eq_refl).
      destruct r as [x|e|]; try discriminate; injection E as <- <-; simpl; (split; [apply H|lia]).
    + change (end_put (Op c)) with (match c with MPut m _ _ => is_end m | _ => false end) in Ee.
      simpl in H. rewrite Ee in H. exists n.
      assert (Hq : forall r d', mexec c (dat s) = (r, d') -> n_ends (e_q d') = n_ends (e_q (dat s))).
      { clear -Ee. intros r d'. destruct (dat s) as [[[w p cl] rf ag ti ha qn id cn] q qm es].
        destruct c; simpl; try (intros E; injection E as <- <-; reflexivity);
          try (unfold on_buf; simpl; destruct cl; simpl; intros E; injection E as <- <-; reflexivity).
        simpl in Ee. destruct (q_full _ _); [destruct block|]; intros E; injection E as <- <-; simpl; rewrite ?n_ends_app, ?Ee; lia. }
      destruct (mexec c (dat s)) as [r d'] eqn:Ec. pose proof (Hq _ _ eq_refl).
      destruct r as [x|e|]; try discriminate; injection E as <- <-; simpl; (split; [apply H|lia]).
Qed.

Lemma sum_insert ns : forall i n m, ns !! i = Some n -> list_sum (<[i:=m]> ns) + n = list_sum ns + m.
Proof.
  induction ns as [|x ns IH]; intros [|i] n m H; simpl in *; try discriminate.
  - injection H as ->. lia.
  - specialize (IH i n m H). unfold list_sum in *. lia.
Qed.
Theorem ends_pool sch : forall (ps : list (prog mcmd (list (outcome mres)))) ns s ps' s',
  Forall2 ends_le ns ps -> sched_run sch (ps, s) = Some (ps', s') ->
  n_ends (e_q (dat s')) <= n_ends (e_q (dat s)) + list_sum ns.
Proof.
  induction sch as [|i sch IH]; intros ps ns s ps' s' HF Hr; simpl in Hr.
  - injection Hr as <- <-. lia.
  - unfold cstep in Hr. simpl in Hr. destruct (ps !! i) as [p|] eqn:Ep; [|discriminate].
    destruct (pstep i p s) as [[p1 s1]|] eqn:Es; [|discriminate].
    destruct (Forall2_lookup_r _ _ _ _ _ HF Ep) as (n & En & Hn).
    destruct (le_step i p s p1 s1 n Hn Es) as (n' & Hn' & Hle).
    pose proof (IH _ (<[i:=n']> ns) _ _ _ (Forall2_insert _ _ _ _ _ _ HF Hn') Hr) as H.
    pose proof (sum_insert ns i n n' En). lia.
Qed.
Theorem ends_bound css sch d0 lk ps' s' :
  sched_run sch (mir_pool css, mkst d0 lk) = Some (ps', s') ->
  n_ends (e_q (dat s')) <= n_ends (e_q d0) + n_may_end css.
Proof.
  intros Hr. apply (ends_pool sch (mir_pool css) (map (fun cs => length (List.filter may_end cs)) css) (mkst d0 lk) ps' s'); [|exact Hr].
  unfold mir_pool. clear Hr. induction css as [|cs css IH]; simpl; constructor; [apply le_thread|exact IH].
Qed.

(** ** C79 *)
Theorem c79_closes css sch d0 ps' s' i cs rs j exc :
  sched_run sch (mir_pool css, idle d0) = Some (ps', s') ->
  nth_error css i = Some cs -> nth_error ps' i = Some (Ret rs) ->
  nth_error cs j = Some (CClose exc) -> nth_error rs j = Some (Good MUnit) ->
  is_closed (e_mir (dat s')) = true.
Proof.
  rewrite !lookup_nth_error. intros Hr H1 H2 H3 H4. destruct (close_pool d0 css sch _ ps' s' Hr) as (_ & _ & H).
  exact (Forall2_lookup_lr _ _ _ _ _ _ (H i cs rs H1 H2) H3 H4).
Qed.
Theorem c79_signalled css sch d0 ps' s' :
  sched_run sch (mir_pool css, idle d0) = Some (ps', s') ->
  (is_closed (e_mir d0) = true -> is_closed (e_mir (dat s')) = true) /\
  (is_closed (e_mir d0) = false -> is_closed (e_mir (dat s')) = true -> n_ends (e_q d0) < n_ends (e_q (dat s'))).
Proof.
  intros Hr. destruct (close_pool d0 css sch _ ps' s' Hr) as ([_ H1] & H2 & _). split; [exact H2|].
  intros H3 H4. destruct (H1 H4) as [H5|H5]; [congruence|exact H5].
Qed.
