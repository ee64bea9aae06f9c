(** * MirSect: the sections of a LineProcMirror can be taken as atomic (C80) *)
From stdpp Require Import gmap.
From Coq Require Import List NArith ZArith Bool Arith Lia.
From Verif Require Import PyStr Prog ProgFacts PyIO Base Spec LineBuf LineBufConcProofs Proc ProcSpec Sections.
Import ListNotations.
Local Open Scope prog_scope.
Local Open Scope nat_scope.

(** Commands made inside sections, which concern the mirror object and the stop flag, and
    commands made outside, which concern the queue. *)
Definition inm X (c : mcmd X) : Prop :=
  match c with MRef | MNew | MSetAggr _ | MSetTimeout _ | MPut _ _ _ => False | _ => True end.
Definition outm X (c : mcmd X) : Prop :=
  match c with MPut _ _ _ | MTimeout => True | _ => False end.

Section MirSect.
  Variable n : nat.
  Notation L := (mlock n).
  Definition St (d : menv) : Prop := m_ref (e_mir d) = Some n.
  Lemma L_reent : reent L = true.
  Proof. unfold reent, mlock. rewrite Nat.odd_add, Nat.odd_mul. reflexivity. Qed.
  Lemma STL_L : STL <> L.
  Proof. unfold STL, mlock. lia. Qed.

  Lemma keep X (c : mcmd X) d : inm X c \/ outm X c -> St d -> St (snd (cexec c d)).
  Proof.
    unfold St. destruct d as [[[w p cl] rf ag ti ha qn id cn] q qm es]. simpl.
    destruct c; simpl; intros [[]|[]]; intros H; try exact H; unfold on_buf; simpl; try (destruct cl; exact H);
      (destruct (q_full qm q); [destruct block|]; exact H).
  Qed.
  Lemma inc_moves X (c : mcmd X) d : inm X c -> St d -> fst (cexec c d) <> Block.
  Proof.
    destruct d as [[[w p cl] rf ag ti ha qn id cn] q qm es]. simpl.
    destruct c; simpl; intros []; intros _; try discriminate; unfold on_buf; simpl; destruct cl; discriminate.
  Qed.
  Lemma commute X Y (c : mcmd X) (c' : mcmd Y) d : inm X c -> outm Y c' -> St d ->
    fst (cexec c (snd (cexec c' d))) = fst (cexec c d) /\
    fst (cexec c' (snd (cexec c d))) = fst (cexec c' d) /\
    snd (cexec c (snd (cexec c' d))) = snd (cexec c' (snd (cexec c d))).
  Proof.
    intros Hc Hc' _. destruct d as [[[w p cl] rf ag ti ha qn id cn] q qm es].
    destruct c'; try destruct Hc'; [destruct c; try destruct Hc; simpl; unfold on_buf; simpl; try destruct cl; auto|].
    cbn [cexec msem mexec e_q e_qmax].
    destruct (q_full qm q) eqn:Eq; [destruct block|];
      (destruct c; try destruct Hc; simpl; unfold on_buf; simpl; try destruct cl; simpl; rewrite ?Eq; auto).
  Qed.

  Notation wf := (wf L St inm outm).
  Lemma ref_const d : St d -> cexec MRef d = (Good (Some n), d).
  Proof. intros H. simpl. rewrite H. reflexivity. Qed.

  (** Outside: [with self.__buffer_lock]. *)
  Lemma wf_with_m {A} (p : prog mcmd A) : wf (inside 0 false) (In 0 false) p -> wf (eq Out) Out (with_m p).
  Proof.
    intros H. unfold with_m, lm_lock. simpl. eapply wf_const; [exact ref_const|]. simpl.
    eapply wf_const; [exact ref_const|]. simpl. apply (wf_with_out L St inm outm p H).
  Qed.
  Lemma wf_with_again {A} k b (p : prog mcmd A) : wf (inside (S k) b) (In (S k) b) p -> wf (inside k b) (In k b) (with_m p).
  Proof.
    intros H. unfold with_m, lm_lock. simpl. eapply wf_const; [exact ref_const|]. simpl.
    eapply wf_const; [exact ref_const|]. simpl. apply (wf_with_in L St inm outm k b p H).
  Qed.
  Lemma wf_op {X} k b (c : mcmd X) : inm X c -> wf (inside k b) (In k b) (op c).
  Proof. intros H. apply wf_in; [exact H| |]; intros ?; [apply wf_ret|apply wf_raise]; exists b; auto. Qed.
  (** Sequences inside: the first part may or may not contain the one command. *)
  Lemma wf_seq {A B} k b (p : prog mcmd A) (f : A -> prog mcmd B) :
    wf (inside k b) (In k b) p -> (forall b' a, (b = true -> b' = true) -> wf (inside k b') (In k b') (f a)) ->
    wf (inside k b) (In k b) (bind p f).
  Proof.
    intros Hp Hf. apply (wf_bind _ _ _ _ (inside k b)); [exact Hp| |auto].
    intros ph a (b' & -> & Hb). 
    assert (Hm : forall Q Q' : phase -> Prop, (forall ph, Q ph -> Q' ph) -> forall ph (q : prog mcmd B), wf Q ph q -> wf Q' ph q).
    { clear. intros Q Q' HQ ph q H. induction H; [apply wf_ret; auto|apply wf_raise; auto|eapply wf_const; eauto|apply wf_out; auto|apply wf_in; auto
        |apply wf_one; auto|apply wf_take; auto|apply wf_again; auto|apply wf_leave; auto|apply wf_less; auto|apply wf_acq; auto|apply wf_rel; auto]. }
    eapply Hm; [|apply (Hf b' a Hb)]. intros ph (b2 & -> & H2). exists b2. split; [reflexivity|auto].
  Qed.
  Lemma wf_ret_in {A} k b (a : A) : wf (inside k b) (In k b) (Ret a : prog mcmd A).
  Proof. apply wf_ret. exists b. auto. Qed.
  Lemma wf_raise_in {A} k b e : wf (inside k b) (In k b) (Raise e : prog mcmd A).
  Proof. apply wf_raise. exists b. auto. Qed.

  (** The one command inside: a message is put into the queue. *)
  Lemma wf_put_in k m : wf (inside k false) (In k false) (lm_put m).
  Proof.
    unfold lm_put. simpl. apply wf_in; [exact Logic.I| |].
    - intros t. apply wf_one; [exact Logic.I| |]; intros ?; [apply wf_ret|apply wf_raise]; exists true; split; auto; discriminate.
    - intros e. apply wf_raise_in.
  Qed.
  Lemma wf_put_out m : wf (eq Out) Out (lm_put m).
  Proof.
    unfold lm_put. simpl. apply wf_out; [exact Logic.I| |].
    - intros t. apply wf_out; [exact Logic.I| |]; intros ?; [apply wf_ret|apply wf_raise]; reflexivity.
    - intros e. apply wf_raise. reflexivity.
  Qed.
  (** Before the one command: programs that end before it. *)
  Definition still (k : nat) (ph : phase) : Prop := ph = In k false.
  Lemma still_inside k ph : still k ph -> inside k false ph.
  Proof. intros ->. exists false. auto. Qed.
  Lemma wf_more {A} (Q Q' : phase -> Prop) ph (q : prog mcmd A) : (forall ph, Q ph -> Q' ph) -> wf Q ph q -> wf Q' ph q.
  Proof.
    intros HQ H. induction H; [apply wf_ret; auto|apply wf_raise; auto|eapply wf_const; eauto|apply wf_out; auto|apply wf_in; auto
        |apply wf_one; auto|apply wf_take; auto|apply wf_again; auto|apply wf_leave; auto|apply wf_less; auto|apply wf_acq; auto|apply wf_rel; auto].
  Qed.
  Lemma still_op {X} k (c : mcmd X) : inm X c -> wf (still k) (In k false) (op c).
  Proof. intros H. apply wf_in; [exact H| |]; intros ?; [apply wf_ret|apply wf_raise]; reflexivity. Qed.
  Lemma still_bind {A B} k Q (p : prog mcmd A) (f : A -> prog mcmd B) : wf (still k) (In k false) p ->
    (forall a, wf Q (In k false) (f a)) -> Q (In k false) -> wf Q (In k false) (bind p f).
  Proof.
    intros Hp Hf HQ. apply (wf_bind _ _ _ _ (still k)); [exact Hp| |].
    - intros ph a ->. apply Hf.
    - intros ph ->. exact HQ.
  Qed.
  Lemma still_again {A} k (p : prog mcmd A) : wf (still (S k)) (In (S k) false) p -> wf (still k) (In k false) (with_m p).
  Proof.
    intros H. unfold with_m, lm_lock. simpl. eapply wf_const; [exact ref_const|]. simpl.
    eapply wf_const; [exact ref_const|]. simpl. apply wf_again.
    remember (In (S k) false) as ph eqn:E. clear E.
    induction H as [ph a HQ|ph e HQ| | | | | | | | | |]; simpl;
      [rewrite HQ; apply wf_less, wf_ret; reflexivity|rewrite HQ; apply wf_less, wf_raise; reflexivity|eapply wf_const; eauto|apply wf_out; auto|apply wf_in; auto
        |apply wf_one; auto|apply wf_take; auto|apply Sections.wf_again; auto|apply wf_leave; auto|apply wf_less; auto|apply wf_acq; auto|apply wf_rel; auto].
  Qed.
  (** Another lock. *)
  Lemma still_other {A} k l m (p : prog mcmd A) : l <> L -> wf (still k) (In k false) p -> wf (still k) (In k false) (with_lock l m p).
  Proof.
    intros Hl H. apply wf_acq; [exact Hl| |intros e; apply wf_raise; reflexivity].
    remember (In k false) as ph eqn:E. clear E.
    induction H as [ph a HQ|ph e HQ| | | | | | | | | |]; simpl;
      [rewrite HQ; apply wf_rel; [exact Hl|apply wf_ret; reflexivity|intros e; apply wf_raise; reflexivity]
      |rewrite HQ; apply wf_rel; [exact Hl|apply wf_raise; reflexivity|intros e'; apply wf_raise; reflexivity]
      |eapply wf_const; eauto|apply wf_out; auto|apply wf_in; auto
      |apply wf_one; auto|apply wf_take; auto|apply Sections.wf_again; auto|apply wf_leave; auto|apply wf_less; auto|apply wf_acq; auto|apply wf_rel; auto].
  Qed.

  Lemma wf_send_data_in k data : wf (inside k false) (In k false) (lm_send_data data).
  Proof.
    unfold lm_send_data. apply (still_bind k); [apply still_again, still_op; exact Logic.I| |exists false; auto].
    intros [|]; [apply wf_ret_in|apply wf_put_in].
  Qed.
  Lemma wf_write_body k data : wf (inside k false) (In k false) (lm_write_body data).
  Proof.
    assert (HQ : inside k false (In k false)) by (exists false; auto).
    unfold lm_write_body. apply (still_bind k); [apply still_op; exact Logic.I| |exact HQ]. intros has.
    apply (still_bind k); [| |exact HQ].
    { destruct has; [|apply wf_ret; reflexivity]. apply still_other; [exact STL_L|].
      apply (still_bind k); [apply still_op; exact Logic.I| |reflexivity]. intros tr.
      apply (still_bind k); [destruct tr; [apply still_op; exact Logic.I|apply wf_ret; reflexivity]| |reflexivity].
      intros [|]; [apply wf_raise|apply wf_ret]; reflexivity. }
    intros _. apply (still_bind k); [apply still_op; exact Logic.I| |exact HQ]. intros [|].
    - apply wf_seq; [apply wf_send_data_in|]. intros b' _ _. apply wf_ret_in.
    - cbv zeta. destruct (_ || _).
      + apply (still_bind k); [apply still_op; exact Logic.I| |exact HQ]. intros res.
        apply (still_bind k); [apply still_op; exact Logic.I| |exact HQ]. intros v.
        apply wf_seq; [apply wf_send_data_in|]. intros b1 _ _.
        apply wf_seq; [apply wf_op; exact Logic.I|]. intros b2 _ _.
        apply wf_seq; [apply wf_op; exact Logic.I|]. intros b3 _ _. apply wf_ret_in.
      + destruct (_ =? 1); [apply wf_op; exact Logic.I|apply wf_ret_in].
  Qed.
  Lemma wf_check : wf (eq Out) Out (with_m (mop MClosed)).
  Proof. apply wf_with_m, wf_op. exact Logic.I. Qed.
  Lemma wf_open : wf (eq Out) Out (with_m (c <- mop MClosed ;; Ret (negb c))).
  Proof. apply wf_with_m, wf_seq; [apply wf_op; exact Logic.I|]. intros b' a _. apply wf_ret_in. Qed.
  Lemma wf_new_line : wf (eq Out) Out lm_new_line.
  Proof.
    apply wf_with_m. apply (still_bind 0); [apply still_op; exact Logic.I| |exists false; auto].
    intros i. destruct (0 <? i); [|apply wf_ret_in]. apply wf_seq; [apply wf_write_body|]. intros b' _ _. apply wf_ret_in.
  Qed.
  Lemma wf_clear : wf (eq Out) Out lm_clear.
  Proof. apply wf_with_m, wf_seq; [apply wf_op; exact Logic.I|]. intros b' a _. apply wf_op. exact Logic.I. Qed.
  Lemma out_bind {A B} (p : prog mcmd A) (f : A -> prog mcmd B) : wf (eq Out) Out p -> (forall a, wf (eq Out) Out (f a)) -> wf (eq Out) Out (bind p f).
  Proof. intros Hp Hf. apply (wf_bind _ _ _ _ (eq Out)); [exact Hp| |auto]. intros ph a <-. apply Hf. Qed.
  Lemma wf_signal m : wf (eq Out) Out (lm_send_signal m).
  Proof.
    unfold lm_send_signal. apply out_bind; [apply wf_check|]. intros [|]; [apply wf_ret; reflexivity|].
    apply out_bind; [apply wf_new_line|]. intros _. apply wf_put_out.
  Qed.

  Lemma wf_call c : fixed_settings c = true -> wf (eq Out) Out (lm_call c).
  Proof.
    assert (Hr : forall X (f : X -> mres) p, wf (eq Out) Out p -> wf (eq Out) Out (mret f p)).
    { intros X f p H. unfold mret. apply out_bind; [exact H|]. intros a. apply wf_ret. reflexivity. }
    assert (Ho : forall X (a : X), wf (eq Out) Out (Ret a : prog mcmd X)) by (intros; apply wf_ret; reflexivity).
    assert (He : forall X e, wf (eq Out) Out (Raise e : prog mcmd X)) by (intros; apply wf_raise; reflexivity).
    intros Hc. destruct c; try discriminate Hc; cbn [lm_call]; apply Hr.
    - unfold lm_write. apply out_bind; [apply wf_open|]. intros [|]; simpl; [apply wf_with_m, wf_write_body|apply He].
    - unfold lm_read. apply out_bind; [apply wf_open|]. intros [|]; simpl; [|apply He].
      apply wf_with_m. destruct size; apply wf_op; exact Logic.I.
    - apply wf_new_line.
    - apply wf_clear.
    - unfold lm_close. apply out_bind; [apply wf_check|]. intros [|]; [apply Ho|].
      apply out_bind; [destruct exc; apply wf_signal|]. intros _. apply out_bind; [apply wf_clear|]. intros _.
      apply wf_with_m, wf_op. exact Logic.I.
    - unfold lm_flush. apply wf_with_m, wf_op. exact Logic.I.
    - apply wf_signal.
    - apply wf_signal.
    - apply wf_signal.
    - unfold lm_send_data. apply out_bind; [apply wf_check|]. intros [|]; [apply Ho|apply wf_put_out].
    - apply wf_check.
    - apply wf_open.
    - apply wf_open.
    - apply He.
    - apply He.
    - apply Ho.
    - apply Ho.
  Qed.

  Theorem mir_sections css sch d0 ps' s' :
    m_ref (e_mir d0) = Some n -> Forall (Forall (fun c => fixed_settings c = true)) css ->
    sched_run sch (mir_pool css, idle d0) = Some (ps', s') ->
    Forall (fun p => finished p = true) ps' \/ lks s' !! L = None ->
    exists sch', atomic_run L sch' (mir_pool css, idle d0) = Some (ps', s').
  Proof.
    intros Hd Hok Hr Hl.
    assert (Hf : Forall (wf (eq Out) Out) (mir_pool css)).
    { unfold mir_pool. apply Forall_map. revert Hok. apply List.Forall_impl. intros cs Hcs. simpl. apply wf_thread.
      apply Forall_map. revert Hcs. apply List.Forall_impl. intros c. simpl. apply wf_call. }
    assert (H0 : lks (idle d0) !! L = None) by apply lookup_empty.
    apply (sections_atomic L L_reent St inm outm keep inc_moves commute sch _ _ _ _ H0 Hd Hf Hr).
    destruct Hl as [Hl|Hl]; [|exact Hl].
    exact (finished_free L L_reent St inm outm keep inc_moves commute sch _ _ _ _ H0 Hd Hf Hr Hl).
  Qed.
End MirSect.
