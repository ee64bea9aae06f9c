(** * StopProofs: threads and processes that are stopped while they work (lemmas for C82) *)
From stdpp Require Import gmap.
From Coq Require Import List NArith ZArith Bool Arith Lia.
From Verif Require Import PyStr Prog ProgFacts PyIO Base Spec LineBuf Proc ProcSpec CountSpec Stable ProcMain.
Import ListNotations.
Local Open Scope prog_scope.
Local Open Scope nat_scope.

(** Commands that keep the state of the main buffer. *)
Definition kind (X : Type) (c : scmd X) : Prop :=
  match c with SP c => match c with PStSet b => b = true | PStClear | PNewMirror => False | PPut m => is_text m = false | _ => True end | _ => True end.
Definition kindp (X : Type) (c : pcmd X) : Prop := kind X (SP c).

Lemma kind_m {A} i (p : prog mcmd A) : allops kind (sys_m i p).
Proof.
  unfold sys_m. induction p as [a|e|X c k IHk h IHh]; [exact I|exact I|]. destruct c as [l m|l|X c]; simpl; auto.
Qed.
Lemma kind_p {A} (p : prog pcmd A) : allops kindp p -> allops kind (sys_p p).
Proof.
  unfold sys_p. induction p as [a|e|X c k IHk h IHh]; [auto|auto|]. intros (H1 & H2 & H3). destruct c as [l m|l|X c]; simpl; auto.
Qed.
Lemma kind_b {A} (p : prog bcmd A) : allops kindp (on_main p).
Proof.
  unfold on_main. induction p as [a|e|X c k IHk h IHh]; [exact I|exact I|].
  destruct c as [l m|l|X c]; simpl; (split; [exact I|split; auto]).
Qed.
Ltac kq := repeat match goal with
  | |- allops _ (bind _ _) => apply allops_bind; [|intros ?]
  | |- allops _ (with_lock _ _ _) => apply allops_with
  | |- allops _ (op _) => apply allops_op; first [exact I|reflexivity]
  | |- allops _ (on_main _) => apply kind_b
  | |- allops _ (Ret _) => exact I
  | |- allops _ (Raise _) => exact I
  | |- allops _ (if ?b then _ else _) => destruct b
  | |- allops _ (match ?o with QStr _ => _ | _ => _ end) => destruct o
  end.
Lemma kind_receive : allops kindp lp_receive.
Proof. unfold lp_receive, lp_check_close. kq. Qed.
Lemma kind_wait fuel : allops kindp (lp_wait fuel).
Proof. induction fuel as [|f IH]; [exact I|]. cbn [lp_wait]. apply allops_bind; [apply kind_receive|]. intros [|]; [exact IH|exact I]. Qed.
Lemma kind_call c : keeps_state c = true -> allops kind (s_call c).
Proof.
  destruct c as [c|i c]; [|intros _; apply kind_m]. cbn [s_call]. intros Hc. apply kind_p. apply allops_bind; [|intros ?; exact I].
  destruct c as [c| | | | | |fuel]; try discriminate; cbn [lp_call]; unfold pret.
  - destruct c; unfold lp_len, lp_maxlen, lp_write, pret; kq.
  - unfold lp_mirror. kq.
  - unfold lp_stop_all. kq.
  - unfold lp_force_stop. kq.
  - kq. apply kind_receive.
  - kq. apply kind_wait.
Qed.

(** ** At most [n] texts are sent; [see] : which results of the commands that look at the
    stop flag are considered. *)
Section Bud.
  Context {C : Type -> Type} (emb : forall X, C X -> scmd X).
  Variable see : bool.
  Definition sends {X} (c : scmd X) : bool := match c with SM _ (MPut m _ _) => is_text m | _ => false end.
  Definition can {X} (c : scmd X) : X -> Prop :=
    match c in scmd X return X -> Prop with
    | SM _ c => match c in mcmd X return X -> Prop with
                | MHas => fun x => see = true -> x = true
                | MStTruth => fun x => see = true -> x = true
                | MStGet => fun x => see = true -> x = true
                | _ => fun _ => True end
    | _ => fun _ => True
    end.
  Fixpoint bud {A} (n : nat) (p : prog C A) : Prop :=
    match p with
    | Ret _ | Raise _ => True
    | Act c k h =>
        match c in cmd _ X return (X -> nat -> Prop) -> (exn -> nat -> Prop) -> Prop with
        | Acq _ _ | Rel _ => fun fk fh => fk tt n /\ forall e, fh e n
        | Op c => fun fk fh =>
            match n, sends (emb _ c) with
            | O, true => False
            | S n', true => (forall x, can (emb _ c) x -> fk x n') /\ forall e, fh e n'
            | _, false => (forall x, can (emb _ c) x -> fk x n) /\ forall e, fh e n
            end
        end (fun x n => bud n (k x)) (fun e n => bud n (h e))
    end.
  Lemma bud_more {A} (p : prog C A) : forall n m, n <= m -> bud n p -> bud m p.
  Proof.
    induction p as [a|e|X c k IHk h IHh]; intros n m Hnm H; [exact I|exact I|].
    destruct c as [l md|l|X c].
    - simpl in *. split; [eapply IHk; [exact Hnm|apply H]|intros e; eapply IHh; [exact Hnm|apply H]].
    - simpl in *. split; [eapply IHk; [exact Hnm|apply H]|intros e; eapply IHh; [exact Hnm|apply H]].
    - cbn [bud] in *. destruct (sends (emb X c)).
      + destruct n as [|n]; [contradiction|]. destruct m as [|m]; [lia|].
        split; [intros x Hx; eapply IHk; [|apply H, Hx]; lia|intros e; eapply IHh; [|apply H]; lia].
      + assert (H' : (forall x, can (emb X c) x -> bud n (k x)) /\ forall e, bud n (h e)) by (destruct n; exact H).
        assert (G : (forall x, can (emb X c) x -> bud m (k x)) /\ forall e, bud m (h e)).
        { split; [intros x Hx; eapply IHk; [|apply H', Hx]; lia|intros e; eapply IHh; [|apply H']; lia]. }
        destruct m; exact G.
  Qed.
  Lemma bud_op_split {A X} (c : C X) (k : X -> prog C A) h n : bud n (Act (Op c) k h) <->
    (if sends (emb X c) then match n with O => False | S n' => (forall x, can (emb X c) x -> bud n' (k x)) /\ forall e, bud n' (h e) end
     else (forall x, can (emb X c) x -> bud n (k x)) /\ forall e, bud n (h e)).
  Proof. cbn [bud]. destruct (sends (emb X c)), n; reflexivity. Qed.
  Lemma bud_bind {A B} (p : prog C A) (f : A -> prog C B) m : (forall a, bud m (f a)) -> forall n, bud n p -> bud (n + m) (bind p f).
  Proof.
    intros Hf. induction p as [a|e|X c k IHk h IHh]; intros n H; cbn [bind]; [eapply bud_more; [|apply Hf]; lia|exact I|].
    destruct c as [l md|l|X c].
    - simpl in *. split; [apply IHk, H|intros e; apply IHh, H].
    - simpl in *. split; [apply IHk, H|intros e; apply IHh, H].
    - apply bud_op_split in H. apply bud_op_split. destruct (sends (emb X c)).
      + destruct n as [|n]; [contradiction|]. cbn [Nat.add]. split; [intros x Hx; apply IHk, H, Hx|intros e; apply IHh, H].
      + split; [intros x Hx; apply IHk, H, Hx|intros e; apply IHh, H].
  Qed.
  Lemma bud_attempt {A} (p : prog C A) : forall n, bud n p -> bud n (attempt p).
  Proof.
    induction p as [a|e|X c k IHk h IHh]; intros n H; cbn [attempt]; [exact I|exact I|].
    destruct c as [l md|l|X c].
    - simpl in *. split; [apply IHk, H|intros e; apply IHh, H].
    - simpl in *. split; [apply IHk, H|intros e; apply IHh, H].
    - apply bud_op_split in H. apply bud_op_split. destruct (sends (emb X c)).
      + destruct n as [|n]; [contradiction|]. split; [intros x Hx; apply IHk, H, Hx|intros e; apply IHh, H].
      + split; [intros x Hx; apply IHk, H, Hx|intros e; apply IHh, H].
  Qed.
  Lemma bud_finally {A} (p : prog C A) l : forall n, bud n p -> bud n (try_finally p (release l)).
  Proof.
    induction p as [a|e|X c k IHk h IHh]; intros n H; cbn [try_finally]; [simpl; auto|simpl; auto|].
    destruct c as [l' md|l'|X c].
    - simpl in *. split; [apply IHk, H|intros e; apply IHh, H].
    - simpl in *. split; [apply IHk, H|intros e; apply IHh, H].
    - apply bud_op_split in H. apply bud_op_split. destruct (sends (emb X c)).
      + destruct n as [|n]; [contradiction|]. split; [intros x Hx; apply IHk, H, Hx|intros e; apply IHh, H].
      + split; [intros x Hx; apply IHk, H, Hx|intros e; apply IHh, H].
  Qed.
  Lemma bud_with {A} (p : prog C A) l m n : bud n p -> bud n (with_lock l m p).
  Proof. intros H. simpl. split; [apply bud_finally, H|auto]. Qed.
  Lemma bud_b0 {A B} (p : prog C A) (f : A -> prog C B) n : bud 0 p -> (forall a, bud n (f a)) -> bud n (bind p f).
  Proof. intros H1 H2. change n with (0 + n). apply bud_bind; auto. Qed.
  Lemma bud_b1 {A B} (p : prog C A) (f : A -> prog C B) n : bud n p -> (forall a, bud 0 (f a)) -> bud n (bind p f).
  Proof. intros H1 H2. replace n with (n + 0) by lia. apply bud_bind; auto. Qed.

  (** The outcomes that a program can have. *)
  Fixpoint outc {A} (Q : outcome A -> Prop) (p : prog C A) : Prop :=
    match p with
    | Ret a => Q (Good a)
    | Raise e => Q (Fail e)
    | Act c k h =>
        match c in cmd _ X return (X -> Prop) -> (exn -> Prop) -> Prop with
        | Acq _ _ | Rel _ => fun fk fh => fk tt /\ forall e, fh e
        | Op c => fun fk fh => (forall x, can (emb _ c) x -> fk x) /\ forall e, fh e
        end (fun x => outc Q (k x)) (fun e => outc Q (h e))
    end.
  Lemma outc_weaken {A} (p : prog C A) (Q Q' : outcome A -> Prop) : (forall r, Q r -> Q' r) -> outc Q p -> outc Q' p.
  Proof.
    intros HQ. induction p as [a|e|X c k IHk h IHh]; simpl; [auto|auto|]. destruct c as [l m|l|X c]; intros [H1 H2]; auto.
  Qed.
  Lemma outc_true {A} (p : prog C A) : outc (fun _ => True) p.
  Proof. induction p as [a|e|X c k IHk h IHh]; simpl; [auto|auto|]. destruct c as [l m|l|X c]; auto. Qed.
  Lemma outc_bind {A B} (p : prog C A) (f : A -> prog C B) (Q : outcome A -> Prop) (Q' : outcome B -> Prop) :
    outc Q p -> (forall a, Q (Good a) -> outc Q' (f a)) -> (forall e, Q (Fail e) -> Q' (Fail e)) -> outc Q' (bind p f).
  Proof.
    intros H H1 H2. induction p as [a|e|X c k IHk h IHh]; simpl in *; [auto|auto|]. destruct c as [l m|l|X c]; destruct H as [G1 G2]; auto.
  Qed.
  Lemma outc_finally {A} (p : prog C A) l (Q : outcome A -> Prop) : outc Q p -> (forall e, Q (Fail e)) -> outc Q (try_finally p (release l)).
  Proof.
    intros H HQ. induction p as [a|e|X c k IHk h IHh]; simpl in *; [auto|auto|]. destruct c as [l' m|l'|X c]; destruct H as [G1 G2]; auto.
  Qed.
  Lemma outc_with {A} (p : prog C A) l m (Q : outcome A -> Prop) : outc Q p -> (forall e, Q (Fail e)) -> outc Q (with_lock l m p).
  Proof. intros H HQ. simpl. split; [apply outc_finally; auto|auto]. Qed.
  Lemma outc_attempt {A} (p : prog C A) (Q : outcome A -> Prop) : outc Q p -> outc (fun r => exists r', r = Good r' /\ Q r') (attempt p).
  Proof.
    intros H. induction p as [a|e|X c k IHk h IHh]; simpl in *; [eauto|eauto|]. destruct c as [l' m|l'|X c]; destruct H as [G1 G2]; auto.
  Qed.
  Lemma bud_stop {A B} (p : prog C A) (f : A -> prog C B) : outc (fun r => exists e, r = Fail e) p -> forall n, bud n p -> bud n (bind p f).
  Proof.
    induction p as [a|e|X c k IHk h IHh]; intros Ho n H; cbn [bind]; [destruct Ho; discriminate|exact I|].
    destruct c as [l md|l|X c].
    - simpl in *. split; [apply IHk; [apply Ho|apply H]|intros e; apply IHh; [apply Ho|apply H]].
    - simpl in *. split; [apply IHk; [apply Ho|apply H]|intros e; apply IHh; [apply Ho|apply H]].
    - apply bud_op_split in H. apply bud_op_split. destruct (sends (emb X c)).
      + destruct n as [|n]; [contradiction|]. split; [intros x Hx; apply IHk; [apply Ho, Hx|apply H, Hx]|intros e; apply IHh; [apply Ho|apply H]].
      + split; [intros x Hx; apply IHk; [apply Ho, Hx|apply H, Hx]|intros e; apply IHh; [apply Ho|apply H]].
  Qed.
End Bud.

(** ** Methods of a mirror *)
Definition EM (i : nat) : forall X, mcmd X -> scmd X := fun X c => SM i c.
Definition ES : forall X, scmd X -> scmd X := fun X c => c.
Definition EP : forall X, pcmd X -> scmd X := fun X c => SP c.

Lemma bud_lift_m {A} i see (p : prog mcmd A) : forall n, bud (EM i) see n p -> bud ES see n (sys_m i p).
Proof.
  unfold sys_m. induction p as [a|e|X c k IHk h IHh]; intros n H; [exact I|exact I|]. destruct c as [l m|l|X c].
  - simpl in *. split; [apply IHk, H|intros e; apply IHh, H].
  - simpl in *. split; [apply IHk, H|intros e; apply IHh, H].
  - cbn [lift lift_cmd]. apply bud_op_split in H. apply bud_op_split. unfold EM, ES in *. destruct (sends (SM i c)).
    + destruct n as [|n]; [contradiction|]. split; [intros x Hx; apply IHk, H, Hx|intros e; apply IHh, H].
    + split; [intros x Hx; apply IHk, H, Hx|intros e; apply IHh, H].
Qed.
Lemma outc_lift_m {A} i see Q (p : prog mcmd A) : outc (EM i) see Q p -> outc ES see Q (sys_m i p).
Proof.
  unfold sys_m. induction p as [a|e|X c k IHk h IHh]; intros H; [exact H|exact H|]. destruct c as [l m|l|X c]; simpl in *; destruct H; auto.
Qed.
Lemma bud_lift_p {A} see (p : prog pcmd A) n : bud ES see n (sys_p p).
Proof.
  unfold sys_p. revert n. induction p as [a|e|X c k IHk h IHh]; intros n; [exact I|exact I|]. destruct c as [l m|l|X c]; [simpl; auto|simpl; auto|].
  cbn [lift lift_cmd]. apply bud_op_split. simpl. auto.
Qed.

Section Mirror.
  Variables (i : nat) (see : bool).
  Notation bd := (bud (EM i) see).
  Lemma bd_lock : bd 0 lm_lock.
  Proof.
    unfold lm_lock. apply bud_b0; [simpl; auto|]. intros r. apply bud_b0; [destruct r; simpl; auto|].
    intros _. apply bud_b0; [simpl; auto|]. intros [n|]; simpl; auto.
  Qed.
  Lemma bd_with {A} (p : prog mcmd A) n : bd n p -> bd n (with_m p).
  Proof. intros H. unfold with_m. apply bud_b0; [apply bd_lock|]. intros l. apply bud_with, H. Qed.
  Lemma bd_put m : bd (if is_text m then 1 else 0) (lm_put m).
  Proof. unfold lm_put. apply bud_b0; [simpl; auto|]. intros t. apply bud_op_split. simpl. destruct (is_text m); simpl; auto. Qed.
  Lemma bd_send_data data : bd 1 (lm_send_data data).
  Proof. unfold lm_send_data. apply bud_b0; [apply bd_with; simpl; auto|]. intros [|]; [exact I|apply (bd_put (QStr data))]. Qed.
  (** After the stop flag has been looked at. *)
  Lemma bd_write_tail data : bd 1
    (let message_lines := splitlines data in
     ag <- mop MAggr ;;
     if ag then lm_send_data data ;; Ret (length data)
     else
      let n_lines := length message_lines in
      if (1 <? n_lines) || ((n_lines =? 1) && text_eqb (hd [] message_lines) []) || is_end_line_break data then
        res <- mop (MWrite data) ;; v <- mop MGetvalue ;; lm_send_data v ;; mop MSeek0 ;; mop MTruncate0 ;; Ret res
      else if n_lines =? 1 then mop (MWrite data) else Ret 0).
  Proof.
    cbv zeta. apply bud_b0; [simpl; auto|]. intros [|]; [apply bud_b1; [apply bd_send_data|intros; exact I]|].
    destruct (_ || _ || _).
    - apply bud_b0; [simpl; auto|]. intros res. apply bud_b0; [simpl; auto|]. intros v.
      apply bud_b1; [apply bd_send_data|]. intros _. apply bud_b0; [simpl; auto|]. intros _. apply bud_b0; [simpl; auto|]. intros _. exact I.
    - destruct (_ =? _); simpl; auto.
  Qed.
  Notation check := (with_lock STL Ex (t <- mop MStTruth ;; c <- (if t then mop MStGet else Ret false) ;; if c then Raise StopIteration else Ret tt)).
  Lemma bd_check : bd 0 check.
  Proof.
    apply bud_with. apply bud_b0; [simpl; auto|]. intros t.
    apply bud_b0; [destruct t; simpl; auto|]. intros [|]; exact I.
  Qed.
  Lemma oc_check : see = true -> outc (EM i) see (fun r => exists e, r = Fail e) check.
  Proof.
    intros Hs. apply outc_with; [|eauto]. simpl. split; [|eauto].
    intros t Ht. rewrite (Ht Hs). simpl. split; [|eauto]. intros c Hc. rewrite (Hc Hs). simpl. eauto.
  Qed.
  (** write(): at most one text, and none if the flag is seen. *)
  Definition nmax : nat := if see then 0 else 1.
  Lemma bd_write_body data : bd nmax (lm_write_body data).
  Proof.
    assert (H1 : bd 1 (lm_write_body data)).
    { unfold lm_write_body. apply bud_b0; [simpl; auto|]. intros has. apply bud_b0; [destruct has; [apply bd_check|exact I]|].
      intros _. apply bd_write_tail. }
    assert (H2 : see = true -> bd 0 (lm_write_body data)).
    { intros Hs. unfold lm_write_body. unfold op at 1. cbn [bind]. apply bud_op_split. simpl. split; [|auto]. intros x Hx. rewrite (Hx Hs).
      apply bud_stop; [apply oc_check, Hs|apply bd_check]. }
    unfold nmax. revert H1 H2. generalize (lm_write_body data). intros p. clear. destruct see; auto.
  Qed.
  Lemma oc_write_body data : see = true -> outc (EM i) see (fun r => exists e, r = Fail e) (lm_write_body data).
  Proof.
    intros Hs. unfold lm_write_body. unfold op at 1. cbn [bind outc]. split; [|intros e; exists e; reflexivity].
    intros x Hx. simpl in Hx. rewrite (Hx Hs). eapply outc_bind; [apply oc_check, Hs| |intros e He; eauto].
    intros a [e He]. discriminate.
  Qed.
  Lemma bd_new_line : bd nmax lm_new_line.
  Proof.
    unfold lm_new_line. apply bd_with. apply bud_b0; [simpl; auto|]. intros n. destruct (0 <? n); [|exact I].
    apply bud_b1; [apply bd_write_body|]. intros _. exact I.
  Qed.
  Lemma bd_signal m : is_text m = false -> bd nmax (lm_send_signal m).
  Proof.
    intros Hm. unfold lm_send_signal. apply bud_b0; [apply bd_with; simpl; auto|]. intros [|]; [exact I|].
    apply bud_b1; [apply bd_new_line|]. intros _. pose proof (bd_put m) as H. rewrite Hm in H. exact H.
  Qed.
  Lemma bd_0 {A} (p : prog mcmd A) : bd 0 p -> bd nmax p.
  Proof. apply bud_more. lia. Qed.
  Lemma bd_writable : bd 0 lm_writable.
  Proof. apply bd_with. apply bud_b0; [simpl; auto|]. intros; exact I. Qed.
  Lemma bd_clear : bd 0 lm_clear.
  Proof. apply bd_with. apply bud_b0; [simpl; auto|]. intros; simpl; auto. Qed.
  Lemma bd_call c : checks_flag (ToMirror i c) = true -> bd nmax (lm_call c).
  Proof.
    intros Hc. destruct c; try discriminate; cbn [lm_call]; unfold mret; (apply bud_b1; [|intros ?; exact I]).
    - unfold lm_write. apply bud_b0; [apply bd_writable|]. intros [|]; cbn [negb]; [apply bd_with, bd_write_body|exact I].
    - apply bd_0. unfold lm_read. apply bud_b0; [apply bd_writable|]. intros [|]; cbn [negb]; [|exact I]. apply bd_with. destruct size; simpl; auto.
    - apply bd_new_line.
    - apply bd_0, bd_clear.
    - unfold lm_close. apply bud_b0; [apply bd_with; simpl; auto|]. intros [|]; [exact I|].
      apply bud_b1; [destruct exc; apply bd_signal; reflexivity|]. intros _. apply bud_b0; [apply bd_clear|]. intros _. apply bd_with. simpl. auto.
    - apply bd_0. apply bd_with. simpl. auto.
    - apply bd_signal. reflexivity.
    - apply bd_signal. reflexivity.
    - apply bd_signal. reflexivity.
    - apply bd_0. apply bd_with. simpl. auto.
    - apply bd_0. apply bd_writable.
    - apply bd_0. apply bd_writable.
    - exact I.
    - exact I.
    - exact I.
    - exact I.
    - apply bd_0. simpl. auto.
    - apply bd_0. simpl. auto.
  Qed.
End Mirror.

Lemma oc_write i see data : see = true -> outc (EM i) see (fun r => exists e, r = Fail e) (lm_call (CWrite data)).
Proof.
  intros Hs. cbn [lm_call]. unfold mret. eapply outc_bind with (Q := fun r => exists e, r = Fail e); [|intros a [e He]; discriminate|intros e _; eauto].
  unfold lm_write. eapply outc_bind with (Q := fun _ => True); [apply outc_true| |eauto]. intros [|] _; cbn [negb]; [|simpl; eauto].
  unfold with_m. eapply outc_bind with (Q := fun _ => True); [apply outc_true| |eauto]. intros l _.
  apply outc_with; [apply oc_write_body, Hs|eauto].
Qed.

(** ** Threads *)
Definition s_post (c : scall) (r : outcome sres) : Prop :=
  match c with ToMirror _ (CWrite _) => exists e, r = Fail e | _ => True end.
Lemma bud_s_call see c : checks_flag c = true -> bud ES see (if see then 0 else 1) (s_call c).
Proof.
  intros Hc. destruct c as [c|i c]; cbn [s_call]; [apply bud_lift_p|]. apply bud_lift_m. apply bud_b1; [apply (bd_call i see c Hc)|intros ?; exact I].
Qed.
Lemma oc_s_call c : outc ES true (s_post c) (s_call c).
Proof.
  assert (H : outc ES true (fun _ => True) (s_call c)) by apply outc_true.
  destruct c as [c|i c]; [exact H|]. destruct c; try exact H. cbn [s_call s_post]. apply outc_lift_m.
  eapply outc_bind with (Q := fun r => exists e, r = Fail e); [apply oc_write; reflexivity| |intros e He; exists e; reflexivity].
  intros a [e He]. discriminate.
Qed.
Lemma bud_thread cs : Forall (fun c => checks_flag c = true) cs -> forall rs, bud ES true 0 (thread_from rs (map s_call cs)).
Proof.
  induction 1 as [|c cs Hc _ IH]; intros rs; [exact I|]. cbn [map thread_from]. apply bud_b0; [|intros a; apply IH].
  apply bud_attempt. apply (bud_s_call true c Hc).
Qed.
Lemma oc_thread cs : forall ds rs, Forall2 s_post (rev ds) (rev rs) ->
  outc ES true (fun r => exists l, r = Good l /\ Forall2 s_post (rev ds ++ cs) l) (thread_from rs (map s_call cs)).
Proof.
  induction cs as [|c cs IH]; intros ds rs HF; cbn [map thread_from].
  - simpl. exists (rev rs). rewrite app_nil_r. auto.
  - eapply outc_bind; [apply outc_attempt, (oc_s_call c)| |intros e (r' & E & _); discriminate].
    intros r (r' & E & HP). injection E as <-. specialize (IH (c :: ds) (r :: rs)). simpl in IH. rewrite <- app_assoc in IH. apply IH.
    apply Forall2_app; [exact HF|]. constructor; [exact HP|constructor].
Qed.

(** A thread at any moment: at most one text more once the flag is set. *)
Fixpoint mid {A} (p : prog scmd A) : Prop :=
  bud ES true 1 p /\
  match p with Ret _ | Raise _ => True | Act c k h => (forall x, mid (k x)) /\ forall e, mid (h e) end.
Lemma bud_see {A} (p : prog scmd A) : forall n, bud ES false n p -> bud ES true n p.
Proof.
  assert (Hcan : forall X (c : scmd X) x, can true (ES X c) x -> can false (ES X c) x).
  { intros X c x _. destruct c as [i X c|X c]; [|exact I]. destruct c; simpl; try exact I; intros; discriminate. }
  induction p as [a|e|X c k IHk h IHh]; intros n H; [exact I|exact I|]. destruct c as [l m|l|X c].
  - simpl in *. split; [apply IHk, H|intros e; apply IHh, H].
  - simpl in *. split; [apply IHk, H|intros e; apply IHh, H].
  - apply bud_op_split in H. apply bud_op_split. destruct (sends (ES X c)).
    + destruct n as [|n]; [contradiction|]. split; [intros x Hx; apply IHk, H, Hcan, Hx|intros e; apply IHh, H].
    + split; [intros x Hx; apply IHk, H, Hcan, Hx|intros e; apply IHh, H].
Qed.
Lemma mid_attempt {A B} (q : prog scmd A) (f : outcome A -> prog scmd B) : (forall a, bud ES true 0 (f a)) -> (forall a, mid (f a)) ->
  bud ES false 1 q -> mid (bind (attempt q) f).
Proof.
  intros Hf Hm. induction q as [a|e|X c k IHk h IHh]; intros H; cbn [attempt bind]; [apply Hm|apply Hm|].
  cbn [mid]. split.
  - apply (bud_b1 ES true (attempt (Act c k h)) f); [|exact Hf]. apply bud_attempt, bud_see, H.
  - assert (Hcan : forall X (c : scmd X) x, can false (ES X c) x).
    { clear. intros X c x. destruct c as [i X c|X c]; [|exact I]. destruct c; simpl; try exact I; intros; discriminate. }
    destruct c as [l m|l|X c].
    + simpl in H. split; [intros []; apply IHk, H|intros e; apply IHh, H].
    + simpl in H. split; [intros []; apply IHk, H|intros e; apply IHh, H].
    + apply bud_op_split in H. destruct (sends (ES X c)).
      * split; [intros x; apply IHk|intros e; apply IHh]; (eapply bud_more; [|apply H; try apply Hcan]; lia).
      * split; [intros x; apply IHk, H, Hcan|intros e; apply IHh, H].
Qed.
Lemma mid_thread cs : Forall (fun c => checks_flag c = true) cs -> forall rs, mid (thread_from rs (map s_call cs)).
Proof.
  induction 1 as [|c cs Hc Hcs IH]; intros rs; cbn [map thread_from]; [simpl; auto|].
  apply mid_attempt; [intros a; apply bud_thread, Hcs|intros a; apply IH|]. apply (bud_s_call false c Hc).
Qed.

(** ** One step *)
Definition flag_on (d : psys) : Prop := s_state d = Some true.
Definition all_check (d : psys) : Prop := forall m, In m (s_mirs d) -> m_has m = true.

Lemma in_set_nth {A} i (x y : A) l : In y (set_nth i x l) -> y = x \/ In y l.
Proof.
  revert i. induction l as [|z l IH]; intros i H; [destruct i; destruct H|]. destruct i as [|i]; simpl in H.
  - destruct H as [<-|H]; [left; reflexivity|right; right; exact H].
  - destruct H as [<-|H]; [right; left; reflexivity|]. destruct (IH i H) as [->|G]; [left; reflexivity|right; right; exact G].
Qed.
Lemma has_at d i : all_check d -> m_has (mir_at d i) = true.
Proof. intros H. unfold mir_at. destruct (nth_in_or_default i (s_mirs d) mir0) as [Hi| ->]; [apply H, Hi|reflexivity]. Qed.
Definition posted {X} (c : mcmd X) (r : outcome X) : list msg := match c, r with MPut m _ _, Good _ => [m] | _, _ => [] end.
Lemma mexec_keeps {X} (c : mcmd X) e r e' : mexec c e = (r, e') -> m_has (e_mir e') = m_has (e_mir e) /\ e_state e' = e_state e /\
  e_q e' = e_q e ++ posted c r.
Proof.
  destruct e as [[b rf ag ti ha qn id cn] q qm es].
  assert (Hb : forall Y (f : sio -> outcome Y * sio) (r : outcome Y) e', on_buf f (mkmenv (mkmir b rf ag ti ha qn id cn) q qm es) = (r, e') ->
    m_has (e_mir e') = ha /\ e_state e' = es /\ e_q e' = q ++ []).
  { intros Y f r0 e0. unfold on_buf. simpl. destruct (f b) as [r1 b1]. intros E. injection E as <- <-. rewrite app_nil_r. auto. }
  destruct c; cbn [mexec]; try (intros E; destruct (Hb _ _ _ _ E) as (H1 & H2 & H3); destruct r; auto; fail);
    try (intros E; injection E as <- <-; rewrite ?app_nil_r; simpl; auto; fail).
  simpl. destruct (q_full qm q); [destruct block|]; intros E; injection E as <- <-; rewrite ?app_nil_r; simpl; auto.
Qed.
Lemma texts_set l i q : list_sum (map (fun q => length (List.filter is_text q)) (set_nth i q l)) <=
  list_sum (map (fun q => length (List.filter is_text q)) l) - length (List.filter is_text (nth i l [])) + length (List.filter is_text q).
Proof.
  assert (G : forall l i, length (List.filter is_text (nth i l [])) <= list_sum (map (fun q => length (List.filter is_text q)) l)).
  { clear. induction l as [|z l IH]; intros [|i]; simpl; try lia. specialize (IH i). unfold list_sum in *. lia. }
  revert i. induction l as [|z l IH]; intros i; [simpl; destruct i; simpl; lia|]. destruct i as [|i]; simpl.
  - lia.
  - specialize (IH i). specialize (G l i). unfold list_sum in *. lia.
Qed.
Lemma texts_same l i q : length (List.filter is_text q) <= length (List.filter is_text (nth i l [])) ->
  list_sum (map (fun q => length (List.filter is_text q)) (set_nth i q l)) <= list_sum (map (fun q => length (List.filter is_text q)) l).
Proof.
  revert i. induction l as [|z l IH]; intros i H; [destruct i; simpl; lia|]. destruct i as [|i]; simpl in *; [lia|]. specialize (IH i H). unfold list_sum in *. lia.
Qed.

Lemma step_has {X} (c : scmd X) d r d' : kind X c -> cexec c d = (r, d') -> all_check d ->
  all_check d' /\ (flag_on d -> flag_on d') /\ n_texts d' <= n_texts d + (if sends c then 1 else 0).
Proof.
  intros Hk E Ha. destruct c as [i X c|X c]; simpl in E.
  - destruct (mexec c (get_menv i d)) as [r' e] eqn:Em. injection E as <- <-.
    destruct (mexec_keeps _ _ _ _ Em) as (H1 & H2 & H3). simpl in H1, H2, H3. split; [|split].
    + intros m Hm. simpl in Hm. apply in_set_nth in Hm as [->|Hm]; [|apply Ha, Hm]. rewrite H1. apply has_at, Ha.
    + unfold flag_on. simpl. rewrite H2. auto.
    + unfold n_texts. cbn [put_menv s_qs]. rewrite H3.
      assert (Hx : length (List.filter is_text (posted c r')) <= if sends (SM i c) then 1 else 0).
      { destruct c, r'; simpl; try lia. destruct (is_text m); simpl; lia. }
      eapply Nat.le_trans; [apply texts_set|]. rewrite List.filter_app, app_length.
      pose proof (texts_same (s_qs d) (m_q (mir_at d i)) []) as G. simpl in G.
      assert (Hle : length (List.filter is_text (nth (m_q (mir_at d i)) (s_qs d) [])) <= list_sum (map (fun q => length (List.filter is_text q)) (s_qs d))).
      { clear. generalize (m_q (mir_at d i)). intros n. generalize (s_qs d). clear. intros l. revert n.
        induction l as [|z l IH]; intros [|n]; simpl; try lia. specialize (IH n). unfold list_sum in *. lia. }
      lia.
  - destruct c; simpl in E, Hk; try contradiction;
      try (injection E as <- <-; split; [exact Ha|split; [auto|unfold n_texts; simpl; lia]]).
    + destruct (bexec c (s_main d)) as [r' b]. injection E as <- <-. split; [exact Ha|split; [auto|unfold n_texts; simpl; lia]].
    + destruct (nth (cur_q d) (s_qs d) []) as [|m q] eqn:Eq; injection E as <- <-; (split; [exact Ha|split; [auto|unfold n_texts; simpl; try lia]]).
      rewrite Nat.add_0_r. apply texts_same. rewrite Eq. simpl. destruct (is_text m); simpl; lia.
    + injection E as <- <-. split; [exact Ha|split; [auto|]]. unfold n_texts. simpl. rewrite Nat.add_0_r. apply texts_same.
      rewrite List.filter_app, app_length. simpl. rewrite Hk. simpl. lia.
    + intros _. unfold flag_on. simpl. rewrite Hk. reflexivity.
Qed.
Lemma step_can {X} (c : scmd X) d x d' : cexec c d = (Good x, d') -> all_check d -> flag_on d -> can true c x.
Proof.
  intros E Ha Hf. destruct c as [i X c|X c]; [|exact I]. destruct c; try exact I; simpl in E |- *; intros _; injection E as <- _.
  - apply has_at, Ha.
  - rewrite Hf. reflexivity.
  - rewrite Hf. reflexivity.
Qed.

Lemma kind_thread cs : Forall (fun c => keeps_state c = true) cs -> forall rs, allops kind (thread_from rs (map s_call cs)).
Proof.
  induction 1 as [|c cs Hc _ IH]; intros rs; [exact I|]. cbn [map thread_from].
  apply allops_bind; [|intros a; apply IH]. pose proof (kind_call c Hc) as H. revert H. generalize (s_call c). clear.
  induction p as [a|e|X c k IHk h IHh]; [auto|auto|]. intros (H1 & H2 & H3). simpl. auto.
Qed.

(** One step of a thread. *)
Lemma pstep_kind {A} i (p : prog scmd A) s p' s' : allops kind p -> all_check (dat s) -> pstep i p s = Some (p', s') ->
  allops kind p' /\ all_check (dat s') /\ (flag_on (dat s) -> flag_on (dat s')).
Proof.
  intros Hk Ha E. destruct p as [a|e|X c k h]; [discriminate|discriminate|]. simpl in E. destruct Hk as (H1 & H2 & H3).
  destruct (exec i c s) as [r s1] eqn:Ee. assert (Hs : all_check (dat s1) /\ (flag_on (dat s) -> flag_on (dat s1))).
  { destruct c as [l m|l|X c]; cbn [exec] in Ee.
    - destruct (lock_acq _ _ _ _ _). injection Ee as <- <-. auto.
    - destruct (lock_rel _ _ _). injection Ee as <- <-. auto.
    - destruct (cexec c (dat s)) as [r' d'] eqn:Ec. injection Ee as <- <-. destruct (step_has c _ _ _ H1 Ec Ha) as (G1 & G2 & _). auto. }
  destruct r as [x|e|]; [| |discriminate]; injection E as <- <-; split; [apply H2|exact Hs|apply H3|exact Hs].
Qed.
Lemma pstep_bud {A} i (p : prog scmd A) s p' s' n Q : allops kind p -> all_check (dat s) -> flag_on (dat s) ->
  bud ES true n p -> outc ES true Q p -> pstep i p s = Some (p', s') ->
  exists n', bud ES true n' p' /\ outc ES true Q p' /\ n_texts (dat s') + n' <= n_texts (dat s) + n.
Proof.
  intros Hk Ha Hf Hb Ho E. destruct p as [a|e|X c k h]; [discriminate|discriminate|]. simpl in E. destruct Hk as (H1 & H2 & H3).
  destruct c as [l m|l|X c]; cbn [exec] in E.
  - exists n. simpl in Hb, Ho. destruct (lock_acq _ _ _ _ _) as [[[]|e|] lk]; try discriminate; injection E as <- <-; simpl; (split; [apply Hb|split; [apply Ho|lia]]).
  - exists n. simpl in Hb, Ho. destruct (lock_rel _ _ _) as [[[]|e|] lk]; try discriminate; injection E as <- <-; simpl; (split; [apply Hb|split; [apply Ho|lia]]).
  - apply bud_op_split in Hb. simpl in Ho. destruct (cexec c (dat s)) as [r d'] eqn:Ec. destruct (step_has c _ _ _ H1 Ec Ha) as (_ & _ & Hn).
    unfold ES in Hb at 1. destruct (sends c).
    + destruct n as [|n]; [contradiction|]. exists n.
      destruct r as [x|e|]; [| |discriminate]; injection E as <- <-; simpl.
      * pose proof (step_can _ _ _ _ Ec Ha Hf) as Hc. split; [apply Hb, Hc|]. split; [apply Ho, Hc|lia].
      * split; [apply Hb|]. split; [apply Ho|lia].
    + exists n. destruct r as [x|e|]; [| |discriminate]; injection E as <- <-; simpl.
      * pose proof (step_can _ _ _ _ Ec Ha Hf) as Hc. split; [apply Hb, Hc|]. split; [apply Ho, Hc|lia].
      * split; [apply Hb|]. split; [apply Ho|lia].
Qed.
Lemma pstep_mid {A} i (p : prog scmd A) s p' s' : mid p -> pstep i p s = Some (p', s') -> mid p'.
Proof.
  intros H E. destruct p as [a|e|X c k h]; [discriminate|discriminate|]. simpl in E. destruct H as (_ & H2 & H3).
  destruct (exec i c s) as [[x|e|] s1]; [| |discriminate]; injection E as <- <-; auto.
Qed.

(** ** Executions *)
Section Runs.
  Context {A : Type}.
  Implicit Types ps : list (prog scmd A).
  Lemma run_before sch : forall ps s ps' s', (forall p, In p ps -> allops kind p /\ mid p) -> all_check (dat s) ->
    sched_run sch (ps, s) = Some (ps', s') -> length ps' = length ps /\ (forall p, In p ps' -> allops kind p /\ mid p) /\ all_check (dat s').
  Proof.
    induction sch as [|i sch IH]; intros ps s ps' s' Hp Ha E; simpl in E; [injection E as <- <-; auto|].
    unfold cstep in E. cbn [fst snd] in E. destruct (ps !! i) as [p|] eqn:Ei; [|discriminate]. destruct (pstep i p s) as [[p1 s1]|] eqn:Es; [|discriminate].
    assert (Hin : In p ps) by (apply elem_of_list_In, elem_of_list_lookup; eauto). destruct (Hp p Hin) as [Hk Hm].
    destruct (pstep_kind _ _ _ _ _ Hk Ha Es) as (G1 & G2 & _). pose proof (pstep_mid _ _ _ _ _ Hm Es) as G3.
    destruct (IH (<[i:=p1]> ps) s1 ps' s') as (J1 & J2 & J3); [|exact G2|exact E|].
    - intros q Hq. apply elem_of_list_In, elem_of_list_lookup in Hq. destruct Hq as (j & Hj). destruct (decide (i = j)) as [<-|Hne].
      + rewrite list_lookup_insert in Hj by (eapply lookup_lt_Some, Ei). injection Hj as <-. auto.
      + rewrite list_lookup_insert_ne in Hj by exact Hne. apply Hp, elem_of_list_In, elem_of_list_lookup. eauto.
    - rewrite insert_length in J1. auto.
  Qed.

  Definition stopped (w : nat * (outcome A -> Prop)) (p : prog scmd A) : Prop := allops kind p /\ bud ES true (fst w) p /\ outc ES true (snd w) p.
  Lemma sum_ins (ws : list (nat * (outcome A -> Prop))) : forall i w w', ws !! i = Some w -> list_sum (map fst (<[i:=w']> ws)) + fst w = list_sum (map fst ws) + fst w'.
  Proof.
    induction ws as [|x ws IH]; intros [|i] w w' H; simpl in *; try discriminate.
    - injection H as ->. lia.
    - specialize (IH i w w' H). unfold list_sum in *. lia.
  Qed.
  Lemma run_after sch : forall ps s ps' s' ws, Forall2 stopped ws ps -> all_check (dat s) -> flag_on (dat s) ->
    sched_run sch (ps, s) = Some (ps', s') ->
    flag_on (dat s') /\ n_texts (dat s') <= n_texts (dat s) + list_sum (map fst ws) /\
    Forall2 (fun w p => outc ES true (snd w) p) ws ps'.
  Proof.
    induction sch as [|i sch IH]; intros ps s ps' s' ws HF Ha Hf E; simpl in E.
    { injection E as <- <-. split; [exact Hf|]. split; [lia|]. eapply Forall2_impl; [exact HF|]. intros w p (_ & _ & H). exact H. }
    unfold cstep in E. cbn [fst snd] in E. destruct (ps !! i) as [p|] eqn:Ei; [|discriminate]. destruct (pstep i p s) as [[p1 s1]|] eqn:Es; [|discriminate].
    destruct (Forall2_lookup_r _ _ _ _ _ HF Ei) as (w & Hw & Hk & Hb & Ho).
    destruct (pstep_kind _ _ _ _ _ Hk Ha Es) as (G1 & G2 & G3). destruct (pstep_bud _ _ _ _ _ _ _ Hk Ha Hf Hb Ho Es) as (n' & B1 & B2 & B3).
    destruct (IH (<[i:=p1]> ps) s1 ps' s' (<[i:=(n', snd w)]> ws)) as (J1 & J2 & J3); [|exact G2|exact (G3 Hf)|exact E|].
    - apply Forall2_insert; [exact HF|]. split; [exact G1|]. split; [exact B1|exact B2].
    - split; [exact J1|]. split; [pose proof (sum_ins ws i w (n', snd w) Hw); simpl in *; lia|].
      apply Forall2_same_length_lookup. apply Forall2_same_length_lookup in J3. destruct J3 as [JL J3]. rewrite insert_length in JL. split; [exact JL|].
      intros j x y Hx Hy. destruct (decide (i = j)) as [<-|Hne].
      + rewrite Hw in Hx. injection Hx as <-. eapply (J3 i (n', snd w) y); [apply list_lookup_insert; eapply lookup_lt_Some, Hw|exact Hy].
      + apply (J3 j x y); [rewrite list_lookup_insert_ne by exact Hne; exact Hx|exact Hy].
  Qed.
End Runs.

Theorem stopping css1 css2 sch1 sch2 s0 ps s ps' s' :
  (forall cs c, In cs (css1 ++ css2) -> In c cs -> keeps_state c = true /\ checks_flag c = true) ->
  all_check (dat s0) -> sched_run sch1 (sys_pool css1, s0) = Some (ps, s) -> flag_on (dat s) ->
  sched_run sch2 (ps ++ sys_pool css2, s) = Some (ps', s') ->
  n_texts (dat s') <= n_texts (dat s) + length css1 /\
  forall k cs rs j i data, css2 !! k = Some cs -> ps' !! (length css1 + k) = Some (Ret rs) ->
    cs !! j = Some (ToMirror i (CWrite data)) -> exists e, rs !! j = Some (Fail e).
Proof.
  intros Hc Ha E1 Hf E2.
  assert (Hcs : forall cs, In cs (css1 ++ css2) -> Forall (fun c => keeps_state c = true) cs /\ Forall (fun c => checks_flag c = true) cs).
  { intros cs Hin. split; apply List.Forall_forall; intros c Hi; apply (Hc cs c Hin Hi). }
  assert (Hpool : forall p, In p (sys_pool css1) -> allops kind p /\ mid p).
  { intros p Hp. unfold sys_pool in Hp. apply in_map_iff in Hp. destruct Hp as (cs & <- & Hin).
    destruct (Hcs cs (in_or_app _ _ _ (or_introl Hin))) as [K1 K2]. split; [apply (kind_thread cs K1 [])|apply (mid_thread cs K2 [])]. }
  destruct (run_before sch1 _ _ _ _ Hpool Ha E1) as (HL & Hp & Ha1).
  assert (HL1 : length (sys_pool css1) = length css1) by (unfold sys_pool; apply map_length). rewrite HL1 in HL.
  set (ws := map (fun _ => (1, fun _ : outcome (list (outcome sres)) => True)) css1 ++
             map (fun cs => (0, fun r : outcome (list (outcome sres)) => exists l, r = Good l /\ Forall2 s_post cs l)) css2).
  destruct (run_after sch2 (ps ++ sys_pool css2) s ps' s' ws) as (_ & J2 & J3); [|exact Ha1|exact Hf|exact E2|].
  - unfold ws. apply Forall2_app.
    + apply Forall2_same_length_lookup. split; [rewrite map_length; symmetry; exact HL|]. intros j w p Hw Hj.
      rewrite list_lookup_fmap in Hw. destruct (css1 !! j); [|discriminate]. injection Hw as <-.
      destruct (Hp p) as [K1 K2]; [apply elem_of_list_In, elem_of_list_lookup; eauto|]. split; [exact K1|]. split; [destruct p; apply K2|apply outc_true].
    + unfold sys_pool. apply Forall2_fmap_l, Forall2_fmap_r. apply Forall2_same_length_lookup. split; [reflexivity|]. intros j cs cs' H1 H2.
      rewrite H1 in H2. injection H2 as <-. assert (Hin : In cs css2) by (apply elem_of_list_In, elem_of_list_lookup; eauto).
      destruct (Hcs cs (in_or_app _ _ _ (or_intror Hin))) as [K1 K2]. split; [apply (kind_thread cs K1 [])|]. split; [apply (bud_thread cs K2 [])|].
      apply (oc_thread cs [] []). constructor.
  - split.
    + assert (Es : list_sum (map fst ws) = length css1).
      { unfold ws. rewrite map_app, list_sum_app, !map_map. cbn [fst]. clear. assert (H : forall (T : Type) (l : list T), list_sum (map (fun _ => 0) l) = 0) by (induction l; simpl in *; auto).
        rewrite H. induction css1 as [|x l IH]; simpl in *; lia. }
      lia.
    + intros k cs rs j i data H1 H2 H3.
      assert (Hw : ws !! (length css1 + k) = Some (0, fun r : outcome (list (outcome sres)) => exists l, r = Good l /\ Forall2 s_post cs l)).
      { unfold ws. rewrite lookup_app_r by (rewrite map_length; lia). rewrite map_length. replace (length css1 + k - length css1) with k by lia.
        rewrite list_lookup_fmap, H1. reflexivity. }
      destruct (Forall2_lookup_lr _ _ _ _ _ _ J3 Hw H2) as (l & El & HF).
      injection El as <-. destruct (Forall2_lookup_l _ _ _ _ _ HF H3) as (r & Hr & e & ->). eauto.
Qed.
