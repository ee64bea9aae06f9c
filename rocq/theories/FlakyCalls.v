(** * FlakyCalls: the methods of all classes only release their locks after an exception *)
From stdpp Require Import gmap.
From Coq Require Import List NArith ZArith Bool Arith Lia.
From Verif Require Import PyStr Prog ProgFacts PyIO Base LineBuf LineBufConc Locks Proc ProcSpec CountSpec FileBuf Flaky FlakySpec FlakyFacts.
Import ListNotations.
Local Open Scope prog_scope.
Local Open Scope nat_scope.

Ltac uwt := repeat first
  [ assumption
  | apply uw_ret | apply uw_raise | apply uw_one
  | match goal with
    | H : forall _, uw _ _ _ _ |- _ => apply H
    | H : forall _ _, uw _ _ _ _ |- _ => apply H
    end
  | apply uw_with; [solve [auto]|]
  | apply uw_bind; [|intros ?]
  | match goal with
    | |- uw _ _ _ (if ?b then _ else _) => destruct b
    | |- uw _ _ _ (match ?b with _ => _ end) => destruct b
    end ].

(** ** LineBuffer *)
Section Buffer.
  Variable Q : list nat -> nat -> lmode -> Prop.
  Variable b : list nat.
  Hypothesis HQ : Q b LL Ex.

  Lemma uw_lb_body (L : list nat) parse data : (forall l, uw Q L L (parse l)) -> uw Q L L (lb_write_body parse data).
  Proof.
    intros Hp. unfold lb_write_body, lb_write_body_gen. cbv zeta. destruct (_ && _); [uwt|].
    destruct (is_end_line_break data); (destruct (1 <? _); [uwt|destruct (_ =? 1); uwt]).
  Qed.
  Lemma uw_lb_parse L l : uw Q L L (lb_parse_lines l).
  Proof. apply uw_one. Qed.
  Lemma uw_lb_write data : uw Q b b (lb_write data).
  Proof.
    unfold lb_write, lb_write_with, lb_write_gen. apply uw_bind; [uwt|]. intros w. destruct (negb w); [constructor|].
    apply uw_with; [exact HQ|]. apply uw_lb_body. intros. apply uw_lb_parse.
  Qed.
  Lemma uw_lb_new_line : uw Q b b lb_new_line.
  Proof.
    unfold lb_new_line, lb_new_line_with, lb_new_line_gen. apply uw_with; [exact HQ|]. apply uw_bind; [uwt|]. intros n. destruct (0 <? n); [|constructor].
    apply uw_bind; [|intros; constructor]. apply (uw_lb_body (LL :: b)). intros. apply uw_lb_parse.
  Qed.
  Lemma uw_lb_loop L n : forall acc, uw Q L L (lb_read_loop n acc).
  Proof. induction n as [|n IH]; intros acc; cbn [lb_read_loop]; uwt. Qed.
  Lemma uw_lb_read size : uw Q b b (lb_read size).
  Proof.
    unfold lb_read, lb_readable. apply uw_bind; [uwt|]. intros w. destruct (negb w); [constructor|]. apply uw_with; [exact HQ|].
    destruct size as [z|]; [destruct (0 <? z)%Z; [|constructor]|].
    - unfold lb_read_n. pose proof (uw_lb_loop (LL :: b)) as Hl. uwt.
    - unfold lb_read_all. uwt.
  Qed.
  Lemma uw_lb_clear : uw Q b b lb_clear.
  Proof. unfold lb_clear. uwt. Qed.
  Lemma uw_lb_call c : uw Q b b (lb_call c).
  Proof.
    pose proof uw_lb_clear as Hc. destruct c; cbn [lb_call]; (apply uw_bind; [|intros; constructor]).
    - apply uw_lb_write.
    - apply uw_lb_read.
    - apply uw_lb_new_line.
    - exact Hc.
    - unfold lb_close. uwt.
    - unfold lb_flush. uwt.
    - unfold lb_len, lb_maxlen. uwt.
    - unfold lb_closed. uwt.
    - unfold lb_readable. uwt.
    - unfold lb_writable. uwt.
    - unfold lb_maxlen. uwt.
    - unfold lb_fileno. uwt.
    - unfold lb_seek. uwt.
    - unfold lb_isatty. uwt.
    - unfold lb_seekable. uwt.
  Qed.
End Buffer.

(** ** LineFileBuffer *)
Section File.
  Variable Q : list nat -> nat -> lmode -> Prop.
  Variable b : fbuf.
  Hypothesis Qt : forall m, Q [] (b_tl b) m.
  Hypothesis Qf : forall m, Q [] (b_fl b) m.
  Hypothesis Qtf : forall m, Q [b_tl b] (b_fl b) m.

  Lemma uw_put h n s : uw Q h h (put_chars n s).
  Proof. induction s as [|x s IH]; cbn [put_chars]; uwt. Qed.
  Lemma uw_file_write h n s : uw Q h h (file_write n s).
  Proof. pose proof (uw_put h n s). unfold file_write. uwt. Qed.
  Lemma uw_count h n : uw Q h h (fb_count b n).
  Proof. unfold fb_count. uwt. Qed.
  Lemma uw_move h k n : uw Q h h (fb_move b k n).
  Proof. induction k as [|k IH]; cbn [fb_move]; uwt. Qed.
  Lemma uw_store h ls : uw Q h h (fb_store b ls).
  Proof. induction ls as [|l ls IH]; cbn [fb_store]; [uwt|]. pose proof (uw_file_write h (rec_name b (length ls)) l). uwt. Qed.
  Lemma uw_update ls : uw Q [] [] (fb_update_records b ls).
  Proof.
    unfold fb_update_records. apply uw_with; [apply Qf|]. destruct ls as [|l ls]; [constructor|]. cbv zeta.
    apply uw_bind; [apply uw_count|]. intros k. apply uw_bind; [apply uw_move|]. intros _. apply uw_store.
  Qed.
  Lemma uw_get_last : uw Q [] [] (fb_get_last_line b).
  Proof. unfold fb_get_last_line. uwt. Qed.
  Lemma uw_clean : uw Q [] [] (fb_clean_last_line b).
  Proof. unfold fb_clean_last_line. uwt. Qed.
  Lemma uw_write_last l : uw Q [] [] (fb_write_last_line b l).
  Proof. unfold fb_write_last_line. apply uw_with; [apply Qt|]. pose proof (uw_file_write [b_tl b] (tmp_name b) l). uwt. Qed.
  Lemma uw_fb_body data : uw Q [] [] (fb_write_body b data).
  Proof.
    pose proof uw_get_last. pose proof uw_clean. pose proof uw_write_last. pose proof uw_update.
    unfold fb_write_body, fb_parse_lines. cbv zeta. destruct (_ && _); [uwt|]. destruct (is_end_line_break data).
    - destruct (splitlines data ++ [[]]) as [|x [|y r]]; uwt.
    - destruct (splitlines data) as [|x [|y r]]; uwt.
  Qed.
  Lemma uw_fb_new_line : uw Q [] [] (fb_new_line b).
  Proof. pose proof uw_get_last. pose proof uw_fb_body. unfold fb_new_line, fb_closed. uwt. Qed.
  Lemma uw_fb_send e : uw Q [] [] (fb_send_exc b e).
  Proof. pose proof uw_update. unfold fb_send_exc, fb_closed. uwt. Qed.
  Lemma uw_read_files h n : uw Q h h (fb_read_files b n).
  Proof. induction n as [|n IH]; cbn [fb_read_files]; uwt. Qed.
  Lemma uw_remove_all h ns : uw Q h h (fb_remove_all ns).
  Proof. induction ns as [|n ns IH]; cbn [fb_remove_all]; uwt. Qed.
  Lemma uw_fb_call c : uw Q [] [] (fb_call b c).
  Proof.
    pose proof uw_get_last. pose proof uw_fb_body. pose proof uw_fb_new_line. pose proof uw_fb_send.
    pose proof (uw_count [b_fl b]). pose proof (uw_read_files [b_fl b]). pose proof (uw_remove_all [b_fl b]).
    destruct c; cbn [fb_call]; (apply uw_bind; [|intros; constructor]);
      unfold fb_write, fb_writable, fb_read, fb_readable, fb_clear, fb_close, fb_len, fb_closed, fb_maxlen, fb_flush, fb_fileno, fb_isatty, fb_seek, fb_seekable; uwt.
  Qed.
End File.
Lemma uw_fb_any b c : uw anyq [] [] (fb_call b c).
Proof. apply uw_fb_call; intros; exact I. Qed.

(** ** LineProcMirror, LineProcBuffer *)
Lemma uw_lift {C C'} (f : forall X, C X -> C' X) {A} Q b hs (p : prog C A) : uw Q b hs p -> uw Q b hs (lift f p).
Proof.
  assert (Hunw : forall B e b hs (q : prog C B), unwound e b hs q -> unwound e b hs (lift f q)).
  { intros B e b0 hs0 q. induction 1; cbn [lift lift_cmd]; constructor; auto. }
  induction 1; cbn [lift lift_cmd]; constructor; auto.
Qed.
Section Mirror.
  (** Balanced, whatever is held before; the locks are not taken for reading. *)
  Definition exq (hs : list nat) (l : nat) (m : lmode) : Prop := m = Ex.
  Definition free {C A} (p : prog C A) : Prop := forall h, uw exq h h p.
  Lemma fr_any {C A} (p : prog C A) h : free p -> uw anyq h h p.
  Proof. intros H. exact (uw_any _ _ _ _ (H h)). Qed.
  Lemma fr_ret {C A} (a : A) : free (Ret a : prog C A). Proof. intros h. constructor. Qed.
  Lemma fr_raise {C A} e : free (Raise e : prog C A). Proof. intros h. constructor. Qed.
  Lemma fr_op {C X} (c : C X) : free (op c). Proof. intros h. apply uw_one. Qed.
  Lemma fr_bind {C A B} (p : prog C A) (f : A -> prog C B) : free p -> (forall a, free (f a)) -> free (bind p f).
  Proof. intros H Hf h. apply uw_bind; [apply H|]. intros a. apply Hf. Qed.
  Lemma fr_with {C A} l (p : prog C A) : free p -> free (with_lock l Ex p).
  Proof. intros H h. apply uw_with; [reflexivity|apply H]. Qed.
  Lemma fr_lift {C C'} (f : forall X, C X -> C' X) {A} (p : prog C A) : free p -> free (lift f p).
  Proof. intros H h. apply uw_lift, H. Qed.
End Mirror.
Ltac frt := repeat first
  [ assumption
  | apply fr_ret | apply fr_raise | apply fr_op
  | match goal with
    | H : forall _, free _ |- _ => apply H
    | H : forall _ _, free _ |- _ => apply H
    end
  | apply fr_with
  | apply fr_bind; [|intros ?]
  | match goal with
    | |- free (if ?b then _ else _) => destruct b
    | |- free (match ?b with _ => _ end) => destruct b
    end ].
Lemma fr_lm_call c : free (lm_call c).
Proof.
  assert (Hl : free lm_lock) by (unfold lm_lock; frt).
  assert (Hm : forall A (p : prog mcmd A), free p -> free (with_m p)) by (intros A p H; unfold with_m; frt).
  assert (Hput : forall m, free (lm_put m)) by (intros m; unfold lm_put; frt).
  assert (Hc : free (with_m (mop MClosed))) by (apply Hm; frt).
  assert (Hd : forall data, free (lm_send_data data)) by (intros data; unfold lm_send_data; frt).
  assert (Hb : forall data, free (lm_write_body data)) by (intros data; unfold lm_write_body; cbv zeta; frt).
  assert (Hw : free lm_writable) by (apply Hm; frt).
  assert (Hr : free lm_readable) by (apply Hm; frt).
  assert (Hn : free lm_new_line) by (apply Hm; frt).
  assert (Hs : forall m, free (lm_send_signal m)) by (intros m; unfold lm_send_signal; frt).
  assert (Hcl : free lm_clear) by (apply Hm; frt).
  destruct c; cbn [lm_call]; (apply fr_bind; [|intros; apply fr_ret]); auto; try solve [unfold lm_send_eof, lm_send_error, lm_send_warning, lm_fileno, lm_seek, lm_isatty, lm_seekable; frt].
Qed.
Lemma fr_lb_call c : free (lb_call c).
Proof. intros h. apply uw_lb_call. reflexivity. Qed.
Lemma fr_lb_write data : free (lb_write data).
Proof. intros h. apply uw_lb_write. reflexivity. Qed.
Lemma fr_lp_call c : free (lp_call c).
Proof.
  assert (Hcc : free lp_check_close) by (unfold lp_check_close; frt).
  assert (Hrc : free lp_receive).
  { unfold lp_receive. apply fr_with. apply fr_bind; [frt|]. intros m. destruct m; try (apply fr_bind; [apply fr_lift, fr_lb_write|intros; frt]); frt. }
  assert (Hp : forall X (f : X -> res) p, free p -> free (pret f p)) by (intros X f p H; apply fr_bind; [exact H|intros; apply fr_ret]).
  destruct c as [c| | | | | |fuel]; cbn [lp_call].
  - destruct c; try (apply fr_lift, fr_lb_call); apply Hp; unfold lp_write, lp_len, lp_maxlen; frt.
  - apply Hp. unfold lp_mirror. frt.
  - apply Hp. unfold lp_stop_all. frt.
  - apply Hp. unfold lp_reset. frt.
  - apply Hp. unfold lp_force_stop. frt.
  - apply Hp, Hrc.
  - apply Hp. induction fuel as [|fuel IH]; cbn [lp_wait]; frt.
Qed.
Lemma fr_s_call c : free (s_call c).
Proof.
  destruct c as [c|i c]; cbn [s_call].
  - apply fr_lift, fr_bind; [apply fr_lp_call|intros; apply fr_ret].
  - apply fr_lift, fr_bind; [apply fr_lm_call|intros; apply fr_ret].
Qed.
