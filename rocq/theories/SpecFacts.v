(** * SpecFacts: line segmentation is a total function; relation with splitlines *)
From Coq Require Import List NArith ZArith Bool Arith Lia.
From Verif Require Import PyStr Base Spec.
Import ListNotations.

Lemma text_eqb_eq a b : text_eqb a b = true <-> a = b.
Proof. unfold text_eqb. destruct (text_eq_dec a b); split; congruence. Qed.
Lemma text_eqb_refl a : text_eqb a a = true.
Proof. apply text_eqb_eq. reflexivity. Qed.
Lemma text_eqb_neq a b : text_eqb a b = false <-> a <> b.
Proof. unfold text_eqb. destruct (text_eq_dec a b); split; congruence. Qed.

Lemma is_break_char_eq c : is_break_char c = is_break c.
Proof. reflexivity. Qed.

Lemma is_break_spec c : is_break c = true <-> line_break c.
Proof.
  unfold is_break, line_break. rewrite existsb_exists. split.
  - intros (x & Hin & He). apply N.eqb_eq in He. subst x. simpl in Hin.
    repeat (destruct Hin as [Hin|Hin]; [subst; tauto|]). contradiction.
  - intros H. exists c. rewrite N.eqb_refl. split; [|reflexivity]. simpl.
    repeat (destruct H as [H|H]; [subst; tauto|]). subst; tauto.
Qed.
Lemma is_break_false c : is_break c = false <-> ~ line_break c.
Proof. rewrite <- is_break_spec. destruct (is_break c); split; congruence. Qed.

(** The segmentation as a function. *)
Fixpoint seg (s : text) : list text * text :=
  match s with
  | [] => ([], [])
  | c :: s' =>
      if is_break c then
        let nxt := if (c =? CR)%N then
                     match s' with
                     | d :: s'' => if (d =? LF)%N then seg s'' else seg s'
                     | [] => seg s'
                     end
                   else seg s' in
        ([] :: fst nxt, snd nxt)
      else match seg s' with
           | ([], r) => ([], c :: r)
           | (l :: ls, r) => ((c :: l) :: ls, r)
           end
  end.

(** Induction on the length of a text. *)
Lemma text_ind2 {A} (P : list A -> Prop) :
  (forall s, (forall s', length s' < length s -> P s') -> P s) -> forall s, P s.
Proof.
  intros H s. remember (length s) as n eqn:E. revert s E.
  induction n as [n IH] using lt_wf_ind. intros s ->. apply H. intros s' Hl.
  eapply IH; eauto.
Qed.

Lemma seg_nobreak l s : no_break l ->
  seg (l ++ s) = match seg s with
                 | ([], r) => ([], l ++ r)
                 | (l' :: ls, r) => ((l ++ l') :: ls, r)
                 end.
Proof.
  intros H. induction H as [|c l Hc Hl IH]; simpl.
  - destruct (seg s) as [[|]]; reflexivity.
  - apply is_break_false in Hc. rewrite Hc, IH.
    destruct (seg s) as [[|]]; reflexivity.
Qed.

Lemma seg_terminator b s : terminator b s -> seg (b ++ s) = ([] :: fst (seg s), snd (seg s)).
Proof.
  intros [rest|c rest Hb Hn]; simpl; [reflexivity|].
  apply is_break_spec in Hb. rewrite Hb.
  destruct (c =? CR)%N eqn:E; [|reflexivity].
  apply N.eqb_eq in E. destruct rest as [|d r]; [reflexivity|].
  destruct (d =? LF)%N eqn:E2; [|reflexivity].
  apply N.eqb_eq in E2. exfalso. apply Hn. split; [exact E|]. exists r. subst; reflexivity.
Qed.

Lemma segments_seg s ls r : segments s ls r -> seg s = (ls, r).
Proof.
  intros H. induction H as [r Hr|l b s ls r Hl Hb Hs IH].
  - rewrite <- (app_nil_r r) at 1. rewrite seg_nobreak by assumption. simpl.
    rewrite app_nil_r. reflexivity.
  - rewrite seg_nobreak by assumption. rewrite seg_terminator by assumption.
    rewrite IH. simpl. rewrite app_nil_r. reflexivity.
Qed.

Lemma seg_segments s : segments s (fst (seg s)) (snd (seg s)).
Proof.
  induction s as [s IH] using text_ind2. destruct s as [|c s'].
  - simpl. constructor. constructor.
  - simpl. destruct (is_break c) eqn:Eb.
    + assert (Hgen : forall b s1, terminator b s1 -> c :: s' = b ++ s1 ->
                length s1 < length (c :: s') ->
                segments (c :: s') ([] :: fst (seg s1)) (snd (seg s1))).
      { intros b s1 Ht He Hlen. rewrite He. change (b ++ s1) with ([] ++ b ++ s1).
        constructor; [constructor|exact Ht|]. apply IH. exact Hlen. }
      apply is_break_spec in Eb.
      destruct (c =? CR)%N eqn:Ec.
      * apply N.eqb_eq in Ec. destruct s' as [|d s''].
        -- apply (Hgen [c] []); [|reflexivity|simpl; lia]. constructor; [assumption|].
           intros (_ & r & Hr). discriminate.
        -- destruct (d =? LF)%N eqn:Ed.
           ++ apply N.eqb_eq in Ed. subst. apply (Hgen [13%N; 10%N] s''); [constructor|reflexivity|simpl; lia].
           ++ apply N.eqb_neq in Ed. apply (Hgen [c] (d :: s'')); [|reflexivity|simpl; lia].
              constructor; [assumption|]. intros (_ & r & Hr). injection Hr as Hd _.
              apply Ed. exact Hd.
      * apply N.eqb_neq in Ec. apply (Hgen [c] s'); [|reflexivity|simpl; lia].
        constructor; [assumption|]. intros (Hc & _). apply Ec. exact Hc.
    + apply is_break_false in Eb. specialize (IH s'). simpl in IH.
      assert (Hs := IH ltac:(lia)).
      destruct (seg s') as [[|l ls] r] eqn:E; simpl in *.
      * inversion Hs; subst. constructor. constructor; assumption.
      * inversion Hs; subst. rewrite app_comm_cons. constructor; try assumption.
        constructor; assumption.
Qed.

Lemma segments_iff s ls r : segments s ls r <-> seg s = (ls, r).
Proof.
  split; [apply segments_seg|]. intros H. pose proof (seg_segments s) as Hs.
  rewrite H in Hs. exact Hs.
Qed.

(** Lines and remainder never contain breaks. *)
Lemma seg_no_break s : Forall no_break (fst (seg s)) /\ no_break (snd (seg s)).
Proof.
  pose proof (seg_segments s) as H. revert H. generalize (fst (seg s)) (snd (seg s)).
  intros ls r H. induction H as [r Hr|l b s0 ls r Hl Hb Hs [IH1 IH2]].
  - split; [constructor|assumption].
  - split; [constructor; assumption|assumption].
Qed.

(** [splitlines] in terms of the segmentation. *)
Definition opt_line (r : text) : list text := match r with [] => [] | _ => [r] end.

Lemma splitlines_from_seg s : forall cur,
  splitlines_from cur s =
  match seg s with
  | ([], r) => opt_line (rev cur ++ r)
  | (l :: ls, r) => (rev cur ++ l) :: ls ++ opt_line r
  end.
Proof.
  induction s as [s IH] using text_ind2. intros cur. destruct s as [|c s']; simpl.
  - destruct cur as [|x cur]; simpl; [reflexivity|]. rewrite app_nil_r.
    unfold opt_line. destruct (rev cur ++ [x]) eqn:E; [|reflexivity].
    destruct (rev cur); discriminate.
  - destruct (is_break c) eqn:Eb.
    + assert (H0 : forall s1, length s1 < length (c :: s') ->
        splitlines_from [] s1 = fst (seg s1) ++ opt_line (snd (seg s1))).
      { intros s1 Hl. rewrite IH by assumption. destruct (seg s1) as [[|l ls] r]; reflexivity. }
      rewrite app_nil_r.
      destruct (c =? CR)%N.
      * destruct s' as [|d s'']; [simpl; reflexivity|].
        destruct (d =? LF)%N; (rewrite H0 by (simpl; lia)); reflexivity.
      * rewrite H0 by (simpl; lia). reflexivity.
    + rewrite IH by (simpl; lia). simpl rev.
      destruct (seg s') as [[|l ls] r]; rewrite <- app_assoc; reflexivity.
Qed.

Lemma splitlines_seg s : splitlines s = fst (seg s) ++ opt_line (snd (seg s)).
Proof.
  unfold splitlines. rewrite splitlines_from_seg. destruct (seg s) as [[|l ls] r]; reflexivity.
Qed.

(** Last character. *)
Lemma last_default {A} (l : list A) a b : l <> [] -> last l a = last l b.
Proof.
  induction l as [|x l IH]; intros Hn; [congruence|]. destruct l; [reflexivity|].
  simpl. apply IH. congruence.
Qed.

Lemma splitlines_one c : splitlines [c] = [[]] <-> is_break c = true.
Proof.
  unfold splitlines. simpl. destruct (is_break c); [|split; [intros H|]; discriminate].
  destruct (c =? CR)%N; split; reflexivity.
Qed.

Lemma is_end_line_break_app s c : is_end_line_break (s ++ [c]) = is_break c.
Proof.
  unfold is_end_line_break. destruct (s ++ [c]) as [|c0 s0] eqn:E; [destruct s; discriminate|].
  rewrite <- E, last_last. destruct (is_break c) eqn:Eb.
  - apply splitlines_one in Eb. rewrite Eb. reflexivity.
  - unfold splitlines. simpl. rewrite Eb. reflexivity.
Qed.

Lemma seg_end_break s :
  is_end_line_break s = true <-> s <> [] /\ snd (seg s) = [].
Proof.
  split.
  - destruct s as [|c s] using rev_ind; [discriminate|]. clear IHs.
    rewrite is_end_line_break_app. intros Hb. split; [destruct s; discriminate|].
    revert s. induction s as [s IH] using text_ind2. destruct s as [|d s].
    + simpl. rewrite Hb. destruct (c =? CR)%N; reflexivity.
    + simpl. destruct (is_break d).
      * simpl. destruct (d =? CR)%N.
        -- destruct s as [|e s].
           ++ simpl. destruct (c =? LF)%N; [reflexivity|]. apply (IH []). simpl; lia.
           ++ simpl. destruct (e =? LF)%N; [apply IH; simpl; lia|].
              apply (IH (e :: s)). simpl; lia.
        -- apply IH. simpl; lia.
      * specialize (IH s ltac:(simpl; lia)). destruct (seg (s ++ [c])) as [[|l ls] r] eqn:E.
        -- exfalso. simpl in IH. subst r.
           (* no line and empty rest: the text is empty *)
           pose proof (seg_segments (s ++ [c])) as H. rewrite E in H. simpl in H.
           inversion H. destruct s; discriminate.
        -- exact IH.
  - intros [Hne Hr]. destruct s as [|c s] using rev_ind; [congruence|]. clear IHs.
    rewrite is_end_line_break_app. destruct (is_break c) eqn:Eb; [reflexivity|]. exfalso.
    clear Hne. revert s Hr. induction s as [s IH] using text_ind2. intros Hr.
    destruct s as [|d s].
    + simpl in Hr. rewrite Eb in Hr. discriminate.
    + simpl in Hr. destruct (is_break d).
      * simpl in Hr. destruct (d =? CR)%N.
        -- destruct s as [|e s]; simpl in Hr.
           ++ destruct (c =? LF)%N eqn:El.
              ** apply N.eqb_eq in El. subst c. discriminate.
              ** simpl in Hr. rewrite Eb in Hr. discriminate.
           ++ destruct (e =? LF)%N; [apply (IH s) in Hr; simpl; auto; lia|].
              apply (IH (e :: s)) in Hr; simpl; auto; lia.
        -- apply (IH s) in Hr; simpl; auto; lia.
      * destruct (seg (s ++ [c])) as [[|l ls] r] eqn:E; [discriminate|].
        apply (IH s); [simpl; lia|]. rewrite E. exact Hr.
Qed.

Lemma seg_nil_nil s : seg s = ([], []) -> s = [].
Proof.
  intros E. pose proof (seg_segments s) as H. rewrite E in H. inversion H; reflexivity.
Qed.

(** Segmentation of a concatenation. *)
Definition ends_cr (a : text) : Prop := exists a', a = a' ++ [13%N].
Definition starts_lf (b : text) : Prop := exists b', b = 10%N :: b'.

Lemma seg_app a b : ~ (ends_cr a /\ starts_lf b) ->
  seg (a ++ b) =
  match seg b with
  | ([], r') => (fst (seg a), snd (seg a) ++ r')
  | (l :: ls, r') => (fst (seg a) ++ (snd (seg a) ++ l) :: ls, r')
  end.
Proof.
  revert b. induction a as [a IH] using text_ind2. intros b Hn. destruct a as [|c a].
  - simpl. destruct (seg b) as [[|]]; reflexivity.
  - assert (Hn' : forall x a', a = x ++ a' -> ~ (ends_cr a' /\ starts_lf b)).
    { intros x a' -> [[u ->] Hb]. apply Hn. split; [|exact Hb]. exists (c :: x ++ u).
      simpl. rewrite <- app_assoc. reflexivity. }
    simpl. destruct (is_break c).
    + destruct (c =? CR)%N eqn:Ec.
      * apply N.eqb_eq in Ec. subst c. destruct a as [|d a].
        -- simpl. destruct b as [|e b]; [reflexivity|].
           destruct (e =? LF)%N eqn:Ee.
           ++ apply N.eqb_eq in Ee. subst e. exfalso. apply Hn.
              split; [exists []; reflexivity|exists b; reflexivity].
           ++ destruct (seg (e :: b)) as [[|]]; reflexivity.
        -- simpl. destruct (d =? LF)%N.
           ++ rewrite (IH a) by (try (simpl; lia); apply (Hn' [d]); reflexivity).
              destruct (seg b) as [[|]]; reflexivity.
           ++ change (d :: a ++ b) with ((d :: a) ++ b).
              pose proof (IH (d :: a) ltac:(simpl; lia) b (Hn' [] _ eq_refl)) as E.
              simpl in E. rewrite E. destruct (seg b) as [[|]]; reflexivity.
      * rewrite (IH a) by (try (simpl; lia); apply (Hn' []); reflexivity).
        destruct (seg b) as [[|]]; reflexivity.
    + rewrite (IH a) by (try (simpl; lia); apply (Hn' []); reflexivity).
      destruct (seg b) as [[|l ls] r']; destruct (seg a) as [[|l1 ls1] r1]; reflexivity.
Qed.

(** Conservation of characters. *)
Lemma drop_breaks_app a b : drop_breaks (a ++ b) = drop_breaks a ++ drop_breaks b.
Proof. apply filter_app. Qed.
Lemma drop_breaks_nobreak s : no_break s -> drop_breaks s = s.
Proof.
  induction 1 as [|c s Hc Hs IH]; [reflexivity|]. unfold drop_breaks in *. simpl.
  rewrite is_break_char_eq. apply is_break_false in Hc. rewrite Hc. simpl. f_equal. exact IH.
Qed.
Lemma drop_breaks_terminator b s : terminator b s -> drop_breaks b = [].
Proof.
  intros [|c r H]; [reflexivity|]. unfold drop_breaks; simpl. rewrite is_break_char_eq.
  apply is_break_spec in H. rewrite H. reflexivity.
Qed.
Lemma seg_conserve s : drop_breaks s = concat (fst (seg s)) ++ snd (seg s).
Proof.
  pose proof (seg_segments s) as H. revert H. generalize (fst (seg s)) (snd (seg s)).
  intros ls r H. induction H as [r Hr|l b s0 ls r Hl Hb Hs IH].
  - apply drop_breaks_nobreak. exact Hr.
  - rewrite !drop_breaks_app, (drop_breaks_nobreak l) by assumption.
    rewrite (drop_breaks_terminator b s0) by assumption. simpl.
    rewrite IH, app_assoc. reflexivity.
Qed.

(** Last items. *)
Lemma last_items_length {A} n (l : list A) : length (last_items n l) = Nat.min n (length l).
Proof. unfold last_items. rewrite skipn_length. lia. Qed.
Lemma last_items_all {A} n (l : list A) : length l <= n -> last_items n l = l.
Proof. intros H. unfold last_items. replace (length l - n) with 0 by lia. reflexivity. Qed.
Lemma last_items_app_ge {A} n (l1 l2 : list A) : length l2 <= n ->
  last_items n (l1 ++ l2) = last_items (n - length l2) l1 ++ l2.
Proof.
  intros H. unfold last_items. rewrite app_length, skipn_app.
  replace (length l1 + length l2 - n) with (length l1 - (n - length l2)) by lia.
  replace (length l1 - (n - length l2) - length l1) with 0 by lia. reflexivity.
Qed.
Lemma last_items_app_lt {A} n (l1 l2 : list A) : n <= length l2 ->
  last_items n (l1 ++ l2) = last_items n l2.
Proof.
  intros H. unfold last_items. rewrite app_length, skipn_app.
  rewrite skipn_all2 by lia.
  replace (length l1 + length l2 - n - length l1) with (length l2 - n) by lia. reflexivity.
Qed.
Lemma skipn_skipn' {A} i j (l : list A) : skipn i (skipn j l) = skipn (j + i) l.
Proof.
  revert l. induction j as [|j IH]; intros l; [reflexivity|].
  destruct l as [|x l]; simpl; [destruct i; reflexivity|apply IH].
Qed.
Lemma last_items_idem {A} n m (l : list A) : n <= m ->
  last_items n (last_items m l) = last_items n l.
Proof.
  intros H. unfold last_items. rewrite skipn_length, skipn_skipn'. f_equal. lia.
Qed.
Lemma last_items_app_idem {A} m (l1 l2 : list A) :
  last_items m (last_items m l1 ++ l2) = last_items m (l1 ++ l2).
Proof.
  destruct (le_lt_dec m (length l2)) as [H|H].
  - rewrite !last_items_app_lt by assumption. reflexivity.
  - rewrite !last_items_app_ge by lia. f_equal. apply last_items_idem. lia.
Qed.
Lemma last_items_suffix {A} n (l : list A) : exists l0, l = l0 ++ last_items n l.
Proof. exists (firstn (length l - n) l). symmetry. apply firstn_skipn. Qed.
Lemma last_items_0 {A} (l : list A) : last_items 0 l = [].
Proof. unfold last_items. apply skipn_all2. lia. Qed.
