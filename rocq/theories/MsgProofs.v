(** * MsgProofs: proofs of C59 *)
From Coq Require Import List NArith Bool.
From Verif Require Import PyStr Prog Base Spec SpecFacts MsgSpec.
Import ListNotations.

Lemma lines_of_iff s ls : lines_of s ls <-> splitlines s = ls.
Proof.
  rewrite splitlines_seg. split.
  - intros (whole & r & Hs & H). apply segments_iff in Hs. rewrite Hs. cbn [fst snd].
    destruct H as [[-> ->]|[Hr ->]]; [apply app_nil_r|]. destruct r; [contradiction|reflexivity].
  - intros <-. exists (fst (seg s)), (snd (seg s)). split; [apply seg_segments|].
    destruct (snd (seg s)) as [|c r]; [left|right]; split; try reflexivity; [apply app_nil_r|discriminate].
Qed.
Lemma lf_joined_iff ls s : lf_joined ls s <-> join [LF] ls = s.
Proof.
  split.
  - induction 1 as [|l|l l' ls s H IH]; [reflexivity|reflexivity|].
    change (join [LF] (l :: l' :: ls)) with (l ++ [LF] ++ join [LF] (l' :: ls)). rewrite IH. reflexivity.
  - intros <-. induction ls as [|l ls IH]; [constructor|]. destruct ls as [|l' ls]; [constructor|].
    change (join [LF] (l :: l' :: ls)) with (l ++ [LF] ++ join [LF] (l' :: ls)). apply lj_more. exact IH.
Qed.
Lemma all_strs_map l : all_strs (map JStr l) = Some l.
Proof. induction l as [|s l IH]; [reflexivity|]. cbn. rewrite IH. reflexivity. Qed.
Lemma all_strs_none l : all_strs l = None <-> exists v, In v l /\ forall s, v <> JStr s.
Proof.
  induction l as [|v l IH]; [split; [discriminate|intros (v & [] & _)]|]. destruct v as [|b|z|s|a|f].
  all: try (split; [intros _; eexists; split; [left; reflexivity|discriminate]|reflexivity]).
  cbn. destruct (all_strs l) as [r|] eqn:E.
  - split; [discriminate|]. intros (v & [<-|Hi] & Hv); [exfalso; apply (Hv s); reflexivity|].
    assert (Some r = None) by (apply IH; eauto). discriminate.
  - split; [|reflexivity]. intros _. destruct (proj1 IH eq_refl) as (v & Hi & Hv). exists v. split; [right; exact Hi|exact Hv].
Qed.
Lemma str_of_lines data ls s : msg_lines data ls ->
  (gm_str (gm_init data) = Good s <-> lf_joined ls s) /\ gm_data (gm_init data) = map JStr ls.
Proof.
  intros H. assert (Hd : gm_data (gm_init data) = map JStr ls).
  { destruct H as [|x|v|e ls H]; try reflexivity. apply lines_of_iff in H. cbn. rewrite H. reflexivity. }
  split; [|exact Hd]. unfold gm_str. rewrite Hd, all_strs_map, lf_joined_iff. split; [intros E; injection E; auto|intros ->; reflexivity].
Qed.
Lemma str_ok data : exists ls s, msg_lines data ls /\ gm_data (gm_init data) = map JStr ls /\
  gm_str (gm_init data) = Good s /\ lf_joined ls s.
Proof.
  assert (H : exists ls, msg_lines data ls).
  { destruct data; eexists; try constructor. apply lines_of_iff. reflexivity. }
  destruct H as (ls & H). exists ls, (join [LF] ls). split; [exact H|].
  destruct (str_of_lines data ls (join [LF] ls) H) as [H1 H2]. split; [exact H2|].
  assert (Hj : lf_joined ls (join [LF] ls)) by (apply lf_joined_iff; reflexivity).
  split; [apply H1|]; exact Hj.
Qed.
Lemma kind_ok data k : msg_kind data k -> gm_type (gm_init data) = JStr k.
Proof. intros [|s|v|e H|e H]; try reflexivity; cbn; destruct (ex_cls e); try reflexivity; congruence. Qed.
Lemma str_type_error m : gm_str m = Fail TypeError <-> exists v, In v (gm_data m) /\ forall s, v <> JStr s.
Proof.
  rewrite <- all_strs_none. unfold gm_str. destruct (all_strs (gm_data m)); split; try discriminate; reflexivity.
Qed.
Lemma segments_lines s ls r : segments s ls r -> Forall no_break ls /\ no_break r.
Proof. induction 1 as [r H|l b s ls r Hl Hb Hs [IH1 IH2]]; [auto|]. split; [constructor; assumption|exact IH2]. Qed.
Lemma lines_no_break s ls : lines_of s ls -> Forall no_break ls.
Proof.
  intros (whole & r & Hs & H). destruct (segments_lines s whole r Hs) as [H1 H2].
  destruct H as [[_ ->]|[_ ->]]; [exact H1|]. apply Forall_app. split; [exact H1|repeat constructor; exact H2].
Qed.
(** Joining lines and splitting again. *)
Lemma split_join ls : Forall no_break ls -> ls <> [] ->
  segments (join [LF] ls) (removelast ls) (last ls []).
Proof.
  induction ls as [|l ls IH]; [congruence|]. intros Hf _. inversion Hf as [|? ? Hl Hls]; subst. destruct ls as [|l' ls].
  - constructor. exact Hl.
  - change (join [LF] (l :: l' :: ls)) with (l ++ [LF] ++ join [LF] (l' :: ls)).
    change (removelast (l :: l' :: ls)) with (l :: removelast (l' :: ls)).
    change (last (l :: l' :: ls) []) with (last (l' :: ls) []).
    apply seg_line; [exact Hl| |apply IH; [exact Hls|discriminate]].
    apply term_one; [left; reflexivity|]. intros [H _]. discriminate.
Qed.
Lemma split_again ls s : Forall no_break ls -> lf_joined ls s -> (lines_of s ls <-> ls = [] \/ last ls [] <> []).
Proof.
  intros Hf Hj. apply lf_joined_iff in Hj. subst s. destruct ls as [|l ls].
  - split; [auto|]. intros _. apply lines_of_iff. reflexivity.
  - assert (Hn : l :: ls <> []) by discriminate. pose proof (split_join _ Hf Hn) as Hs.
    pose proof (@app_removelast_last text (l :: ls) [] Hn) as Hr. split.
    + intros H. right. intros Hl. apply lines_of_iff in H. apply segments_iff in Hs.
      rewrite splitlines_seg, Hs in H. cbn [fst snd] in H. rewrite Hl in H, Hr. cbn [opt_line] in H. rewrite app_nil_r in H.
      rewrite H in Hr. apply (f_equal (@length text)) in Hr. rewrite app_length in Hr. cbn in Hr. rewrite PeanoNat.Nat.add_1_r in Hr.
      exact (PeanoNat.Nat.neq_succ_diag_r _ Hr).
    + intros [H|H]; [contradiction|]. exists (removelast (l :: ls)), (last (l :: ls) []). split; [exact Hs|].
      right. split; [exact H|exact Hr].
Qed.
Lemma exc_split_again e ls s : lines_of (ex_text e) ls -> gm_str (gm_init (GMExc e)) = Good s ->
  Forall no_break ls /\ (lines_of s ls <-> ls = [] \/ last ls [] <> []).
Proof.
  intros H Hs. pose proof (lines_no_break _ _ H) as Hf. split; [exact Hf|]. apply split_again; [exact Hf|].
  apply (str_of_lines (GMExc e) ls s); [constructor; exact H|exact Hs].
Qed.
