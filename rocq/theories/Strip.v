(** * Strip: facts about str.strip() *)
From Coq Require Import List NArith Bool Arith Lia.
From Verif Require Import PyStr Base Spec.
Import ListNotations.
Local Open Scope nat_scope.

Lemma is_space_iff c : is_space c = true <-> space c.
Proof.
  unfold is_space, space. rewrite existsb_exists. split.
  - intros (x & Hin & E). apply N.eqb_eq in E. subst x. cbn in Hin.
    repeat (destruct Hin as [<-|Hin]; [lia|]). destruct Hin.
  - intros H. exists c. split; [|apply N.eqb_refl]. cbn.
    assert (E : (c = 9 \/ c = 10 \/ c = 11 \/ c = 12 \/ c = 13 \/ c = 28 \/ c = 29 \/ c = 30 \/ c = 31 \/ c = 32 \/ c = 133 \/ c = 160 \/ c = 5760 \/
      c = 8192 \/ c = 8193 \/ c = 8194 \/ c = 8195 \/ c = 8196 \/ c = 8197 \/ c = 8198 \/ c = 8199 \/ c = 8200 \/ c = 8201 \/
      c = 8202 \/ c = 8232 \/ c = 8233 \/ c = 8239 \/ c = 8287 \/ c = 12288)%N) by lia.
    repeat (destruct E as [->|E]; [tauto|]). subst. tauto.
Qed.
Lemma not_space_iff c : is_space c = false <-> ~ space c.
Proof. rewrite <- is_space_iff. destruct (is_space c); split; congruence. Qed.
Lemma spaces l : Forall (fun c => is_space c = true) l <-> Forall space l.
Proof. split; apply List.Forall_impl; intros c; apply is_space_iff. Qed.

Lemma lstrip_split f s : exists a, s = a ++ lstrip_by f s /\ Forall (fun c => f c = true) a /\
  match lstrip_by f s with [] => True | c :: _ => f c = false end.
Proof.
  induction s as [|c s IH]; [exists []; repeat split; constructor|]. cbn [lstrip_by].
  destruct (f c) eqn:Hc; [|exists []; split; [reflexivity|split; [constructor|exact Hc]]].
  destruct IH as (a & H1 & H2 & H3). exists (c :: a). split; [simpl; congruence|]. split; [constructor; assumption|exact H3].
Qed.
Lemma lstrip_app f a s : Forall (fun c => f c = true) a -> match s with [] => True | c :: _ => f c = false end ->
  lstrip_by f (a ++ s) = s.
Proof.
  intros Ha Hs. induction Ha as [|c a Hc Ha IH]; simpl; [|rewrite Hc; exact IH].
  destruct s as [|c s]; [reflexivity|]. cbn [lstrip_by]. rewrite Hs. reflexivity.
Qed.
Lemma rstrip_app f a s : Forall (fun c => f c = true) a ->
  match rev s with [] => True | c :: _ => f c = false end -> rstrip_by f (s ++ a) = s.
Proof.
  intros Ha Hs. unfold rstrip_by. rewrite rev_app_distr, lstrip_app, rev_involutive; [reflexivity| |exact Hs].
  apply List.Forall_rev, Ha.
Qed.
Lemma rstrip_split f s : exists a, s = rstrip_by f s ++ a /\ Forall (fun c => f c = true) a.
Proof.
  destruct (lstrip_split f (rev s)) as (a & H1 & H2 & _). exists (rev a). unfold rstrip_by. split; [|apply List.Forall_rev, H2].
  rewrite <- rev_app_distr, <- H1, rev_involutive. reflexivity.
Qed.
Lemma rstrip_end f s : match rev (rstrip_by f s) with [] => True | c :: _ => f c = false end.
Proof. unfold rstrip_by. rewrite rev_involutive. destruct (lstrip_split f (rev s)) as (a & _ & _ & H). exact H. Qed.

Lemma strip_iff s w : strip s = w <-> trims_to s w.
Proof.
  unfold strip. split.
  - intros <-. destruct (lstrip_split is_space s) as (l & E1 & Hl & H1).
    destruct (rstrip_split is_space (lstrip_by is_space s)) as (r & E2 & Hr).
    exists l, r. split; [rewrite <- E2; exact E1|]. split; [apply spaces, Hl|]. split; [apply spaces, Hr|]. split.
    + intros c w' E. rewrite E in E2. rewrite E2 in H1. apply not_space_iff, H1.
    + intros c w' E. pose proof (rstrip_end is_space (lstrip_by is_space s)) as H. rewrite E, rev_app_distr in H. apply not_space_iff, H.
  - intros (l & r & -> & Hl & Hr & H1 & H2). apply spaces in Hl, Hr. destruct w as [|c w].
    + simpl. rewrite <- (app_nil_r (l ++ r)), lstrip_app; [reflexivity|apply Forall_app; auto|exact I].
    + rewrite lstrip_app; [|exact Hl|apply not_space_iff, (H1 c w); reflexivity].
      apply rstrip_app; [exact Hr|]. destruct (exists_last (l := c :: w) ltac:(discriminate)) as (w' & d & E). rewrite E, rev_app_distr.
      apply not_space_iff, (H2 d w' E).
Qed.
