(** * HostInt: the texts that int() reads *)
From Coq Require Import List NArith ZArith Bool Arith Lia.
From Verif Require Import PyStr Strip Prog PyIO Base Spec LineBuf Host HostSpec.
Import ListNotations.
Local Open Scope nat_scope.

Lemma int_space_iff c : int_space c = true <-> blank c.
Proof.
  unfold int_space, blank. rewrite andb_true_iff, negb_true_iff, andb_false_iff, is_space_iff, !N.leb_gt.
  split; intros [H1 H2]; (split; [exact H1|lia]).
Qed.
Lemma blanks l : Forall (fun c => int_space c = true) l <-> Forall blank l.
Proof. split; apply List.Forall_impl; intros c; apply int_space_iff. Qed.

Definition is_digit (c : N) : bool := ((48 <=? c) && (c <=? 57))%N.
Lemma is_digit_iff c : is_digit c = true <-> (48 <= c <= 57)%N.
Proof. unfold is_digit. rewrite andb_true_iff, !N.leb_le. reflexivity. Qed.
Lemma digits_step acc b c s : digits_val acc b (c :: s) =
  if is_digit c then digits_val (acc * 10 + (Z.of_N c - 48)) true s
  else if N.eqb c 95 && b then digits_val acc false s else None.
Proof. reflexivity. Qed.
Lemma numeral_digits s z : numeral s z -> forall rest, digits_val 0 false (s ++ rest) = digits_val z true rest.
Proof.
  induction 1 as [c k [Hc ->]|s z c k _ IH [Hc ->]|s z c k _ IH [Hc ->]]; intros rest; apply is_digit_iff in Hc.
  - cbn [app]. rewrite digits_step, Hc. f_equal.
  - rewrite <- app_assoc, IH. cbn [app]. rewrite digits_step, Hc. f_equal. lia.
  - rewrite <- app_assoc, IH. cbn [app]. rewrite digits_step. cbn [is_digit N.leb N.compare andb N.eqb Pos.eqb Pos.compare Pos.compare_cont].
    rewrite digits_step, Hc. f_equal. lia.
Qed.
Lemma digits_numeral s : forall acc z p,
  (numeral p acc -> digits_val acc true s = Some z -> numeral (p ++ s) z) /\
  (numeral p acc -> digits_val acc false s = Some z -> numeral (p ++ 95%N :: s) z) /\
  (acc = 0%Z -> digits_val acc false s = Some z -> numeral s z).
Proof.
  induction s as [|c s IH]; intros acc z p.
  - repeat split; simpl; intros H1 H2; try discriminate. injection H2 as <-. rewrite app_nil_r. exact H1.
  - rewrite !digits_step. destruct (is_digit c) eqn:Hc.
    + apply is_digit_iff in Hc. assert (Hd : digit c (Z.of_N c - 48)) by (split; auto).
      replace (acc * 10)%Z with (10 * acc)%Z by lia. split; [|split]; intros H1 H2.
      * destruct (IH (10 * acc + (Z.of_N c - 48))%Z z (p ++ [c])) as (H & _).
        specialize (H (num_more _ _ _ _ H1 Hd) H2). rewrite <- app_assoc in H. exact H.
      * destruct (IH (10 * acc + (Z.of_N c - 48))%Z z (p ++ [95%N; c])) as (H & _).
        specialize (H (num_under _ _ _ _ H1 Hd) H2). rewrite <- app_assoc in H. exact H.
      * subst acc. destruct (IH (Z.of_N c - 48)%Z z [c]) as (H & _). exact (H (num_digit _ _ Hd) H2).
    + rewrite andb_true_r, andb_false_r. split; [|split]; intros H1 H2; try discriminate.
      destruct (N.eqb_spec c 95) as [->|_]; [|discriminate]. destruct (IH acc z p) as (_ & H & _). exact (H H1 H2).
Qed.
Lemma digits_iff s z : digits_val 0 false s = Some z <-> numeral s z.
Proof.
  split; [apply (digits_numeral s 0%Z z []); reflexivity|].
  intros H. rewrite <- (app_nil_r s), (numeral_digits _ _ H). reflexivity.
Qed.
Lemma numeral_ends s z : numeral s z -> exists c d s1 s2, s = c :: s1 /\ (48 <= c <= 57)%N /\ s = s2 ++ [d] /\ (48 <= d <= 57)%N.
Proof.
  induction 1 as [c k [Hc _]|s z c k _ IH [Hc _]|s z c k _ IH [Hc _]].
  - exists c, c, [], []. auto.
  - destruct IH as (c0 & d & s1 & s2 & E & H1 & _). exists c0, c, (s1 ++ [c]), s. rewrite E. auto.
  - destruct IH as (c0 & d & s1 & s2 & E & H1 & _). exists c0, c, (s1 ++ [95%N; c]), (s ++ [95%N]).
    split; [rewrite E; reflexivity|]. split; [exact H1|]. rewrite <- app_assoc. auto.
Qed.
Lemma not_blank c : (48 <= c <= 57)%N \/ c = 43%N \/ c = 45%N -> int_space c = false.
Proof. intros H. destruct (int_space c) eqn:E; [|reflexivity]. apply int_space_iff in E. unfold blank, space in E. lia. Qed.

Definition int_of (s : text) : option Z :=
  match s with
  | [] => None
  | c :: s' => if N.eqb c 43 then digits_val 0 false s' else if N.eqb c 45 then option_map Z.opp (digits_val 0 false s')
               else digits_val 0 false s
  end.
Lemma py_int_of s : py_int s = int_of (rstrip_by int_space (lstrip_by int_space s)).
Proof.
  unfold py_int, int_of. destruct (rstrip_by _ _) as [|c s']; [reflexivity|].
  destruct (N.eqb_spec c 43) as [->|H1]; [reflexivity|]. destruct (N.eqb_spec c 45) as [->|H2]; [reflexivity|].
  destruct c as [|p]; [reflexivity|]. do 6 (destruct p as [p|p|]; try reflexivity); congruence.
Qed.
Lemma strip_int l s r : Forall blank l -> Forall blank r ->
  (exists c s1, s = c :: s1 /\ int_space c = false) -> (exists d s2, s = s2 ++ [d] /\ int_space d = false) ->
  rstrip_by int_space (lstrip_by int_space (l ++ s ++ r)) = s.
Proof.
  intros Hl Hr (c & s1 & E & Hc) (d & s2 & E2 & Hd). rewrite lstrip_app; [|apply blanks, Hl|rewrite E; exact Hc].
  apply rstrip_app; [apply blanks, Hr|]. rewrite E2, rev_app_distr. exact Hd.
Qed.
Theorem py_int_iff x z : py_int x = Some z <-> int_text x z.
Proof.
  rewrite py_int_of. split.
  - destruct (lstrip_split int_space x) as (l & E1 & Hl & _). destruct (rstrip_split int_space (lstrip_by int_space x)) as (r & E2 & Hr).
    apply blanks in Hl, Hr. rewrite E2 in E1. set (s := rstrip_by int_space (lstrip_by int_space x)) in *. clearbody s. rewrite E1. clear E1 E2 x.
    destruct s as [|c s]; [discriminate|]. unfold int_of. destruct (N.eqb_spec c 43) as [->|H1]; [|destruct (N.eqb_spec c 45) as [->|H2]].
    + intros H. apply digits_iff in H. apply (it_plus l s r z Hl H Hr).
    + destruct (digits_val 0 false s) as [k|] eqn:E; [|discriminate]. intros H. injection H as <-. apply digits_iff in E.
      apply (it_minus l s r k Hl E Hr).
    + intros H. apply digits_iff in H. apply (it_plain l _ r z Hl H Hr).
  - intros H. destruct H as [l s r z Hl Hn Hr|l s r z Hl Hn Hr|l s r z Hl Hn Hr];
      destruct (numeral_ends s z Hn) as (c & d & s1 & s2 & E1 & H1 & E2 & H2).
    + rewrite strip_int; [|exact Hl|exact Hr|exists c, s1; split; [exact E1|apply not_blank; auto]|exists d, s2; split; [exact E2|apply not_blank; auto]].
      rewrite E1. unfold int_of. destruct (N.eqb_spec c 43); [lia|]. destruct (N.eqb_spec c 45); [lia|]. rewrite <- E1. apply digits_iff, Hn.
    + change (43%N :: s ++ r) with ((43%N :: s) ++ r). rewrite (strip_int l (43%N :: s) r Hl Hr); [|exists 43%N, s; split; [reflexivity|apply not_blank; auto]|exists d, (43%N :: s2); rewrite E2; split; [reflexivity|apply not_blank; auto]].
      apply digits_iff, Hn.
    + change (45%N :: s ++ r) with ((45%N :: s) ++ r). rewrite (strip_int l (45%N :: s) r Hl Hr); [|exists 45%N, s; split; [reflexivity|apply not_blank; auto]|exists d, (45%N :: s2); rewrite E2; split; [reflexivity|apply not_blank; auto]].
      unfold int_of. simpl. apply digits_iff in Hn. rewrite Hn. reflexivity.
Qed.
