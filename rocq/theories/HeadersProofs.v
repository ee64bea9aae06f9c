(** * HeadersProofs: proofs for C102 *)
From Coq Require Import String.
From Coq Require Import List NArith Bool Arith Lia.
From Verif Require Import PyStr Prog SpecFacts Headers HeadersSpec.
Import ListNotations.
Local Open Scope nat_scope.

Lemma put_dict_length n x ds : length (put_dict n x ds) = length ds.
Proof. revert n. induction ds; intros [|n]; simpl; auto. Qed.
Lemma put_dict_same n x ds : n < length ds -> nth n (put_dict n x ds) [] = x.
Proof. revert n. induction ds; intros [|n]; simpl; intros H; try lia; auto. apply IHds. lia. Qed.
Lemma put_dict_other n m x ds : n <> m -> nth m (put_dict n x ds) [] = nth m ds [].
Proof. revert n m. induction ds; intros [|n] [|m] H; simpl; auto; lia. Qed.
Lemma dget_put k v d k' : dget k' (dput k v d) = if text_eqb k k' then Some v else dget k' d.
Proof.
  induction d as [|[k0 w] d IH]; simpl; [reflexivity|]. destruct (text_eqb k0 k) eqn:E.
  - apply text_eqb_eq in E. subst k0. simpl. destruct (text_eqb k k'); reflexivity.
  - simpl. rewrite IH. destruct (text_eqb k0 k') eqn:E2; [|reflexivity].
    destruct (text_eqb k k') eqn:E3; [|reflexivity]. apply text_eqb_eq in E2, E3. subst. rewrite text_eqb_refl in E. discriminate.
Qed.

(** The state that plain operations keep: dicts 0 and 1 as created, and every mapping that
    a user has is a ChainMap whose first mapping is another dict. *)
Definition own (n : nat) (v : view) : Prop := exists m vs, v = VChain (VDict m :: vs) /\ 2 <= m < n.
Record good (s : hst) : Prop := mkgood {
  g_len : 2 <= length (dicts s);
  g_get : nth 0 (dicts s) [] = nth 0 (dicts h_new) [];
  g_post : nth 1 (dicts s) [] = nth 1 (dicts h_new) [];
  g_own : Forall (own (length (dicts s))) (handles s) }.

Lemma good_new : good h_new.
Proof. constructor; simpl; auto. Qed.
Lemma own_le n m v : n <= m -> own n v -> own m v.
Proof. intros H (k & vs & E & H2). exists k, vs. split; [exact E|lia]. Qed.
Lemma own_top n v : own n v -> exists m, top v = Some m /\ 2 <= m < n.
Proof. intros (m & vs & -> & H). exists m. split; [reflexivity|exact H]. Qed.
Lemma good_alloc s x vs : good s -> good (alloc s x (fun n => VChain (VDict n :: vs))).
Proof.
  intros [H1 H2 H3 H4]. constructor; simpl.
  - rewrite app_length. lia.
  - rewrite app_nth1 by lia. exact H2.
  - rewrite app_nth1 by lia. exact H3.
  - rewrite app_length. simpl. apply Forall_app. split.
    + eapply Forall_impl; [|exact H4]. intros v. apply own_le. lia.
    + constructor; [|constructor]. exists (length (dicts s)), vs. split; [reflexivity|lia].
Qed.
Lemma good_on_top s h f : good s -> good (snd (on_top s h f)).
Proof.
  intros G. unfold on_top. destruct (nth_error (handles s) h) as [v|] eqn:E; [|exact G].
  assert (Hv : own (length (dicts s)) v). { eapply Forall_forall; [apply G|]. eapply nth_error_In, E. }
  destruct (own_top _ _ Hv) as (n & -> & Hn). destruct (f _) as [[a x]| |]; try exact G.
  destruct G as [H1 H2 H3 H4]. constructor; simpl; rewrite ?put_dict_length; auto; rewrite put_dict_other by lia; assumption.
Qed.
Lemma good_act a s : plain a -> good s -> good (snd (hact_run a s)).
Proof.
  intros Hp G. destruct a as [post|h k|h|h k x|h k|h|h|h|h|h i|h|post]; simpl in *; try contradiction; try (apply good_on_top, G).
  - apply (good_alloc s [] [stored post]), G.
  - unfold with_handle. destruct (nth_error _ _); exact G.
  - unfold with_handle. destruct (nth_error _ _); exact G.
  - unfold with_handle. destruct (nth_error (handles s) h) as [v|]; [|exact G]. destruct v as [n|vs]; [exact G|]. apply good_alloc, G.
  - unfold with_handle. destruct (nth_error (handles s) h) as [v|] eqn:E; [|exact G].
    assert (Hv : own (length (dicts s)) v). { eapply Forall_forall; [apply G|]. eapply nth_error_In, E. }
    destruct Hv as (m & vs & -> & _). apply good_alloc, G.
  - destruct G as [H1 H2 H3 H4]. constructor; simpl.
    + rewrite app_length. lia.
    + rewrite app_nth1 by lia. exact H2.
    + rewrite app_nth1 by lia. exact H3.
    + rewrite app_length. eapply Forall_impl; [|exact H4]. intros v. apply own_le. lia.
Qed.
Lemma good_acts l s : Forall plain l -> good s -> good (snd (hacts l s)).
Proof.
  intros Hl. revert s. induction Hl as [|a l Ha Hl IH]; intros s G; [exact G|]. simpl. pose proof (good_act a s Ha G) as G1.
  destruct (hact_run a s) as [r s1]. simpl in G1. specialize (IH s1 G1). destruct (hacts l s1). exact IH.
Qed.

(** What a ChainMap over the defaults shows. *)
Lemma shows (ds : list hdict) post n : nth 0 ds [] = nth 0 (dicts h_new) [] -> nth 1 ds [] = nth 1 (dicts h_new) [] -> nth n ds [] = [] ->
  items ds (VChain [VDict n; stored post]) = defaults post.
Proof.
  intros H0 H1 Hn. unfold items. destruct post.
  - rewrite map_ext with (g := fun k => (k, match dget k (nth 1 (dicts h_new) []) with Some x => x | None => match dget k (nth 0 (dicts h_new) []) with Some x => x | None => [] end end)).
    + cbn -[nth h_new add_keys]. rewrite Hn, H1, H0. vm_compute. reflexivity.
    + intros k. cbn -[nth h_new]. rewrite Hn, H1, H0. cbn [dget]. destruct (dget k (nth 1 _ _)); [reflexivity|]. destruct (dget k _); reflexivity.
  - rewrite map_ext with (g := fun k => (k, match dget k (nth 0 (dicts h_new) []) with Some x => x | None => [] end)).
    + cbn -[nth h_new add_keys]. rewrite Hn, H0. vm_compute. reflexivity.
    + intros k. cbn -[nth h_new]. rewrite Hn, H0. cbn [dget]. destruct (dget k _); reflexivity.
Qed.
Lemma sent_headers l post : Forall plain l -> answer_after l (OSend post) = Good (AItems (defaults post)).
Proof.
  intros Hl. destruct (good_acts l h_new Hl good_new) as [G1 G2 G3 _]. unfold answer_after. simpl. do 2 f_equal.
  apply shows; try (rewrite app_nth1 by lia; assumption). rewrite app_nth2 by lia. rewrite Nat.sub_diag. reflexivity.
Qed.

(** A mapping that was taken: only operations on it change its dict. *)
Definition apart (j n : nat) (s : hst) : Prop :=
  n < length (dicts s) /\ nth n (dicts s) [] = [] /\
  forall i v, nth_error (handles s) i = Some v -> i <> j -> top v <> Some n.
Lemma nth_snoc {A} (l : list A) x i v : nth_error (l ++ [x]) i = Some v -> nth_error l i = Some v \/ (i = length l /\ v = x).
Proof.
  intros H. destruct (Nat.lt_ge_cases i (length l)) as [Hi|Hi].
  - rewrite nth_error_app1 in H by lia. auto.
  - rewrite nth_error_app2 in H by lia. destruct (i - length l) as [|k] eqn:E; simpl in H.
    + right. injection H as <-. split; [lia|reflexivity].
    + destruct k; discriminate.
Qed.
Lemma apart_alloc j n s x vs : apart j n s -> apart j n (alloc s x (fun k => VChain (VDict k :: vs))).
Proof.
  intros (H1 & H2 & H3). unfold alloc, apart. simpl. rewrite app_length. split; [lia|]. split; [rewrite app_nth1 by lia; exact H2|].
  intros i v Hi Hij. apply nth_snoc in Hi. destruct Hi as [Hi|[-> ->]]; [apply (H3 i v Hi Hij)|]. simpl. intros E. injection E as E. lia.
Qed.
Lemma apart_on_top j n s h f : apart j n s -> h <> j -> apart j n (snd (on_top s h f)).
Proof.
  intros (H1 & H2 & H3) Hj. unfold on_top. destruct (nth_error (handles s) h) as [v|] eqn:E; [|split; auto].
  destruct (top v) as [m|] eqn:Et; [|split; auto]. destruct (f _) as [[a x]| |]; try (split; auto; fail).
  unfold apart. simpl. rewrite put_dict_length. split; [exact H1|]. split; [|exact H3].
  rewrite put_dict_other; [exact H2|]. intros ->. apply (H3 h v E Hj Et).
Qed.
Lemma apart_act j n a s : plain a -> good s -> target a <> Some j -> apart j n s -> apart j n (snd (hact_run a s)).
Proof.
  intros Hp G Ht Ha.
  destruct a as [post|h k|h|h k x|h k|h|h|h|h|h i|h|post]; simpl in *; try contradiction;
    try (apply apart_on_top; [exact Ha|congruence]).
  - apply (apart_alloc j n s [] [stored post]), Ha.
  - unfold with_handle. destruct (nth_error _ _); exact Ha.
  - unfold with_handle. destruct (nth_error _ _); exact Ha.
  - unfold with_handle. destruct (nth_error (handles s) h) as [v|]; [|exact Ha]. destruct v as [m|vs]; [exact Ha|]. apply apart_alloc, Ha.
  - unfold with_handle. destruct (nth_error (handles s) h) as [v|] eqn:E; [|exact Ha].
    assert (Hv : own (length (dicts s)) v). { eapply Forall_forall; [apply G|]. eapply nth_error_In, E. }
    destruct Hv as (m & vs & -> & _). apply apart_alloc, Ha.
  - destruct Ha as (H1 & H2 & H3). unfold apart. simpl. rewrite app_length. split; [lia|]. split; [rewrite app_nth1 by lia; exact H2|exact H3].
Qed.
Lemma handles_grow a s : exists vs, handles (snd (hact_run a s)) = handles s ++ vs.
Proof.
  assert (Ho : forall h f, exists vs, handles (snd (on_top s h f)) = handles s ++ vs).
  { intros h f. exists []. rewrite app_nil_r. unfold on_top. destruct (nth_error _ _) as [v|]; [|reflexivity].
    destruct (top v); [|reflexivity]. destruct (f _) as [[? ?]| |]; reflexivity. }
  assert (Hi : handles s = handles s ++ []) by (rewrite app_nil_r; reflexivity).
  destruct a as [post|h k|h|h k x|h k|h|h|h|h|h i|h|post]; simpl; try apply Ho; try (eexists; reflexivity);
    try (unfold with_handle; destruct (nth_error _ _) as [v|]; eexists; exact Hi).
  - unfold with_handle. destruct (nth_error _ _) as [v|]; [|eexists; exact Hi]. destruct v; [eexists; exact Hi|eexists; reflexivity].
  - unfold with_handle. destruct (nth_error _ _) as [v|]; [|eexists; exact Hi]. destruct v as [m|[|[m|ws] vs]]; [eexists; reflexivity|eexists; exact Hi|eexists; reflexivity|].
    destruct ws as [|[m|w'] ws]; eexists; first [exact Hi|reflexivity].
  - unfold with_handle. destruct (nth_error _ _) as [v|]; [|eexists; exact Hi]. destruct (nth_error _ _); eexists; first [exact Hi|reflexivity].
  - unfold with_handle. destruct (nth_error _ _) as [v|]; [|eexists; exact Hi]. destruct v as [m|[|w [|w2 ws]]]; eexists; first [exact Hi|reflexivity].
  - exists []. exact Hi.
Qed.
Lemma handles_grow_all l s : exists vs, handles (snd (hacts l s)) = handles s ++ vs.
Proof.
  revert s. induction l as [|a l IH]; intros s; simpl; [exists []; rewrite app_nil_r; reflexivity|].
  destruct (handles_grow a s) as (vs & E). destruct (hact_run a s) as [r s1]. simpl in E. destruct (IH s1) as (ws & E2).
  destruct (hacts l s1). simpl in *. exists (vs ++ ws). rewrite E2, E, app_assoc. reflexivity.
Qed.
Lemma apart_acts j n l s : Forall plain l -> Forall (fun a => target a <> Some j) l -> good s -> apart j n s -> apart j n (snd (hacts l s)).
Proof.
  intros Hl. revert s. induction Hl as [|a l Ha Hl IH]; intros s Ht G Hp; [exact Hp|]. inversion Ht as [|? ? Ht1 Ht2]; subst. simpl.
  pose proof (good_act a s Ha G) as G1. pose proof (apart_act j n a s Ha G Ht1 Hp) as P1. destruct (hact_run a s) as [r s1]. simpl in *.
  specialize (IH s1 Ht2 G1 P1). destruct (hacts l s1). exact IH.
Qed.
Lemma hacts_app l1 l2 s : snd (hacts (l1 ++ l2) s) = snd (hacts l2 (snd (hacts l1 s))).
Proof.
  revert s. induction l1 as [|a l1 IH]; intros s; simpl; [reflexivity|]. destruct (hact_run a s) as [r s1]. specialize (IH s1).
  destruct (hacts (l1 ++ l2) s1) as [? ?], (hacts l1 s1) as [? ?]. exact IH.
Qed.
Lemma taken_headers l1 post l2 j : Forall plain (l1 ++ l2) -> j = length (handles (snd (hacts l1 h_new))) ->
  Forall (fun a => target a <> Some j) l2 ->
  answer_after (l1 ++ OTake post :: l2) (OItems j) = Good (AItems (defaults post)).
Proof.
  intros Hl Hj Ht. apply Forall_app in Hl as [Hl1 Hl2]. unfold answer_after. rewrite hacts_app.
  pose proof (good_acts l1 h_new Hl1 good_new) as G. set (s := snd (hacts l1 h_new)) in *. clearbody s.
  pose proof (good_alloc s [] [stored post] G) as G1. set (s1 := alloc s [] (fun n => VChain [VDict n; stored post])) in *.
  assert (E : snd (hacts (OTake post :: l2) s) = snd (hacts l2 s1)) by (simpl; fold s1; destruct (hacts l2 s1); reflexivity).
  rewrite E. clear E.
  assert (P : apart j (length (dicts s)) s1).
  { unfold s1, apart, alloc. simpl. rewrite app_length. simpl. split; [lia|]. split; [rewrite app_nth2 by lia; rewrite Nat.sub_diag; reflexivity|].
    intros i v Hi Hij. apply nth_snoc in Hi. destruct Hi as [Hi|[-> _]]; [|congruence].
    assert (Hv : own (length (dicts s)) v). { eapply Forall_forall; [apply G|]. eapply nth_error_In, Hi. }
    destruct (own_top _ _ Hv) as (m & -> & Hm). intros E. injection E as E. lia. }
  pose proof (apart_acts j (length (dicts s)) l2 s1 Hl2 Ht G1 P) as (P1 & P2 & _).
  destruct (handles_grow_all l2 s1) as (vs & Eh). pose proof (good_acts l2 s1 Hl2 G1) as [_ F2 F3 _].
  set (s2 := snd (hacts l2 s1)) in *. clearbody s2. simpl. unfold with_handle. rewrite Eh. unfold s1, alloc. simpl.
  rewrite Hj, nth_error_app1 by (rewrite app_length; simpl; lia). rewrite nth_error_app2 by lia. rewrite Nat.sub_diag. simpl.
  do 2 f_equal. apply shows; assumption.
Qed.

(** Setting a header in a mapping shows there. *)
Lemma look_top ds v n k x : top v = Some n -> dget k (nth n ds []) = Some x -> look ds v k = Some x.
Proof.
  revert v. fix IH 1. intros [m|vs]; simpl.
  - intros E. injection E as ->. auto.
  - destruct vs as [|w vs]; [discriminate|]. intros E Hg. rewrite (IH w E Hg). reflexivity.
Qed.
Lemma set_shows l h k x : Forall plain l -> h < length (handles (snd (hacts l h_new))) ->
  answer_after (l ++ [OSet h k x]) (OGet h k) = Good (AVal (Some x)).
Proof.
  intros Hl Hh. unfold answer_after. rewrite hacts_app. pose proof (good_acts l h_new Hl good_new) as G.
  set (s := snd (hacts l h_new)) in *. clearbody s. simpl. unfold on_top.
  destruct (nth_error (handles s) h) as [v|] eqn:E; [|apply nth_error_None in E; lia].
  assert (Hv : own (length (dicts s)) v). { eapply Forall_forall; [apply G|]. eapply nth_error_In, E. }
  destruct (own_top _ _ Hv) as (n & Et & Hn). rewrite Et. simpl. unfold with_handle. simpl. rewrite E. cbn [fst]. do 2 f_equal.
  apply (look_top _ _ n); [exact Et|]. rewrite put_dict_same by lia. rewrite dget_put, text_eqb_refl. reflexivity.
Qed.
