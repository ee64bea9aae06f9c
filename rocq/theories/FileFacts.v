(** * FileFacts: what the methods of LineFileBuffer do to the directory *)
From stdpp Require Import gmap.
From Coq Require Import String.
From Coq Require Import List NArith ZArith Bool Arith Lia.
From Verif Require Import PyStr Prog ProgFacts PyIO Base Spec SpecFacts LineBuf LineBufFacts Atomic FileBuf.
Import ListNotations.
Local Open Scope prog_scope.
Local Open Scope nat_scope.

(** ** File names *)
Definition dec_val (s : text) (v : N) : N := fold_left (fun a c => a * 10 + (c - 48))%N s v.

Lemma dec_digits_val f : forall n acc, (n < 2 ^ N.of_nat (S f))%N ->
  dec_val (dec_digits (S f) n acc) 0 = dec_val acc n.
Proof.
  induction f as [|f IH]; intros n acc Hn.
  - assert (Hn' : (n < 2)%N) by exact Hn. unfold dec_val. cbn [dec_digits].
    replace (n / 10 =? 0)%N with true by (symmetry; apply N.eqb_eq, N.div_small; lia).
    rewrite N.mod_small by lia. cbn [fold_left]. f_equal. lia.
  - change (dec_digits (S (S f)) n acc) with
      (if (n / 10 =? 0)%N then (48 + n mod 10)%N :: acc
       else dec_digits (S f) (n / 10) ((48 + n mod 10)%N :: acc)).
    pose proof (N.div_mod n 10 ltac:(lia)) as Hd.
    destruct (N.eqb_spec (n / 10) 0) as [E|E].
    + rewrite E in Hd. unfold dec_val. cbn [fold_left]. f_equal.
      generalize dependent (n mod 10)%N. intros x ->. lia.
    + rewrite IH.
      * unfold dec_val. cbn [fold_left]. f_equal. rewrite Hd at 3. clear.
        generalize (n mod 10)%N (n / 10)%N. intros x y. lia.
      * apply N.div_lt_upper_bound; [lia|]. rewrite (Nat2N.inj_succ (S f)), N.pow_succ_r' in Hn. lia.
Qed.

Lemma dec_of_N_val n : dec_val (dec_of_N n) 0 = n.
Proof.
  unfold dec_of_N. rewrite dec_digits_val; [reflexivity|].
  rewrite Nat2N.inj_succ, N2Nat.id. destruct (N.eq_dec n 0) as [->|Hn]; [reflexivity|].
  apply N.log2_spec. lia.
Qed.

Lemma dec_of_nat_inj a b : dec_of_nat a = dec_of_nat b -> a = b.
Proof.
  intros H. apply Nat2N.inj. rewrite <- (dec_of_N_val (N.of_nat a)), <- (dec_of_N_val (N.of_nat b)).
  unfold dec_of_nat in H. rewrite H. reflexivity.
Qed.

Lemma dec_digits_range fuel : forall n acc,
  List.Forall (fun c => 48 <= c <= 57)%N acc -> List.Forall (fun c => 48 <= c <= 57)%N (dec_digits fuel n acc).
Proof.
  induction fuel as [|f IH]; intros n acc H; [exact H|]. cbn [dec_digits].
  assert (H' : List.Forall (fun c => 48 <= c <= 57)%N ((48 + n mod 10)%N :: acc)).
  { constructor; [|exact H]. pose proof (N.mod_lt n 10 ltac:(lia)) as Hm. revert Hm.
    generalize (n mod 10)%N. intros x Hx. lia. }
  destruct (_ =? _)%N; auto.
Qed.
Lemma dec_of_nat_range n : List.Forall (fun c => 48 <= c <= 57)%N (dec_of_nat n).
Proof. apply dec_digits_range. constructor. Qed.

Lemma last_sep {A} (x : A) a a' b b' : ~ In x b -> ~ In x b' ->
  a ++ x :: b = a' ++ x :: b' -> a = a' /\ b = b'.
Proof.
  revert a'. induction a as [|y a IH]; intros [|y' a'] Hb Hb' H; simpl in H.
  - injection H as ->. auto.
  - injection H as <- ->. exfalso. apply Hb. apply in_or_app. right. left. reflexivity.
  - injection H as -> <-. exfalso. apply Hb'. apply in_or_app. right. left. reflexivity.
  - injection H as -> H. destruct (IH a' Hb Hb' H) as [-> ->]. auto.
Qed.

Lemma no_dash n : ~ In 45%N (dec_of_nat n).
Proof. intros H. pose proof (dec_of_nat_range n) as R. rewrite List.Forall_forall in R. specialize (R _ H). lia. Qed.

Lemma log_name_inj p p' n n' :
  p ++ dash ++ dec_of_nat n ++ txt ".log" = p' ++ dash ++ dec_of_nat n' ++ txt ".log" -> p = p' /\ n = n'.
Proof.
  rewrite !app_assoc. intros H. apply app_inv_tail in H. rewrite <- !app_assoc in H.
  unfold dash in H. cbn [app] in H.
  apply last_sep in H; [|apply no_dash|apply no_dash]. destruct H as [H1 H2].
  split; [exact H1|]. apply dec_of_nat_inj, H2.
Qed.
Lemma rec_name_inj b n n' : rec_name b n = rec_name b n' -> n = n'.
Proof. intros H. apply log_name_inj in H. tauto. Qed.
Lemma rec_name_eq b b' n : b_name b = b_name b' -> rec_name b n = rec_name b' n.
Proof. intros H. unfold rec_name. rewrite H. reflexivity. Qed.

Lemma last_app_ne {A} (l l' : list A) d : l' <> [] -> last (l ++ l') d = last l' d.
Proof.
  intros H. destruct (exists_last H) as (l0 & x & ->). rewrite app_assoc, !last_last. reflexivity.
Qed.
Lemma rec_tmp b n b' : rec_name b n <> tmp_name b'.
Proof.
  intros H. apply (f_equal (fun s => last s 0%N)) in H. unfold rec_name, tmp_name in H.
  rewrite !app_assoc in H. rewrite !last_app_ne in H by discriminate. discriminate.
Qed.
Lemma tmp_name_inj b b' : b_name b = b_name b' -> tmp_name b = tmp_name b' -> b_tmp b = b_tmp b'.
Proof.
  intros Hn H. unfold tmp_name in H. rewrite Hn in H. apply app_inv_head in H. apply app_inv_head in H.
  apply app_inv_tail in H. exact H.
Qed.

(** ** Commands *)
Lemma fexec_nb X (c : fcmd X) d : fst (cexec c d) <> Block.
Proof.
  destruct c; simpl; try discriminate.
  - destruct (files d !! n); discriminate.
  - destruct (forallb _ _); discriminate.
  - destruct (files d !! old); discriminate.
  - destruct (files d !! n); discriminate.
Qed.
Lemma fb_nb {A} (p : prog fcmd A) d : fst (srun p d) <> Block.
Proof. apply srun_nb. intros. apply fexec_nb. Qed.

(** Universal newlines change nothing in a text without CR. *)
Lemma uni_no_cr s : ~ In CR s -> uni s = s.
Proof.
  induction s as [|c s IH]; intros H; [reflexivity|]. cbn [uni].
  destruct (N.eqb_spec c CR) as [->|]; [exfalso; apply H; left; reflexivity|].
  rewrite IH; [reflexivity|]. intros Hs. apply H. right. exact Hs.
Qed.
Lemma no_break_no_cr s : no_break s -> ~ In CR s.
Proof.
  intros H Hi. unfold no_break in H. rewrite List.Forall_forall in H. apply (H _ Hi). unfold line_break. auto 10.
Qed.
Lemma uni_no_break s : no_break s -> uni s = s.
Proof. intros H. apply uni_no_cr, no_break_no_cr, H. Qed.

Definition enc (s : text) : Prop := forallb encodable s = true.

Section Buffer.
  Variable b : fbuf.
  Notation R := (rec_name b).
  Notation T := (tmp_name b).
  Notation dr fs cl := (mkfdir fs cl).

  Lemma R_ne i j : i <> j -> R i <> R j.
  Proof. intros H E. apply H, (rec_name_inj _ _ _ E). Qed.

  Lemma put_chars_run n (s : text) : forall fs cl (s0 : text), fs !! n = Some s0 ->
    srun (put_chars n s) (dr fs cl) = (Good tt, dr (<[n := s0 ++ s]> fs) cl).
  Proof.
    induction s as [|c s IH]; intros fs cl s0 H.
    - rewrite app_nil_r, insert_id by exact H. reflexivity.
    - cbn [put_chars]. rewrite srun_bind, srun_op. cbn [cexec fsem fexec files fclosed].
      rewrite (IH _ _ (s0 ++ [c])).
      2: { rewrite lookup_alter, H. reflexivity. }
      rewrite <- app_assoc. cbn [app]. f_equal. f_equal. apply map_eq. intros x.
      destruct (decide (x = n)) as [->|Hx]; [rewrite !lookup_insert; reflexivity|].
      rewrite !lookup_insert_ne by auto. rewrite lookup_alter_ne by auto. reflexivity.
  Qed.
  Lemma file_write_run n (s : text) fs cl (s0 : text) : enc s -> fs !! n = Some s0 ->
    srun (file_write n s) (dr fs cl) = (Good (length s), dr (<[n := s0 ++ s]> fs) cl).
  Proof.
    intros He H. unfold file_write. rewrite srun_bind, srun_op. cbn [cexec fsem fexec].
    rewrite He. rewrite srun_bind, (put_chars_run _ _ _ _ s0 H). reflexivity.
  Qed.

  (** *** Counting *)
  Definition cnt (fs : gmap text text) (bound : nat) : nat :=
    count_true (map (present fs) (map R (seq 0 bound))).

  Lemma count_run bound d : srun (fb_count b bound) d = (Good (cnt (files d) bound), d).
  Proof. reflexivity. Qed.

  Lemma count_true_spec (f : nat -> bool) n : forall i,
    let c := count_true (map f (seq i n)) in
    c <= n /\ (forall j, i <= j < i + c -> f j = true) /\ (c < n -> f (i + c) = false).
  Proof.
    induction n as [|n IH]; intros i; simpl; [repeat split; intros; lia|].
    destruct (f i) eqn:E; simpl.
    - destruct (IH (S i)) as (H1 & H2 & H3). repeat split; [lia| |].
      + intros j Hj. destruct (Nat.eq_dec j i) as [->|]; [exact E|]. apply H2. lia.
      + intros Hc. replace (i + S _) with (S i + count_true (map f (seq (S i) n))) by lia. apply H3. lia.
    - repeat split; [lia|intros; lia|]. intros _. rewrite Nat.add_0_r. exact E.
  Qed.
  Lemma cnt_spec fs bound :
    cnt fs bound <= bound /\ (forall i, i < cnt fs bound -> exists s, fs !! R i = Some s) /\
    (cnt fs bound < bound -> fs !! R (cnt fs bound) = None).
  Proof.
    unfold cnt. rewrite map_map. destruct (count_true_spec (fun i => present fs (R i)) bound 0) as (H1 & H2 & H3).
    split; [exact H1|]. split.
    - intros i Hi. specialize (H2 i ltac:(lia)). unfold present in H2. destruct (fs !! R i); [eauto|discriminate].
    - intros Hc. specialize (H3 Hc). unfold present in H3. simpl in H3. destruct (fs !! R _); [discriminate|reflexivity].
  Qed.
  Lemma cnt_unique fs bound n : n <= bound -> (forall i, i < n -> fs !! R i <> None) ->
    (n < bound -> fs !! R n = None) -> cnt fs bound = n.
  Proof.
    intros Hn H1 H2. destruct (cnt_spec fs bound) as (C1 & C2 & C3).
    destruct (lt_eq_lt_dec (cnt fs bound) n) as [[H|H]|H]; [|exact H|].
    - exfalso. apply (H1 _ H), C3. lia.
    - exfalso. destruct (C2 n H) as [s Hs]. rewrite H2 in Hs by lia. discriminate.
  Qed.
  Lemma cnt_min fs n m : n <= m -> cnt fs n = Nat.min n (cnt fs m).
  Proof.
    intros H. destruct (cnt_spec fs m) as (C1 & C2 & C3). apply cnt_unique; [lia| |].
    - intros i Hi. destruct (C2 i ltac:(lia)) as [s ->]. discriminate.
    - intros Hc. rewrite Nat.min_r in * by lia. apply C3. lia.
  Qed.

  (** *** Moving and storing *)
  Fixpoint mv (k n : nat) (fs : gmap text text) : gmap text text :=
    match k with
    | O => fs
    | S j => mv j n (match fs !! R j with
                     | Some x => <[R (j + n) := x]> (delete (R j) fs)
                     | None => fs
                     end)
    end.

  Lemma move_run n : 1 <= n -> forall k fs cl, (forall i, i < k -> fs !! R i <> None) ->
    srun (fb_move b k n) (dr fs cl) = (Good tt, dr (mv k n fs) cl).
  Proof.
    intros Hn. induction k as [|j IH]; intros fs cl H; [reflexivity|]. cbn [fb_move mv].
    destruct (fs !! R j) as [x|] eqn:Ex; [|exfalso; apply (H j); auto].
    assert (Hne : R (j + n) <> R j) by (apply R_ne; lia).
    rewrite srun_bind, srun_op. cbn [cexec fsem fexec files].
    assert (Hrest : forall fs1, fs1 !! R j = Some x -> (forall y, y <> R (j + n) -> fs1 !! y = fs !! y) ->
      srun (fop (FRename (R j) (R (j + n))) ;; fb_move b j n) (dr fs1 cl) =
      (Good tt, dr (mv j n (<[R (j + n):=x]> (delete (R j) fs))) cl)).
    { intros fs1 H1 H2. rewrite srun_bind, srun_op. cbn [cexec fsem fexec files fclosed]. rewrite H1.
      assert (E : <[R (j + n):=x]> (delete (R j) fs1) = <[R (j + n):=x]> (delete (R j) fs)).
      { apply map_eq. intros y. destruct (decide (y = R (j + n))) as [->|Hy]; [rewrite !lookup_insert; reflexivity|].
        rewrite !lookup_insert_ne by auto. destruct (decide (y = R j)) as [->|Hy2];
          [rewrite !lookup_delete; reflexivity|]. rewrite !lookup_delete_ne by auto. apply H2, Hy. }
      rewrite E. apply IH. intros i Hi. rewrite lookup_insert_ne by (apply R_ne; lia).
      rewrite lookup_delete_ne by (apply R_ne; lia). apply H. lia. }
    destruct (present fs (R (j + n))) eqn:Ep.
    - rewrite srun_bind, srun_op. cbn [cexec fsem fexec files fclosed].
      unfold present in Ep. destruct (fs !! R (j + n)) eqn:E2; [|discriminate].
      apply Hrest; [rewrite lookup_delete_ne by auto; exact Ex|].
      intros y Hy. apply lookup_delete_ne. auto.
    - cbn [bind]. apply Hrest; auto.
  Qed.

  Lemma mv_rec n : 1 <= n -> forall k fs i, (forall i, i < k -> fs !! R i <> None) ->
    mv k n fs !! R i =
    if (n <=? i) && (i <? n + k) then fs !! R (i - n)
    else if i <? Nat.min k n then None else fs !! R i.
  Proof.
    intros Hn. induction k as [|j IH]; intros fs i H; cbn [mv].
    - rewrite Nat.add_0_r. replace (Nat.min 0 n) with 0 by lia.
      destruct (Nat.leb_spec n i), (Nat.ltb_spec i n); simpl; try lia; reflexivity.
    - destruct (fs !! R j) as [x|] eqn:Ex; [|exfalso; apply (H j); auto].
      rewrite IH.
      2: { intros i' Hi. rewrite lookup_insert_ne by (apply R_ne; lia).
           rewrite lookup_delete_ne by (apply R_ne; lia). apply H. lia. }
      assert (Hl : forall i', (<[R (j + n):=x]> (delete (R j) fs)) !! R i' =
                if i' =? j + n then Some x else if i' =? j then None else fs !! R i').
      { intros i'. destruct (Nat.eqb_spec i' (j + n)) as [->|H1]; [apply lookup_insert|].
        rewrite lookup_insert_ne by (apply R_ne; lia).
        destruct (Nat.eqb_spec i' j) as [->|H2]; [apply lookup_delete|].
        apply lookup_delete_ne, R_ne. lia. }
      rewrite !Hl.
      destruct (Nat.leb_spec n i), (Nat.ltb_spec i (n + j)), (Nat.ltb_spec i (n + S j)); cbn [andb]; try lia;
        repeat match goal with
        | |- context [?a =? ?c] => destruct (Nat.eqb_spec a c); try lia
        | |- context [?a <? ?c] => destruct (Nat.ltb_spec a c); try lia
        end; subst; auto.
      all: try (replace (j + n - n) with j by lia; auto).
      all: try (replace i with j by lia; auto).
  Qed.

  Lemma mv_other n x : (forall i, x <> R i) -> forall k fs, mv k n fs !! x = fs !! x.
  Proof.
    intros Hx. induction k as [|j IH]; intros fs; cbn [mv]; [reflexivity|]. rewrite IH.
    destruct (fs !! R j); [|reflexivity].
    rewrite lookup_insert_ne by (intros E; apply (Hx (j + n)); auto).
    apply lookup_delete_ne. intros E. apply (Hx j). auto.
  Qed.

  Fixpoint sto (lines : list text) (fs : gmap text text) : gmap text text :=
    match lines with
    | [] => fs
    | l :: ls => sto ls (<[R (length ls) := l]> fs)
    end.
  Lemma store_run lines : List.Forall enc lines -> forall fs cl,
    srun (fb_store b lines) (dr fs cl) = (Good tt, dr (sto lines fs) cl).
  Proof.
    induction 1 as [|l ls Hl _ IH]; intros fs cl; [reflexivity|]. cbn [fb_store sto].
    rewrite srun_bind, srun_op. cbn [cexec fsem fexec files fclosed].
    rewrite srun_bind, (file_write_run _ _ _ _ []) by (auto; apply lookup_insert).
    rewrite insert_insert. cbn [app]. apply IH.
  Qed.
  Lemma sto_rec lines : forall fs i,
    sto lines fs !! R i = if i <? length lines then nth_error (rev lines) i else fs !! R i.
  Proof.
    induction lines as [|l ls IH]; intros fs i; [reflexivity|]. cbn [sto length rev]. rewrite IH.
    destruct (Nat.ltb_spec i (length ls)) as [H|H].
    - replace (i <? S (length ls)) with true by (symmetry; apply Nat.ltb_lt; lia).
      rewrite nth_error_app1 by (rewrite rev_length; lia). reflexivity.
    - destruct (Nat.ltb_spec i (S (length ls))) as [H1|H1].
      + assert (i = length ls) as -> by lia. rewrite lookup_insert.
        rewrite nth_error_app2 by (rewrite rev_length; lia). rewrite rev_length, Nat.sub_diag. reflexivity.
      + apply lookup_insert_ne, R_ne. lia.
  Qed.
  Lemma sto_other x : (forall i, x <> R i) -> forall lines fs, sto lines fs !! x = fs !! x.
  Proof.
    intros Hx. induction lines as [|l ls IH]; intros fs; [reflexivity|]. cbn [sto]. rewrite IH.
    apply lookup_insert_ne. intros E. apply (Hx (length ls)). auto.
  Qed.

  (** *** Update of the records *)
  Notation m := (b_max b).
  Definition upd (lines : list text) (fs : gmap text text) : gmap text text :=
    match lines with
    | [] => fs
    | _ => let ls := lastn m lines in
           sto ls (mv (Nat.min (cnt fs m) (m - length ls)) (length ls) fs)
    end.

  Lemma lastn_length {A} n (l : list A) : length (lastn n l) = Nat.min n (length l).
  Proof. unfold lastn. rewrite skipn_length. lia. Qed.

  Lemma Forall_skipn' {A} (P : A -> Prop) n l : List.Forall P l -> List.Forall P (skipn n l).
  Proof. intros H. rewrite <- (firstn_skipn n l) in H. apply List.Forall_app in H. tauto. Qed.

  Lemma update_run lines fs cl : 1 <= m -> List.Forall enc lines ->
    srun (fb_update_records b lines) (dr fs cl) = (Good tt, dr (upd lines fs) cl).
  Proof.
    intros Hm He. unfold fb_update_records. rewrite srun_with. unfold upd.
    destruct lines as [|l ls]; [reflexivity|]. set (L := l :: ls) in *. cbv zeta.
    rewrite srun_bind, count_run. cbn [files].
    destruct (cnt_spec fs m) as (C1 & C2 & C3).
    rewrite srun_bind, move_run.
    - apply store_run. apply Forall_skipn', He.
    - rewrite lastn_length. unfold L. simpl. lia.
    - intros i Hi. destruct (C2 i ltac:(lia)) as [s ->]. discriminate.
  Qed.

  (** The records after an update, for every directory. *)
  Lemma upd_rec lines fs i : 1 <= m -> lines <> [] ->
    upd lines fs !! R i =
    let n := Nat.min m (length lines) in
    if i <? n then nth_error (rev lines) i
    else if i <? n + Nat.min (cnt fs m) (m - n) then fs !! R (i - n) else fs !! R i.
  Proof.
    intros Hm Hl. unfold upd. destruct lines as [|l ls]; [congruence|]. set (L := l :: ls) in *. cbv zeta.
    rewrite sto_rec, lastn_length. set (n := Nat.min m (length L)).
    assert (Hn : 1 <= n) by (unfold n, L; simpl; lia).
    destruct (cnt_spec fs m) as (C1 & C2 & C3).
    destruct (Nat.ltb_spec i n) as [Hi|Hi].
    - unfold lastn.
      assert (E : rev L = rev (skipn (length L - m) L) ++ rev (firstn (length L - m) L)).
      { rewrite <- rev_app_distr, firstn_skipn. reflexivity. }
      rewrite E, nth_error_app1; [reflexivity|]. rewrite rev_length, skipn_length. unfold n in Hi. lia.
    - rewrite mv_rec; [|exact Hn|].
      2: { intros j Hj. destruct (C2 j ltac:(lia)) as [s ->]. discriminate. }
      replace (n <=? i) with true by (symmetry; apply Nat.leb_le; lia). simpl.
      destruct (i <? n + _); [reflexivity|].
      replace (i <? Nat.min _ n) with false by (symmetry; apply Nat.ltb_ge; lia). reflexivity.
  Qed.
  Lemma upd_other x lines fs : (forall i, x <> R i) -> upd lines fs !! x = fs !! x.
  Proof.
    intros Hx. unfold upd. destruct lines; [reflexivity|]. rewrite sto_other, mv_other by exact Hx. reflexivity.
  Qed.
  Lemma upd_tmp b' lines fs : upd lines fs !! tmp_name b' = fs !! tmp_name b'.
  Proof. apply upd_other. intros i E. apply (rec_tmp b i b'). auto. Qed.

  (** *** The temporary file *)
  Definition lastl (fs : gmap text text) : text := match fs !! T with Some s => uni s | None => [] end.
  Definition app_tmp (s : text) (fs : gmap text text) : gmap text text :=
    <[T := (match fs !! T with Some s0 => s0 | None => [] end) ++ s]> fs.
  Definition clean_tmp (fs : gmap text text) : gmap text text := <[T := []]> fs.

  Lemma get_last_run d : srun (fb_get_last_line b) d = (Good (lastl (files d)), d).
  Proof.
    unfold fb_get_last_line, lastl. rewrite srun_with, srun_bind, srun_op. cbn [cexec fsem fexec files].
    unfold present. destruct (files d !! T) as [s|] eqn:E; [|reflexivity].
    rewrite srun_op. cbn [cexec fsem fexec]. rewrite E. reflexivity.
  Qed.
  Lemma clean_run fs cl : srun (fb_clean_last_line b) (dr fs cl) = (Good tt, dr (clean_tmp fs) cl).
  Proof. unfold fb_clean_last_line. rewrite srun_with. reflexivity. Qed.
  Lemma write_last_run s fs cl : enc s ->
    srun (fb_write_last_line b s) (dr fs cl) = (Good (length s), dr (app_tmp s fs) cl).
  Proof.
    intros He. unfold fb_write_last_line, app_tmp. rewrite srun_with, srun_bind, srun_op.
    cbn [cexec fsem fexec files fclosed]. destruct (fs !! T) as [s0|] eqn:E.
    - rewrite (file_write_run _ _ _ _ s0) by assumption. reflexivity.
    - rewrite (file_write_run _ _ _ _ []) by (auto; apply lookup_insert). rewrite insert_insert. reflexivity.
  Qed.

  (** *** Writing *)
  Definition fwr (data : text) (fs : gmap text text) : gmap text text :=
    match seg data with
    | ([], []) => fs
    | ([], r) => app_tmp r fs
    | (l :: ls, r) => app_tmp r (clean_tmp (upd ((lastl fs ++ l) :: ls) fs))
    end.

  Lemma enc_app s s' : enc (s ++ s') <-> enc s /\ enc s'.
  Proof. unfold enc. rewrite forallb_app, andb_true_iff. tauto. Qed.
  Lemma enc_cons c s : enc (c :: s) <-> encodable c = true /\ enc s.
  Proof. unfold enc. simpl. rewrite andb_true_iff. tauto. Qed.
  Lemma enc_seg s : enc s -> List.Forall enc (fst (seg s)) /\ enc (snd (seg s)).
  Proof.
    intros He. pose proof (seg_segments s) as H. induction H as [r H|l t s ls r Hl Ht H IH].
    - auto.
    - apply enc_app in He. destruct He as [H1 H2]. apply enc_app in H2. destruct H2 as [_ H2].
      destruct (IH H2) as [IH1 IH2]. split; [constructor; auto|exact IH2].
  Qed.

  Lemma write_body_run data fs cl : 1 <= m -> enc data -> enc (lastl fs) ->
    srun (fb_write_body b data) (dr fs cl) = (Good (wres data), dr (fwr data fs) cl).
  Proof.
    intros Hm He Hl. unfold fb_write_body. cbv zeta. rewrite splitlines_single.
    unfold wres, fwr. destruct (enc_seg data He) as [Hs1 Hs2].
    destruct (single_break data) eqn:Es.
    - unfold single_break in Es. destruct (seg data) as [[|l ls] r] eqn:E; [discriminate|].
      destruct l; [|discriminate]. destruct ls; [|discriminate]. destruct r; [|discriminate].
      rewrite srun_bind, get_last_run. cbn [files].
      rewrite srun_bind. unfold fb_parse_lines. rewrite update_run by auto.
      rewrite srun_bind, clean_run. cbn [srun]. rewrite app_nil_r. f_equal. f_equal.
      unfold app_tmp, clean_tmp. rewrite lookup_insert, insert_insert. reflexivity.
    - rewrite is_end_seg, splitlines_seg. destruct (seg data) as [[|l ls] r] eqn:E; simpl in Hs1, Hs2.
      + destruct r as [|c r]; [reflexivity|]. cbn [fst snd opt_line app length]. apply write_last_run. exact Hs2.
      + assert (Hgen : forall x, enc x ->
          srun (match (l :: ls) ++ [x] with
                | [] => Ret 0 | [y] => fb_write_last_line b y
                | y :: rest => l0 <- fb_get_last_line b ;;
                    fb_parse_lines b (removelast ((l0 ++ y) :: rest)) ;;
                    fb_clean_last_line b ;; fb_write_last_line b (last rest []) end) (dr fs cl) =
          (Good (length x), dr (app_tmp x (clean_tmp (upd ((lastl fs ++ l) :: ls) fs))) cl)).
        { intros x Hx. cbn [app]. destruct (ls ++ [x]) as [|y ys] eqn:Ey; [destruct ls; discriminate|].
          rewrite <- Ey. clear y ys Ey. rewrite srun_bind, get_last_run. cbn [files].
          rewrite removelast_cons_app, last_last. rewrite srun_bind. unfold fb_parse_lines.
          assert (Hls : List.Forall enc ((lastl fs ++ l) :: ls)).
          { inversion Hs1; subst. constructor; [apply enc_app; auto|assumption]. }
          rewrite update_run by assumption.
          rewrite srun_bind, clean_run. apply write_last_run. exact Hx. }
        cbn [fst snd]. destruct r as [|c r]; cbn [opt_line].
        * rewrite app_nil_r. apply Hgen. exact Hs2.
        * apply Hgen. exact Hs2.
  Qed.

  (** *** The closed flag *)
  Definition isclosed (cl : gmap nat unit) : bool := match cl !! b_id b with Some _ => true | None => false end.

  Lemma closed_run d : srun (fb_closed b) d = (Good (isclosed (fclosed d)), d).
  Proof. reflexivity. Qed.
  Lemma readable_run d : srun (fb_readable b) d = (Good (negb (isclosed (fclosed d))), d).
  Proof. unfold fb_readable. rewrite !srun_with. reflexivity. Qed.
  Lemma writable_run d : srun (fb_writable b) d = (Good (negb (isclosed (fclosed d))), d).
  Proof. unfold fb_writable. rewrite !srun_with. reflexivity. Qed.

  Lemma write_run data fs cl : 1 <= m -> enc data -> enc (lastl fs) -> isclosed cl = false ->
    srun (fb_write b data) (dr fs cl) = (Good (wres data), dr (fwr data fs) cl).
  Proof.
    intros Hm He Hl Hc. unfold fb_write. rewrite srun_bind, writable_run. cbn [fclosed]. rewrite Hc.
    apply write_body_run; assumption.
  Qed.
  Lemma write_closed data d : isclosed (fclosed d) = true -> srun (fb_write b data) d = (Fail OSError, d).
  Proof. intros Hc. unfold fb_write. rewrite srun_bind, writable_run, Hc. reflexivity. Qed.

  Lemma new_line_run fs cl : 1 <= m -> enc (lastl fs) -> isclosed cl = false ->
    srun (fb_new_line b) (dr fs cl) =
    (Good tt, dr (match lastl fs with [] => fs | _ => clean_tmp (upd [lastl fs] fs) end) cl).
  Proof.
    intros Hm Hl Hc. unfold fb_new_line. rewrite srun_bind, closed_run. cbn [fclosed]. rewrite Hc.
    rewrite srun_bind, get_last_run. cbn [files]. destruct (lastl fs) as [|c s] eqn:E; [reflexivity|].
    rewrite srun_bind, write_body_run; [|exact Hm|reflexivity|rewrite E; exact Hl].
    cbn [srun]. f_equal. f_equal. unfold fwr. change (seg [LF]) with ([[]] : list text, [] : text). cbv iota.
    rewrite E, app_nil_r. unfold app_tmp, clean_tmp. rewrite lookup_insert, insert_insert. reflexivity.
  Qed.
  Lemma new_line_closed d : isclosed (fclosed d) = true -> srun (fb_new_line b) d = (Good tt, d).
  Proof. intros Hc. unfold fb_new_line. rewrite srun_bind, closed_run, Hc. reflexivity. Qed.

  (** *** Reading *)
  Definition content (fs : gmap text text) (i : nat) : text :=
    match fs !! R i with Some s => uni s | None => [] end.
  (** The contents of the records n-1, ..., 0 *)
  Fixpoint recs (fs : gmap text text) (n : nat) : list text :=
    match n with O => [] | S k => content fs k :: recs fs k end.
  Lemma recs_length fs n : length (recs fs n) = n.
  Proof. induction n; simpl; auto. Qed.
  Lemma recs_skipn fs n k : k <= n -> skipn (n - k) (recs fs n) = recs fs k.
  Proof.
    induction n as [|n IH]; intros H; [replace k with 0 by lia; reflexivity|].
    destruct (Nat.eq_dec k (S n)) as [->|]; [rewrite Nat.sub_diag; reflexivity|].
    replace (S n - k) with (S (n - k)) by lia. cbn [recs skipn]. apply IH. lia.
  Qed.

  Lemma read_files_run n : forall d, (forall i, i < n -> files d !! R i <> None) ->
    srun (fb_read_files b n) d = (Good (recs (files d) n), d).
  Proof.
    induction n as [|n IH]; intros d H; [reflexivity|]. cbn [fb_read_files recs].
    rewrite srun_bind, srun_op. cbn [cexec fsem fexec]. unfold content.
    destruct (files d !! R n) as [s|] eqn:E; [|exfalso; apply (H n); auto].
    rewrite srun_bind, IH by (intros; apply H; lia). reflexivity.
  Qed.

  (** What a reader sees. *)
  Definition opt_t (s : text) : list text := match s with [] => [] | _ => [s] end.
  Definition seen (fs : gmap text text) : list text :=
    recs fs (cnt fs (m - length (opt_t (lastl fs)))) ++ opt_t (lastl fs).

  Lemma read_run size d : isclosed (fclosed d) = false ->
    srun (fb_read b size) d =
    (Good match size with
          | None => seen (files d)
          | Some z => if (z <=? 0)%Z then [] else last_items (Z.to_nat z) (seen (files d))
          end, d).
  Proof.
    intros Hc. unfold fb_read. rewrite srun_bind, readable_run, Hc. cbn [negb].
    set (last_line := lastl (files d)).
    set (bound := match last_line with [] => m | _ => m - 1 end).
    assert (Hb : m - length (opt_t last_line) = bound).
    { unfold bound. destruct last_line; simpl; lia. }
    destruct (cnt_spec (files d) bound) as (C1 & C2 & C3).
    assert (Hpres : forall n, n <= cnt (files d) bound -> forall i, i < n -> files d !! R i <> None).
    { intros n Hn i Hi. destruct (C2 i ltac:(lia)) as [s ->]. discriminate. }
    unfold seen. fold last_line. rewrite Hb. destruct size as [z|].
    - destruct (Z.leb_spec z 0) as [Hz|Hz]; [reflexivity|].
      rewrite srun_bind, get_last_run. fold last_line. fold bound.
      rewrite srun_with, srun_bind, count_run. cbv zeta.
      rewrite srun_bind, read_files_run by (apply Hpres; lia). cbn [srun].
      assert (Hz1 : 1 <= Z.to_nat z) by lia.
      replace (match last_line with [] => Z.to_nat z | _ => Z.to_nat z - 1 end)
        with (Z.to_nat z - length (opt_t last_line)) by (destruct last_line; simpl; lia).
      replace (match last_line with [] => [] | _ => [last_line] end) with (opt_t last_line)
        by (destruct last_line; reflexivity).
      f_equal. f_equal. rewrite last_items_app_ge by (destruct last_line; simpl; lia). f_equal.
      unfold last_items. rewrite recs_length.
      rewrite <- (recs_skipn (files d) (cnt (files d) bound) (Nat.min _ _)) by lia. f_equal. lia.
    - rewrite srun_bind, get_last_run. fold last_line. fold bound.
      rewrite srun_with, srun_bind, count_run.
      rewrite srun_bind, read_files_run by (apply Hpres; lia). reflexivity.
  Qed.
  Lemma read_closed size d : isclosed (fclosed d) = true -> srun (fb_read b size) d = (Fail OSError, d).
  Proof. intros Hc. unfold fb_read. rewrite srun_bind, readable_run, Hc. reflexivity. Qed.

  Lemma seen_length fs : 1 <= m ->
    length (seen fs) = Nat.min m (cnt fs m + length (opt_t (lastl fs))).
  Proof.
    intros Hm. unfold seen. rewrite app_length, recs_length.
    rewrite (cnt_min fs (m - length (opt_t (lastl fs))) m) by lia.
    destruct (cnt_spec fs m) as (C1 & _). destruct (lastl fs); simpl; lia.
  Qed.
  Lemma len_run d : 1 <= m -> srun (fb_len b) d = (Good (length (seen (files d))), d).
  Proof.
    intros Hm. rewrite seen_length by exact Hm. unfold fb_len.
    rewrite srun_bind, srun_with, count_run. rewrite srun_bind, get_last_run. cbn [srun].
    f_equal. f_equal. destruct (lastl (files d)); simpl; lia.
  Qed.
End Buffer.
