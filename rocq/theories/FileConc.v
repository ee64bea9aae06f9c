(** * FileConc: several processes with LineFileBuffers on one log

    Each process has one buffer object, used by one thread; the buffers have the same
    path, hence the same record files and the same lock for them, and different tmp_id,
    hence different temporary files.  Shared data: the record files; owned by a process:
    its temporary file and its [__closed]. *)
From stdpp Require Import gmap.
From Coq Require Import String.
From Coq Require Import List NArith ZArith Bool Arith Lia.
From Verif Require Import PyStr Prog ProgFacts PyIO Base Spec LineBuf Conc Locks Atomic Serial FileBuf FileFacts FileSpec FileMore FileStmt SpecFacts FileProofs FileConcSpec LineBufConcProofs.
Import ListNotations.
Local Open Scope prog_scope.
Local Open Scope nat_scope.

(** The pool: process [i] makes the calls [css[i]] on its buffer [bs i]. *)
Definition fb_pool (bs : nat -> fbuf) (css : list (list fcall)) : list (prog fcmd (list (outcome fres))) :=
  imap (fun i cs => thread (map (fb_call (bs i)) cs)) css.

(** [n] processes sharing the log [name]; [fl]: the lock of the log.  In the model locks
    are numbers (even: not re-entrant); in nested acquisitions the smaller number is
    acquired later. *)
Record sharing (n : nat) (name : text) (fl : nat) (bs : nat -> fbuf) : Prop := mksharing {
  sh_fl : Nat.even fl = true;
  sh_one : forall i, i < n -> b_name (bs i) = name /\ b_fl (bs i) = fl /\ 1 <= b_max (bs i) /\
             fl < b_tl (bs i) /\ Nat.even (b_tl (bs i)) = true;
  sh_two : forall i j, i < n -> j < n -> i <> j ->
             b_tmp (bs i) <> b_tmp (bs j) /\ b_id (bs i) <> b_id (bs j) }.

Section Sharing.
  Variables (n : nat) (name : text) (fl : nat) (bs : nat -> fbuf).
  Hypothesis Hsh : sharing n name fl bs.

  Definition eqS (d d' : fdir) : Prop :=
    (forall y, (forall i, i < n -> y <> tmp_name (bs i)) -> files d !! y = files d' !! y) /\
    (forall x, (forall i, i < n -> x <> b_id (bs i)) -> fclosed d !! x = fclosed d' !! x).
  Definition eqP (i : nat) (d d' : fdir) : Prop :=
    i < n -> files d !! tmp_name (bs i) = files d' !! tmp_name (bs i) /\
             fclosed d !! b_id (bs i) = fclosed d' !! b_id (bs i).

  Instance eqS_equiv : Equivalence eqS.
  Proof.
    split.
    - intros d. split; auto.
    - intros d d' [H1 H2]. split; intros; symmetry; auto.
    - intros a b c [H1 H2] [H3 H4]. split; intros y Hy; [rewrite (H1 y Hy)|rewrite (H2 y Hy)]; auto.
  Qed.
  Instance eqP_equiv i : Equivalence (eqP i).
  Proof.
    split.
    - intros d _. auto.
    - intros d d' H Hi. destruct (H Hi). auto.
    - intros a b c H1 H2 Hi. destruct (H1 Hi) as [E1 E2]. rewrite E1, E2. apply H2, Hi.
  Qed.

  Lemma eq_all d d' : eqS d d' -> (forall i, i < n -> eqP i d d') -> d = d'.
  Proof.
    intros [H1 H2] HP. destruct d as [f c], d' as [f' c']. simpl in *. f_equal.
    - apply map_eq. intros y. destruct (decide (Forall (fun i => y <> tmp_name (bs i)) (seq 0 n))) as [H|H].
      + apply H1. intros i Hi. rewrite List.Forall_forall in H. apply H, in_seq. lia.
      + apply not_Forall_Exists in H; [|apply _]. apply Exists_exists in H. destruct H as (i & Hi & Hn).
        apply in_seq in Hi.
        destruct (decide (y = tmp_name (bs i))) as [->|Hne]; [|contradiction]. apply HP; lia.
    - apply map_eq. intros y. destruct (decide (Forall (fun i => y <> b_id (bs i)) (seq 0 n))) as [H|H].
      + apply H2. intros i Hi. rewrite List.Forall_forall in H. apply H, in_seq. lia.
      + apply not_Forall_Exists in H; [|apply _]. apply Exists_exists in H. destruct H as (i & Hi & Hn).
        apply in_seq in Hi.
        destruct (decide (y = b_id (bs i))) as [->|Hne]; [|contradiction]. apply HP; lia.
  Qed.

  Lemma tmp_ne i j : i < n -> j < n -> i <> j -> tmp_name (bs i) <> tmp_name (bs j).
  Proof.
    intros Hi Hj Hne E. destruct (sh_one _ _ _ _ Hsh i Hi) as (E1 & _). destruct (sh_one _ _ _ _ Hsh j Hj) as (E2 & _).
    apply tmp_name_inj in E; [|congruence]. destruct (sh_two _ _ _ _ Hsh i j Hi Hj Hne). contradiction.
  Qed.
  Lemma id_ne i j : i < n -> j < n -> i <> j -> b_id (bs i) <> b_id (bs j).
  Proof. intros Hi Hj Hne. apply (sh_two _ _ _ _ Hsh i j Hi Hj Hne). Qed.

  (** Everything shared is under the file lock. *)
  Definition eqL (l : nat) (d d' : fdir) : Prop := l = fl -> eqS d d'.
  Instance eqL_equiv l : Equivalence (eqL l).
  Proof.
    split.
    - intros d _. reflexivity.
    - intros d d' H E. symmetry. apply H, E.
    - intros a b c H1 H2 E. transitivity b; [apply H1, E|apply H2, E].
  Qed.

  (** ** Commands *)
  Notation T i := (tmp_name (bs i)).
  Notation privc := (priv eqL eqP).
  Notation sharc := (shar eqL eqP fl).

  (** A command that reads and writes only the file [T i]. *)
  Lemma priv_file i {X} (c : fcmd X) : i < n ->
    (forall d1 d2, files d1 !! T i = files d2 !! T i ->
       fst (cexec c d1) = fst (cexec c d2) /\ files (snd (cexec c d1)) !! T i = files (snd (cexec c d2)) !! T i) ->
    (forall d y, y <> T i -> files (snd (cexec c d)) !! y = files d !! y) ->
    (forall d, fclosed (snd (cexec c d)) = fclosed d) -> privc i c.
  Proof.
    intros Hi H1 H2 H3. split; [|split].
    - intros d1 d2 E. destruct (E Hi) as [E1 E2]. destruct (H1 d1 d2 E1) as [G1 G2].
      split; [exact G1|]. intros _. rewrite !H3. auto.
    - intros l d _. split; [|intros; rewrite H3; reflexivity]. intros y Hy. symmetry. apply H2, Hy, Hi.
    - intros d j Hj Hjn. rewrite H3. split; [|reflexivity]. symmetry. apply H2. apply tmp_ne; auto.
  Qed.
  Lemma priv_isfile i : i < n -> privc i (FIsfile (T i)).
  Proof. intros Hi. apply priv_file; auto. intros d1 d2 E. simpl. unfold present. rewrite E. auto. Qed.
  Lemma priv_readfile i : i < n -> privc i (FReadFile (T i)).
  Proof. intros Hi. apply priv_file; auto. intros d1 d2 E. simpl. rewrite E. auto. Qed.
  Lemma priv_openw i : i < n -> privc i (FOpenW (T i)).
  Proof.
    intros Hi. apply priv_file; auto; simpl.
    - intros d1 d2 E. rewrite !lookup_insert. auto.
    - intros d y Hy. apply lookup_insert_ne. auto.
  Qed.
  Lemma priv_opena i : i < n -> privc i (FOpenA (T i)).
  Proof.
    intros Hi. apply priv_file; auto; simpl.
    - intros d1 d2 E. rewrite <- E. destruct (files d1 !! T i) eqn:E1; simpl; rewrite ?lookup_insert; split; congruence.
    - intros d y Hy. destruct (files d !! T i); [reflexivity|]. simpl. apply lookup_insert_ne. auto.
    - intros d. destruct (files d !! T i); reflexivity.
  Qed.
  Lemma priv_put i c : i < n -> privc i (FPut (T i) c).
  Proof.
    intros Hi. apply priv_file; auto; simpl.
    - intros d1 d2 E. rewrite !lookup_alter, E. auto.
    - intros d y Hy. apply lookup_alter_ne. auto.
  Qed.
  Lemma priv_encode i s : i < n -> privc i (FEncode s).
  Proof. intros Hi. apply priv_file; auto. Qed.
  Lemma priv_getclosed i : i < n -> privc i (FGetClosed (b_id (bs i))).
  Proof.
    intros Hi. split; [|split].
    - intros d1 d2 E. destruct (E Hi) as [E1 E2]. simpl. rewrite E2. split; [reflexivity|]. exact E.
    - intros l d. reflexivity.
    - intros d j Hj. reflexivity.
  Qed.
  Lemma priv_setclosed i : i < n -> privc i (FSetClosed (b_id (bs i))).
  Proof.
    intros Hi. split; [|split]; simpl.
    - intros d1 d2 E. destruct (E Hi) as [E1 E2]. split; [reflexivity|]. intros _. simpl. rewrite !lookup_insert. auto.
    - intros l d _. split; [reflexivity|]. simpl. intros x Hx. rewrite lookup_insert_ne; [reflexivity|]. apply not_eq_sym, Hx, Hi.
    - intros d j Hj Hjn. simpl. split; [reflexivity|]. rewrite lookup_insert_ne; [reflexivity|]. apply id_ne; auto.
  Qed.

  (** A command that reads and writes only the record files [ks]. *)
  Notation Rk := (record_file name).
  Lemma rk_tmp k j : Rk k <> T j.
  Proof. intros E. apply (rec_tmp (mkfb 0 name [] 0 0 0) k (bs j)). exact E. Qed.
  Lemma shar_file m i (ks : list nat) {X} (c : fcmd X) :
    (forall d1 d2, (forall k, In k ks -> files d1 !! Rk k = files d2 !! Rk k) ->
       fst (cexec c d1) = fst (cexec c d2) /\
       (forall k, In k ks -> files (snd (cexec c d1)) !! Rk k = files (snd (cexec c d2)) !! Rk k)) ->
    (forall d y, ~ In y (map Rk ks) -> files (snd (cexec c d)) !! y = files d !! y) ->
    (forall d, fclosed (snd (cexec c d)) = fclosed d) ->
    (m = Sh -> forall d, snd (cexec c d) = d) -> sharc m i c.
  Proof.
    intros H1 H2 H3 H4.
    assert (Hin : forall j, ~ In (T j) (map Rk ks)).
    { intros j Hj. apply in_map_iff in Hj. destruct Hj as (k & E & _). eapply rk_tmp; eauto. }
    split; [|split; [|split]].
    - intros d1 d2 ES EP. destruct (ES eq_refl) as [ES1 ES2].
      destruct (H1 d1 d2) as [G1 G2].
      { intros k _. apply ES1. intros j _. apply rk_tmp. }
      split; [exact G1|]. split.
      + intros _. split; [|intros x Hx; rewrite !H3; apply ES2, Hx]. intros y Hy.
        destruct (in_dec text_eq_dec y (map Rk ks)) as [Hex|Hno].
        * apply in_map_iff in Hex. destruct Hex as (k & <- & Hk). apply G2, Hk.
        * rewrite !H2 by exact Hno. apply ES1, Hy.
      + intros Hi. rewrite !H3. destruct (EP Hi) as [E1 E2]. split; [|exact E2].
        rewrite !H2 by apply Hin. exact E1.
    - intros d j Hj Hjn. rewrite H3, H2 by apply Hin. auto.
    - intros Hm d. rewrite (H4 Hm d). reflexivity.
    - intros l d Hl E. contradiction.
  Qed.
  Lemma rk_inj k k' : Rk k = Rk k' -> k = k'.
  Proof. apply (rec_name_inj (mkfb 0 name [] 0 0 0)). Qed.
  Lemma shar_listed m i ks : sharc m i (FListed (map Rk ks)).
  Proof.
    apply (shar_file m i ks); auto. simpl. intros d1 d2 E. split; [|exact E]. f_equal.
    apply map_ext_in. intros y Hy. apply in_map_iff in Hy. destruct Hy as (k & <- & Hk).
    unfold present. rewrite (E k Hk). reflexivity.
  Qed.
  Lemma shar_isfile m i k : sharc m i (FIsfile (Rk k)).
  Proof.
    apply (shar_file m i [k]); auto. simpl. intros d1 d2 E. split; [|exact E]. unfold present. rewrite (E k); auto.
  Qed.
  Lemma shar_readfile m i k : sharc m i (FReadFile (Rk k)).
  Proof.
    apply (shar_file m i [k]); auto. simpl. intros d1 d2 E. split; [|exact E]. rewrite (E k); auto.
  Qed.
  Lemma shar_encode m i s : sharc m i (FEncode s).
  Proof. apply (shar_file m i []); auto. Qed.
  Lemma shar_openw i k : sharc Ex i (FOpenW (Rk k)).
  Proof.
    apply (shar_file Ex i [k]); simpl; auto; [| |discriminate].
    - intros d1 d2 E. split; [reflexivity|]. intros k' [<-|[]]. rewrite !lookup_insert. reflexivity.
    - intros d y Hy. apply lookup_insert_ne. auto.
  Qed.
  Lemma shar_put i k c : sharc Ex i (FPut (Rk k) c).
  Proof.
    apply (shar_file Ex i [k]); simpl; auto; [| |discriminate].
    - intros d1 d2 E. split; [reflexivity|]. intros k' [<-|[]]. rewrite !lookup_alter, (E k); auto.
    - intros d y Hy. apply lookup_alter_ne. auto.
  Qed.
  Lemma shar_remove i k : sharc Ex i (FRemove (Rk k)).
  Proof.
    apply (shar_file Ex i [k]); simpl; [| | |discriminate].
    - intros d1 d2 E. rewrite <- (E k) by auto. destruct (files d1 !! Rk k) eqn:E1; simpl; (split; [reflexivity|]);
        intros k' [<-|[]]; [rewrite !lookup_delete; reflexivity|apply E; auto].
    - intros d y Hy. destruct (files d !! Rk k); [|reflexivity]. simpl. apply lookup_delete_ne. auto.
    - intros d. destruct (files d !! Rk k); reflexivity.
  Qed.
  Lemma shar_rename i k k1 : sharc Ex i (FRename (Rk k) (Rk k1)).
  Proof.
    apply (shar_file Ex i [k; k1]); simpl; [| | |discriminate].
    - intros d1 d2 E. rewrite <- (E k) by auto. destruct (files d1 !! Rk k) eqn:E1; simpl; (split; [reflexivity|]);
        [|intros k' Hk; apply E, Hk].
      intros k' Hk. destruct (decide (k' = k1)) as [->|H1]; [rewrite !lookup_insert; reflexivity|].
      rewrite !lookup_insert_ne by (intros E2; apply rk_inj in E2; congruence).
      destruct (decide (k' = k)) as [->|H2]; [rewrite !lookup_delete; reflexivity|].
      rewrite !lookup_delete_ne by (intros E2; apply rk_inj in E2; congruence). apply E, Hk.
    - intros d y Hy. destruct (files d !! Rk k); [|reflexivity]. simpl.
      rewrite lookup_insert_ne, lookup_delete_ne by auto. reflexivity.
    - intros d. destruct (files d !! Rk k); reflexivity.
  Qed.

  (** clear(): what the pattern matches is not a temporary file. *)
  Notation pat := (name ++ dash ++ txt "*.log").
  Lemma shar_glob m i : sharc m i (FGlob pat).
  Proof.
    split; [|split; [|split]]; [|reflexivity..].
    intros d1 d2 ES EP. destruct (ES eq_refl) as [ES1 _]. cbn [cexec fsem fexec fst snd]. split; [|split; assumption].
    f_equal. f_equal. f_equal. apply map_eq. intros y.
    destruct (glob_match pat y) eqn:G.
    - assert (E : files d1 !! y = files d2 !! y).
      { apply ES1. intros j _ ->. rewrite glob_not_tmp in G. discriminate. }
      apply option_eq. intros s. rewrite !map_filter_lookup_Some, E. reflexivity.
    - rewrite !(proj2 (map_filter_lookup_None _ _ _)); [reflexivity|right; intros s _ H; change (glob_match pat y = true) in H; congruence..].
  Qed.
  Lemma shar_remove_any i y : (forall j, y <> T j) -> sharc Ex i (FRemove y).
  Proof.
    intros Hy. assert (Hcl : forall d, fclosed (snd (fexec (FRemove y) d)) = fclosed d).
    { intros d. cbn. destruct (files d !! y); reflexivity. }
    assert (Hfs : forall d z, files (snd (fexec (FRemove y) d)) !! z = if text_eqb z y then None else files d !! z).
    { intros d z. cbn. destruct (text_eqb z y) eqn:E.
      - apply text_eqb_eq in E. subst z. destruct (files d !! y) eqn:Ed; [apply lookup_delete|exact Ed].
      - apply text_eqb_neq in E. destruct (files d !! y); [apply lookup_delete_ne; auto|reflexivity]. }
    assert (Hne : forall j, text_eqb (T j) y = false) by (intros j; apply text_eqb_neq, not_eq_sym, Hy).
    split; [|split; [|split]]; cbn [cexec fsem].
    - intros d1 d2 ES EP. destruct (ES eq_refl) as [ES1 ES2].
      split; [cbn; rewrite (ES1 y) by (intros j _; apply Hy); destruct (files d2 !! y); reflexivity|]. split.
      + intros _. split; [|intros x Hx; rewrite !Hcl; apply ES2, Hx].
        intros z Hz. rewrite !Hfs. destruct (text_eqb z y); [reflexivity|apply ES1, Hz].
      + intros Hi. rewrite !Hcl, !Hfs, !Hne. apply EP, Hi.
    - intros d j Hj Hjn. rewrite Hcl, Hfs, Hne. auto.
    - discriminate.
    - intros l d Hl E. contradiction.
  Qed.
  Lemma priv_remove i : i < n -> privc i (FRemove (T i)).
  Proof.
    intros Hi. apply priv_file; auto; simpl.
    - intros d1 d2 E. rewrite <- E. destruct (files d1 !! T i) eqn:E1; simpl; rewrite ?lookup_delete; split; congruence.
    - intros d y Hy. destruct (files d !! T i); [|reflexivity]. simpl. apply lookup_delete_ne. auto.
    - intros d. destruct (files d !! T i); reflexivity.
  Qed.

  (** ** Methods *)
  Notation wA := (wfA eqL eqP).
  Notation wB := (wfB (eq fl) eqL eqP).
  Notation bd := (body eqL eqP fl).

  Section One.
    Variable i : nat.
    Hypothesis Hi : i < n.
    Notation b := (bs i).
    Lemma rn k : rec_name b k = Rk k.
    Proof. unfold rec_name. destruct (sh_one _ _ _ _ Hsh i Hi) as (-> & _). reflexivity. Qed.
    Lemma fl_b : b_fl b = fl.
    Proof. apply (sh_one _ _ _ _ Hsh i Hi). Qed.

    Lemma wA_get_last : wA i (fb_get_last_line b).
    Proof.
      apply wfA_with, wfA_bind; [apply wfA_one, priv_isfile, Hi|]. intros e. destruct e; [|constructor].
      apply wfA_one, priv_readfile, Hi.
    Qed.
    Lemma wA_both m : wA i (with_lock (b_tl b) m (with_lock (b_fl b) m (c <- fb_closed b ;; Ret (negb c)))).
    Proof. apply wfA_with, wfA_with, wfA_bind; [apply wfA_one, priv_getclosed, Hi|constructor]. Qed.
    Lemma wA_write_tmp s : wA i (file_write (T i) s).
    Proof.
      apply wfA_bind; [apply wfA_one, priv_encode, Hi|]. intros _. apply wfA_bind; [|constructor].
      induction s as [|c s IH]; simpl; [constructor|]. apply (wfA_bind eqL eqP i (fop _)); [apply wfA_one, priv_put, Hi|auto].
    Qed.
    Lemma wA_clean : wA i (fb_clean_last_line b).
    Proof. apply wfA_with, wfA_one, priv_openw, Hi. Qed.
    Lemma wA_write_last s : wA i (fb_write_last_line b s).
    Proof. apply wfA_with, wfA_bind; [apply wfA_one, priv_opena, Hi|]. intros _. apply wA_write_tmp. Qed.

    Lemma bd_count m k : bd m i (fb_count b k).
    Proof.
      apply body_bind; [|constructor]. apply body_one.
      rewrite (map_ext (rec_name b) Rk rn). apply shar_listed.
    Qed.
    Lemma bd_write k s : bd Ex i (file_write (Rk k) s).
    Proof.
      apply body_bind; [apply body_one, shar_encode|]. intros _. apply body_bind; [|constructor].
      induction s as [|c s IH]; simpl; [constructor|]. apply (body_bind eqL eqP fl Ex i (fop _)); [apply body_one, shar_put|auto].
    Qed.
    Lemma bd_store ls : bd Ex i (fb_store b ls).
    Proof.
      induction ls as [|l ls IH]; [constructor|]. cbn [fb_store]. rewrite rn.
      apply body_bind; [apply body_one, shar_openw|]. intros _. apply body_bind; [apply bd_write|auto].
    Qed.
    Lemma bd_move k m : bd Ex i (fb_move b k m).
    Proof.
      induction k as [|k IH]; [constructor|]. cbn [fb_move]. rewrite !rn.
      apply body_bind; [apply body_one, shar_isfile|]. intros e. apply body_bind; [|intros _; apply body_bind; [|auto]].
      - destruct e; [apply body_one, shar_remove|constructor].
      - apply body_one, shar_rename.
    Qed.
    Lemma wB_update ls : wB i (fb_update_records b ls).
    Proof.
      unfold fb_update_records. rewrite fl_b. apply wfB_with; [reflexivity|]. destruct ls; [constructor|].
      apply body_bind; [apply bd_count|]. intros k. apply body_bind; [apply bd_move|]. intros _. apply bd_store.
    Qed.
    Lemma wB_write_body s : wB i (fb_write_body b s).
    Proof.
      unfold fb_write_body. cbv zeta. destruct (_ && _).
      - apply wfB_bindA; [apply wA_get_last|]. intros l. apply wfB_bind; [apply wB_update|]. intros _.
        apply wfA_bind; [apply wA_clean|constructor].
      - destruct (if is_end_line_break s then _ else _) as [|x [|y rest]]; [constructor|apply wfB_A, wA_write_last|].
        apply wfB_bindA; [apply wA_get_last|]. intros l. apply wfB_bind; [apply wB_update|]. intros _.
        apply wfA_bind; [apply wA_clean|]. intros _. apply wA_write_last.
    Qed.
    Lemma wB_new_line : wB i (fb_new_line b).
    Proof.
      apply wfB_bindA; [apply wfA_one, priv_getclosed, Hi|]. intros c. destruct c; [constructor|].
      apply wfB_bindA; [apply wA_get_last|]. intros l. destruct l; [constructor|].
      apply wfB_bind; [apply wB_write_body|constructor].
    Qed.
    Lemma wB_send_exc e : wB i (fb_send_exc b e).
    Proof.
      apply wfB_bindA; [apply wfA_one, priv_getclosed, Hi|]. intros c. destruct c; [constructor|].
      destruct (gm_str _); [apply wB_update|constructor..].
    Qed.
    Lemma bd_read_files k : bd Sh i (fb_read_files b k).
    Proof.
      induction k as [|k IH]; [constructor|]. cbn [fb_read_files]. rewrite rn.
      apply body_bind; [apply body_one, shar_readfile|]. intros x. apply body_bind; [apply IH|constructor].
    Qed.
    Lemma wB_read sz : wB i (fb_read b sz).
    Proof.
      apply wfB_bindA; [apply wA_both|]. intros r. destruct (negb r); [constructor|].
      destruct sz as [z|]; [destruct (z <=? 0)%Z; [constructor|]|];
        (apply wfB_bindA; [apply wA_get_last|]; intros l; rewrite fl_b; apply wfB_with; [reflexivity|];
         apply body_bind; [apply bd_count|]; intros k; cbv zeta; apply body_bind; [apply bd_read_files|constructor]).
    Qed.
    Lemma bd_remove_all ns : (forall y, In y ns -> forall j, y <> T j) -> bd Ex i (fb_remove_all ns).
    Proof.
      induction ns as [|y ns IH]; intros H; [constructor|]. cbn [fb_remove_all].
      apply body_bind; [apply body_one, shar_remove_any, H; left; reflexivity|]. intros _. apply IH.
      intros z Hz. apply H. right. exact Hz.
    Qed.
    Lemma wB_clear : wB i (fb_clear b).
    Proof.
      destruct (sh_one _ _ _ _ Hsh i Hi) as (En & Efl & _). unfold fb_clear. rewrite En, Efl.
      apply wfB_bind.
      - apply wfB_with; [reflexivity|]. apply body_act; [apply shar_glob|..].
        + intros d ns Hns. cbn [cexec fsem fexec fst] in Hns. injection Hns as <-. cbn [bind]. apply bd_remove_all.
          intros y Hy j ->. apply in_map_iff in Hy. destruct Hy as ([z s] & E & Hz). cbn [fst] in E. subst z.
          apply elem_of_list_In, elem_of_map_to_list, map_filter_lookup_Some in Hz. destruct Hz as [_ Hz]. cbn [fst] in Hz.
          pose proof (glob_not_tmp name (bs j)) as Hg. change (glob_match pat (T j) = true) in Hz. congruence.
        + intros e. constructor.
      - intros _. apply wfA_with. apply wfA_bind; [apply wfA_one, priv_isfile, Hi|]. intros e.
        destruct e; [apply wfA_one, priv_remove, Hi|constructor].
    Qed.
    Lemma wB_call c : wB i (fb_call b c).
    Proof.
      destruct c; cbn [fb_call]; unfold as_fres; (apply wfB_bind; [|constructor]).
      - apply wfB_bindA; [apply wA_both|]. intros w. destruct (negb w); [constructor|]. apply wB_write_body.
      - apply wB_read.
      - apply wB_new_line.
      - apply wB_clear.
      - apply wfB_bind; [destruct exc; [apply wB_send_exc|apply wB_new_line]|]. intros _.
        apply wfA_one, priv_setclosed, Hi.
      - apply wB_send_exc.
      - constructor.
      - unfold fb_len. rewrite fl_b. apply wfB_bind; [apply wfB_with; [reflexivity|apply bd_count]|]. intros k.
        apply wfA_bind; [apply wA_get_last|constructor].
      - apply wfB_A, wfA_one, priv_getclosed, Hi.
      - apply wfB_A, wA_both.
      - apply wfB_A, wA_both.
      - constructor.
      - constructor.
      - constructor.
      - constructor.
      - constructor.
    Qed.
  End One.

  (** ** Lock discipline *)
  Lemma wlk_call i c : i < n -> wlk [] [] (fb_call (bs i) c).
  Proof.
    intros Hi. destruct (sh_one _ _ _ _ Hsh i Hi) as (_ & Efl & _ & Hlt & Hev).
    pose proof (sh_fl _ _ _ _ Hsh) as Hfl. set (b := bs i) in *.
    assert (Htl : reent (b_tl b) = false) by (unfold reent; rewrite <- Nat.negb_even, Hev; reflexivity).
    assert (Hfr : reent (b_fl b) = false) by (rewrite Efl; unfold reent; rewrite <- Nat.negb_even, Hfl; reflexivity).
    assert (Mt : forall m, may_acq [] (b_tl b) m) by (intros m; split; [auto|left; constructor]).
    assert (Mf : forall m, may_acq [] (b_fl b) m) by (intros m; split; [auto|left; constructor]).
    assert (Mtf : forall m, may_acq [b_tl b] (b_fl b) m).
    { intros m. split; [auto|]. left. constructor; [rewrite Efl; exact Hlt|constructor]. }
    assert (Hop : forall h X (c : fcmd X), wlk h h (fop c)).
    { intros h X c'. constructor; intros; constructor. }
    assert (Hget : wlk [] [] (fb_get_last_line b)).
    { apply wlk_with; [apply Mt|]. apply wlk_bind; [apply Hop|]. intros e. destruct e; [apply Hop|constructor]. }
    assert (Hboth : forall m, wlk [] [] (with_lock (b_tl b) m (with_lock (b_fl b) m (c <- fb_closed b ;; Ret (negb c))))).
    { intros m. apply wlk_with; [apply Mt|]. apply wlk_with; [apply Mtf|]. apply wlk_bind; [apply Hop|constructor]. }
    assert (Hfw : forall h f s, wlk h h (file_write f s)).
    { intros h f s. apply wlk_bind; [apply Hop|]. intros _. apply wlk_bind; [|constructor].
      induction s as [|x s IH]; cbn [put_chars]; [constructor|]. apply wlk_bind; [apply Hop|auto]. }
    assert (Hcl : wlk [] [] (fb_clean_last_line b)) by (apply wlk_with; [apply Mt|apply Hop]).
    assert (Hwl : forall s, wlk [] [] (fb_write_last_line b s)).
    { intros s. apply wlk_with; [apply Mt|]. apply wlk_bind; [apply Hop|]. intros _. apply Hfw. }
    assert (Hco : forall h k, wlk h h (fb_count b k)) by (intros h k; apply wlk_bind; [apply Hop|constructor]).
    assert (Hmv : forall h k m, wlk h h (fb_move b k m)).
    { intros h k m. induction k as [|k IH]; cbn [fb_move]; [constructor|]. apply wlk_bind; [apply Hop|]. intros e.
      apply wlk_bind; [destruct e; [apply Hop|constructor]|]. intros _. apply wlk_bind; [apply Hop|auto]. }
    assert (Hst : forall h ls, wlk h h (fb_store b ls)).
    { intros h ls. induction ls as [|x ls IH]; cbn [fb_store]; [constructor|]. apply wlk_bind; [apply Hop|]. intros _.
      apply wlk_bind; [apply Hfw|auto]. }
    assert (Hup : forall ls, wlk [] [] (fb_update_records b ls)).
    { intros ls. apply wlk_with; [apply Mf|]. destruct ls; [constructor|]. apply wlk_bind; [apply Hco|]. intros k.
      apply wlk_bind; [apply Hmv|]. intros _. apply Hst. }
    assert (Hbody : forall s, wlk [] [] (fb_write_body b s)).
    { intros s. unfold fb_write_body. cbv zeta. destruct (_ && _).
      - apply wlk_bind; [exact Hget|]. intros l. apply wlk_bind; [apply Hup|]. intros _. apply wlk_bind; [exact Hcl|constructor].
      - destruct (if is_end_line_break s then _ else _) as [|x [|y rest]]; [constructor|apply Hwl|].
        apply wlk_bind; [exact Hget|]. intros l. apply wlk_bind; [apply Hup|]. intros _.
        apply wlk_bind; [exact Hcl|]. intros _. apply Hwl. }
    assert (Hnl : wlk [] [] (fb_new_line b)).
    { apply wlk_bind; [apply Hop|]. intros c'. destruct c'; [constructor|]. apply wlk_bind; [exact Hget|]. intros l.
      destruct l; [constructor|]. apply wlk_bind; [apply Hbody|constructor]. }
    assert (Hse : forall e, wlk [] [] (fb_send_exc b e)).
    { intros e. apply wlk_bind; [apply Hop|]. intros c'. destruct c'; [constructor|].
      destruct (gm_str _); [apply Hup|constructor..]. }
    assert (Hrf : forall h k, wlk h h (fb_read_files b k)).
    { intros h k. induction k as [|k IH]; cbn [fb_read_files]; [constructor|]. apply wlk_bind; [apply Hop|]. intros x.
      apply wlk_bind; [apply IH|constructor]. }
    destruct c; cbn [fb_call]; unfold as_fres; (apply wlk_bind; [|constructor]).
    - apply wlk_bind; [apply Hboth|]. intros w. destruct (negb w); [constructor|apply Hbody].
    - apply wlk_bind; [apply Hboth|]. intros r. destruct (negb r); [constructor|].
      destruct size as [z|]; [destruct (z <=? 0)%Z; [constructor|]|];
        (apply wlk_bind; [exact Hget|]; intros l; apply wlk_with; [apply Mf|];
         apply wlk_bind; [apply Hco|]; intros k; cbv zeta; apply wlk_bind; [apply Hrf|constructor]).
    - exact Hnl.
    - apply wlk_bind.
      + apply wlk_with; [apply Mf|]. apply wlk_bind; [apply Hop|]. intros ns.
        induction ns as [|x ns IH]; cbn [fb_remove_all]; [constructor|]. apply wlk_bind; [apply Hop|auto].
      + intros _. apply wlk_with; [apply Mt|]. apply wlk_bind; [apply Hop|]. intros e. destruct e; [apply Hop|constructor].
    - apply wlk_bind; [destruct exc; auto|]. intros _. apply Hop.
    - apply Hse.
    - constructor.
    - apply wlk_bind; [apply wlk_with; [apply Mf|apply Hco]|]. intros k. apply wlk_bind; [exact Hget|constructor].
    - apply Hop.
    - apply Hboth.
    - apply Hboth.
    - constructor.
    - constructor.
    - constructor.
    - constructor.
    - constructor.
  Qed.

  (** ** Serializability *)
  Lemma fb_pool_eq css : fb_pool bs css = pool (fun i => fb_call (bs i)) css.
  Proof. reflexivity. Qed.
  Lemma fl_plain l : fl = l -> reent l = false.
  Proof. intros <-. unfold reent. rewrite <- Nat.negb_even, (sh_fl _ _ _ _ Hsh). reflexivity. Qed.

  Notation seqrun := (sseq (fun i => fb_call (bs i))).
  Lemma hist_sseq order : forall d, Forall (fun e => fst e < n) order ->
    fb_hist bs order (mkst d ∅) = (map snd (fst (seqrun order d)), mkst (snd (seqrun order d)) ∅) /\
    map fst (fst (seqrun order d)) = map fst order.
  Proof.
    induction order as [|[i c] order IH]; intros d Hf; [split; reflexivity|].
    pose proof (List.Forall_inv Hf) as Hi. pose proof (List.Forall_inv_tail Hf) as Hf'. simpl in Hi.
    destruct (sh_one _ _ _ _ Hsh i Hi) as (_ & Efl & _ & Hlt & _).
    cbn [fb_hist sseq]. rewrite (call_run (bs i) ltac:(lia) i c d ∅ (lookup_empty _) (lookup_empty _)).
    destruct (srun (fb_call (bs i) c) d) as [r d1]. cbn [fst snd].
    destruct (IH d1 Hf') as [H1 H2]. rewrite H1.
    destruct (seqrun order d1) as [rs d2]. cbn [fst snd map] in *. rewrite H2. auto.
  Qed.
  Lemma events_combine {Y} i (l : list (nat * Y)) : events_of i (combine (map fst l) (map snd l)) = events_of i l.
  Proof.
    f_equal. induction l as [|[j y] l IH]; [reflexivity|]. cbn [map combine fst snd]. rewrite IH. reflexivity.
  Qed.

  Theorem serializable css s0 sch ps' s' :
    length css = n -> lks s0 = ∅ ->
    sched_run sch (fb_pool bs css, s0) = Some (ps', s') -> Forall (fun p => finished p = true) ps' ->
    exists order : list (nat * fcall),
      order_of css order /\
      snd (fb_hist bs order s0) = s' /\
      (forall i p, nth_error ps' i = Some p ->
         p = Ret (events_of i (combine (map fst order) (fst (fb_hist bs order s0))))).
  Proof.
    intros Hlen Hk Hr Hfin. destruct s0 as [d0 k0]. simpl in Hk. subst k0. rewrite fb_pool_eq in Hr.
    destruct (serial (fun i => fb_call (bs i)) (eq fl) fl_plain fexec_nb eqL eqP eqL_equiv eqP_equiv
                (fun i c => i < n)) with (css := css) (d0 := d0) (sch := sch) (ps' := ps') (s' := s')
      as (order & H1 & H2 & H3 & H4 & H5 & H6); auto.
    - intros i c Hi. apply wB_call; assumption.
    - intros i cs Hcs. apply lookup_lt_Some in Hcs. apply List.Forall_forall. intros c _. lia.
    - intros i c Hi. apply wlk_call, Hi.
    - exists order. rewrite Hlen in *. destruct (hist_sseq order d0 H1) as [G1 G2].
      split; [split; [rewrite Hlen; exact H1|]|split].
      + intros i cs Hcs. rewrite lookup_nth_error in Hcs. apply H2, Hcs.
      + rewrite G1. cbn [snd]. destruct s' as [d' k']. cbn [dat lks] in *. subst k'. f_equal. symmetry.
        apply eq_all; [apply (H4 fl eq_refl)|auto].
      + intros i p Hp. rewrite lookup_nth_error in Hp. rewrite (H3 i p Hp), G1. cbn [fst].
        rewrite <- G2, events_combine. reflexivity.
  Qed.

  Theorem no_deadlock css d0 sch ps' s' :
    length css = n -> sched_run sch (fb_pool bs css, mkst d0 ∅) = Some (ps', s') ->
    (Forall (fun p => finished p = true) ps' /\ lks s' = ∅) \/ (exists i c', cstep i (ps', s') = Some c').
  Proof.
    intros Hlen Hr. apply (lock_progress fexec_nb (fb_pool bs css) d0 sch ps' s'); [|exact Hr].
    apply Forall_lookup. intros i p Hp. unfold fb_pool in Hp. rewrite list_lookup_imap in Hp.
    destruct (css !! i) as [cs|] eqn:Hcs; [|discriminate]. injection Hp as <-.
    apply wlk_thread, List.Forall_map, List.Forall_forall. intros c _. apply wlk_call.
    apply lookup_lt_Some in Hcs. lia.
  Qed.

  (** ** The log *)
  Section Log.
    Variable m : nat.
    Hypothesis Hmax : forall i, i < n -> b_max (bs i) = m.

    Record logst (d : fdir) (l : list text) (v : nat -> text) (o : nat -> bool) : Prop := mklogst {
      ls_rec : records name (files d) l;
      ls_len : length l <= m;
      ls_own : forall i, i < n -> fclosed d !! b_id (bs i) = (if o i then None else Some tt) /\
                 unfinished name (b_tmp (bs i)) (files d) = v i /\ no_break (v i) /\ utf8 (v i) }.

    Definition updv {X} (v : nat -> X) i x : nat -> X := fun j => if (j =? i) then x else v j.
    Lemma updv_eq {X} (v : nat -> X) i x : updv v i x i = x.
    Proof. unfold updv. rewrite Nat.eqb_refl. reflexivity. Qed.
    Lemma updv_ne {X} (v : nat -> X) i j x : j <> i -> updv v i x j = v j.
    Proof. intros H. unfold updv. apply Nat.eqb_neq in H. rewrite H. reflexivity. Qed.

    (** Changing only the records and the temporary file of process [i]. *)
    Lemma logst_upd i fs cl l v o ls r : i < n -> 1 <= m -> logst (mkfdir fs cl) l v o ->
      no_break r -> utf8 r ->
      logst (mkfdir (<[T i := r]> (upd (bs i) ls fs)) cl) (last_items m (l ++ ls)) (updv v i r) o.
    Proof.
      intros Hi Hm [H1 H2 H3] Hr1 Hr2. destruct (sh_one _ _ _ _ Hsh i Hi) as (En & _). pose proof (Hmax i Hi) as Em.
      split; cbn [files] in *.
      - rewrite <- En. apply records_tmp. rewrite <- Em. apply records_upd_max; [lia|rewrite Em; exact H2|rewrite En; exact H1].
      - rewrite last_items_length. lia.
      - intros j Hj. destruct (H3 j Hj) as (G1 & G2 & G3 & G4). destruct (sh_one _ _ _ _ Hsh j Hj) as (Enj & _).
        split; [exact G1|]. destruct (decide (j = i)) as [->|Hne].
        + rewrite updv_eq. split; [|auto]. rewrite <- En. apply unf_insert.
        + rewrite updv_ne by exact Hne. split; [|auto]. rewrite <- G2, <- Enj. unfold unfinished.
          change (temp_file (b_name (bs j)) (b_tmp (bs j))) with (T j).
          rewrite lookup_insert_ne, upd_tmp by (apply tmp_ne; auto). reflexivity.
    Qed.
    Lemma logst_ext d l v v' o : logst d l v o -> (forall i, i < n -> v i = v' i) -> logst d l v' o.
    Proof. intros [H1 H2 H3] E. split; auto. intros i Hi. rewrite <- E by exact Hi. apply H3, Hi. Qed.

    Lemma one_call i c d l v o : i < n -> o i = true -> logging c -> logst d l v o -> exists b v',
      adds c (v i) b v' /\ logst (snd (srun (fb_call (bs i) c) d)) (last_items m (l ++ b)) (updv v i v') o.
    Proof.
      intros Hi Hoi Hc Hst. destruct d as [fs cl]. pose proof Hst as [H1 H2 H3]. cbn [files] in H1.
      destruct (H3 i Hi) as (G1 & G2 & G3 & G4). cbn [files] in G2. rewrite Hoi in G1.
      destruct (sh_one _ _ _ _ Hsh i Hi) as (En & _ & Hm & _). rewrite (Hmax i Hi) in Hm.
      assert (Hm' : 1 <= b_max (bs i)) by (rewrite (Hmax i Hi); exact Hm).
      assert (Hcl : isclosed (bs i) cl = false) by (apply (is_open_flag (bs i) (mkfdir fs cl)), G1).
      assert (Hl : lastl (bs i) fs = v i).
      { rewrite lastl_unf, En, G2. apply uni_no_cr, no_break_no_cr, G3. }
      assert (Hst0 : logst (mkfdir fs cl) (last_items m (l ++ [])) (updv v i (v i)) o).
      { rewrite app_nil_r, last_items_all by exact H2. eapply logst_ext; [exact Hst|].
        intros j _. destruct (decide (j = i)) as [->|Hne]; [rewrite updv_eq|rewrite updv_ne by exact Hne]; reflexivity. }
      assert (Hsame : forall (p : prog fcmd fres), snd (srun p (mkfdir fs cl)) = mkfdir fs cl ->
        match c with XWrite _ | XNewLine | XSendExc _ | XClear | XClose _ => False | _ => True end ->
        exists b v', adds c (v i) b v' /\ logst (snd (srun p (mkfdir fs cl))) (last_items m (l ++ b)) (updv v i v') o).
      { intros p Hp Hq. exists [], (v i). split; [constructor; exact Hq|]. rewrite Hp. exact Hst0. }
      destruct c; cbn [logging] in Hc; try contradiction; cbn [fb_call].
      - (* write *)
        erewrite srun_as by (apply write_run; [exact Hm'|apply utf8_enc, Hc|rewrite Hl; apply utf8_enc, G4|exact Hcl]).
        cbn [snd]. destruct (seg_no_break data) as [Hn1 Hn2]. pose proof (seg_segments data) as Hs.
        destruct (enc_seg data (proj1 (utf8_enc _) Hc)) as [He1 He2]. unfold fwr.
        destruct (seg data) as [[|x ls] r]; cbn [fst snd] in *.
        + exists [], (v i ++ r). split; [constructor; assumption|].
          assert (Hr : logst (mkfdir (<[T i := v i ++ r]> (upd (bs i) [] fs)) cl) (last_items m (l ++ [])) (updv v i (v i ++ r)) o).
          { apply logst_upd; auto; [apply no_break_app; auto|]. apply List.Forall_app. split; [exact G4|apply utf8_enc, He2]. }
          destruct r as [|x r]; [|rewrite app_tmp_unf, En, G2; exact Hr]. rewrite (app_nil_r (v i)). exact Hst0.
        + exists ((v i ++ x) :: ls), r. split; [constructor; assumption|].
          unfold app_tmp, clean_tmp. rewrite lookup_insert, insert_insert, Hl. cbn [app].
          apply logst_upd; auto. apply utf8_enc, He2.
      - (* read *)
        apply Hsame; [|exact I]. erewrite srun_as by (apply read_run; exact Hcl). reflexivity.
      - (* new_line *)
        erewrite srun_as by (apply new_line_run; [exact Hm'|rewrite Hl; apply utf8_enc, G4|exact Hcl]).
        cbn [snd]. rewrite Hl. exists (match v i with [] => [] | _ => [v i] end), []. split; [constructor|].
        destruct (v i) as [|x s] eqn:Ev; [exact Hst0|]. unfold clean_tmp. apply logst_upd; auto; constructor.
      - (* send_exc *)
        pose proof (exc_text_utf8 e Hc) as He.
        erewrite srun_as by (apply send_exc_run; [exact Hm'|apply utf8_enc, He|exact Hcl]). cbn [snd].
        exists [exc_text e], (v i). split; [constructor; [exact Hc|apply exc_record_eq; reflexivity]|].
        assert (Hu : unfinished name (b_tmp (bs i)) (upd (bs i) [exc_text e] fs) = v i).
        { rewrite <- En, unf_upd, En. exact G2. }
        pose proof (logst_upd i fs cl l v o [exc_text e] (v i) Hi Hm Hst G3 G4) as [K1 K2 K3]. cbn [files] in *. split; cbn [files].
        + rewrite <- En in *. eapply records_ext; [exact K1|]. intros k. symmetry. apply lookup_insert_ne.
          intros E. apply (rec_tmp (bs i) k (bs i)). auto.
        + exact K2.
        + intros j Hj. destruct (K3 j Hj) as (L1 & L2 & L3 & L4). split; [exact L1|]. split; [|auto].
          destruct (decide (j = i)) as [->|Hne]; [rewrite updv_eq; exact Hu|]. rewrite <- L2. unfold unfinished.
          destruct (sh_one _ _ _ _ Hsh j Hj) as (Enj & _). rewrite <- Enj at 1 2.
          change (temp_file (b_name (bs j)) (b_tmp (bs j))) with (T j). rewrite lookup_insert_ne by (apply tmp_ne; auto). reflexivity.
      - apply Hsame; [reflexivity|exact I].
      - apply Hsame; [|exact I]. erewrite srun_as by (apply len_run; exact Hm'). reflexivity.
      - apply Hsame; [reflexivity|exact I].
      - apply Hsame; [|exact I]. erewrite srun_as by apply readable_run. reflexivity.
      - apply Hsame; [|exact I]. erewrite srun_as by apply writable_run. reflexivity.
      - apply Hsame; [reflexivity|exact I].
      - apply Hsame; [reflexivity|exact I].
      - apply Hsame; [reflexivity|exact I].
      - apply Hsame; [reflexivity|exact I].
      - apply Hsame; [reflexivity|exact I].
    Qed.

    (** A call that looks like [new_line] or [send_exc] and closes the buffer. *)
    Lemma logst_close i d l v o : i < n -> logst d l v o ->
      logst (mkfdir (files d) (<[b_id (bs i) := tt]> (fclosed d))) l v (updv o i false).
    Proof.
      intros Hi [H1 H2 H3]. split; [exact H1|exact H2|]. intros j Hj. destruct (H3 j Hj) as (G1 & G2). cbn [files fclosed].
      split; [|exact G2]. destruct (decide (j = i)) as [->|Hne].
      - rewrite updv_eq. apply lookup_insert.
      - rewrite updv_ne by exact Hne. rewrite lookup_insert_ne; [exact G1|]. apply id_ne; auto.
    Qed.
    Lemma logst_clear i fs cl l v o : i < n -> plain name -> logst (mkfdir fs cl) l v o ->
      logst (mkfdir (fclear (bs i) fs) cl) [] (updv v i []) o.
    Proof.
      intros Hi Hp [H1 H2 H3]. destruct (sh_one _ _ _ _ Hsh i Hi) as (En & _). split; cbn [files].
      - intros k. rewrite <- En in *. rewrite (fclear_rec (bs i) fs k Hp : fclear (bs i) fs !! record_file _ _ = None).
        destruct k; reflexivity.
      - cbn. lia.
      - intros j Hj. destruct (H3 j Hj) as (G1 & G2 & G3 & G4). cbn [files] in *. split; [exact G1|].
        destruct (sh_one _ _ _ _ Hsh j Hj) as (Enj & _). rewrite <- Enj in G2 |- *. unfold unfinished in *.
        change (temp_file (b_name (bs j)) (b_tmp (bs j))) with (T j) in *. rewrite fclear_lookup.
        destruct (decide (j = i)) as [->|Hne].
        + rewrite updv_eq, text_eqb_refl. split; [reflexivity|]. split; constructor.
        + rewrite updv_ne by exact Hne.
          replace (text_eqb (T j) (T i)) with false by (symmetry; apply text_eqb_neq, tmp_ne; auto).
          unfold log_pat. rewrite glob_not_tmp. auto.
    Qed.

    Definition effect_log (l : list text) (e : effect) : list text :=
      match e with Adds b => last_items m (l ++ b) | Wipes => [] end.
    Lemma any_call i c d l v o : i < n -> encodes name c -> logst d l v o -> exists e v' o',
      does c (v i, o i) e (v', o') /\
      logst (snd (srun (fb_call (bs i) c) d)) (effect_log l e) (updv v i v') (updv o i o').
    Proof.
      intros Hi Hc Hst.
      assert (Eo : forall l0 v0 d0, logst d0 l0 v0 o -> logst d0 l0 v0 (updv o i (o i))).
      { intros l0 v0 d0 [K1 K2 K3]. split; auto. intros j Hj. destruct (decide (j = i)) as [->|Hne];
          [rewrite updv_eq|rewrite updv_ne by exact Hne]; apply K3, Hj. }
      assert (Ev : forall l0 o0 d0, logst d0 l0 v o0 -> logst d0 l0 (updv v i (v i)) o0).
      { intros l0 o0 d0 H. eapply logst_ext; [exact H|]. intros j _.
        destruct (decide (j = i)) as [->|Hne]; [rewrite updv_eq|rewrite updv_ne by exact Hne]; reflexivity. }
      destruct (sh_one _ _ _ _ Hsh i Hi) as (En & _ & Hm & _).
      destruct (match c with XClear => true | _ => false end) eqn:Ec.
      { destruct c; try discriminate. cbn [encodes] in Hc. destruct d as [fs cl].
        exists Wipes, [], (o i). split; [constructor|]. cbn [fb_call]. erewrite srun_as by apply clear_run. cbn [snd effect_log].
        apply Eo. eapply logst_clear; eauto. }
      assert (Hnc : c <> XClear) by (intros ->; discriminate).
      destruct (o i) eqn:Hoi.
      2: { exists (Adds []), (v i), false. split; [constructor; exact Hnc|].
           destruct (ls_own _ _ _ _ Hst i Hi) as (G1 & _). rewrite Hoi in G1.
           rewrite closed_srun; [|exact Hm|apply is_closed_flag, G1|exact Hnc]. cbn [snd effect_log].
           rewrite app_nil_r, last_items_all by apply (ls_len _ _ _ _ Hst). apply Eo, Ev, Hst. }
      destruct (match c with XClose _ => true | _ => false end) eqn:Ecl.
      - destruct c as [| | | |exc| | | | | | | | | | |]; try discriminate.
        destruct d as [fs cl]. destruct (ls_own _ _ _ _ Hst i Hi) as (G1 & G2 & G3 & G4). rewrite Hoi in G1. cbn [files fclosed] in *.
        assert (Hcl : isclosed (bs i) cl = false) by (apply (is_open_flag (bs i) (mkfdir fs cl)), G1).
        assert (Hl : lastl (bs i) fs = v i).
        { rewrite lastl_unf, En, G2. apply uni_no_cr, no_break_no_cr, G3. }
        assert (He : enc (lastl (bs i) fs)) by (rewrite Hl; apply utf8_enc, G4).
        destruct exc as [e|]; cbn [encodes] in Hc.
        + destruct (one_call i (XSendExc e) _ l v o Hi Hoi Hc Hst) as (b & v' & Ha & Hst1).
          remember (XSendExc e) as c0 eqn:Ec0. remember (v i) as vi eqn:Evi in Ha. destruct Ha as [| | |e0 t v0 Hu Hr|c0 v0 Hc0]; try discriminate.
          2: { subst c0. destruct Hc0. }
          injection Ec0 as ->. subst v0. exists (Adds [t]), (v i), false. split; [constructor; assumption|].
          assert (Hx : enc (exc_text e)) by (apply utf8_enc, exc_text_utf8, Hc).
          cbn [fb_call]. erewrite srun_as by (apply (close_run (bs i) (Some e)); [exact Hm|exact He|intros ? [= <-]; exact Hx|exact Hcl]).
          rewrite ?Ec0 in Hst1. cbn [fb_call] in Hst1. erewrite srun_as in Hst1 by (apply send_exc_run; [exact Hm|exact Hx|exact Hcl]).
          cbn [snd effect_log] in *. apply (logst_close i _ _ _ _ Hi) in Hst1. exact Hst1.
        + destruct (one_call i XNewLine _ l v o Hi Hoi I Hst) as (b & v' & Ha & Hst1).
          remember XNewLine as c0 eqn:Ec0. remember (v i) as vi eqn:Evi in Ha. destruct Ha as [| |v0| |c0 v0 Hc0]; try discriminate.
          2: { subst c0. destruct Hc0. }
          exists (Adds (match v i with [] => [] | _ => [v i] end)), [], false. split; [constructor|].
          subst v0.
          cbn [fb_call]. erewrite srun_as by (apply (close_run (bs i) None); [exact Hm|exact He|discriminate|exact Hcl]).
          cbn [fb_call] in Hst1. erewrite srun_as in Hst1 by (apply new_line_run; [exact Hm|exact He|exact Hcl]).
          cbn [snd effect_log] in *. apply (logst_close i _ _ _ _ Hi) in Hst1. exact Hst1.
      - destruct (one_call i c d l v o Hi Hoi) as (b & v' & Ha & Hst1); [|exact Hst|].
        { destruct c; try discriminate; exact Hc. }
        exists (Adds b), v', true. split; [constructor; exact Ha|]. apply Eo. exact Hst1.
    Qed.

    Lemma seq_log order : forall d l v o, Forall (fun e => fst e < n /\ encodes name (snd e)) order -> logst d l v o ->
      exists mixed vf of,
        Forall (fun e => fst e < n) mixed /\
        (forall i, i < n -> does_all (events_of i order) (v i, o i) (events_of i mixed) (vf i, of i)) /\
        logst (snd (seqrun order d)) (log_after m l (map snd mixed)) vf of.
    Proof.
      induction order as [|[i c] order IH]; intros d l v o Hf Hst.
      - exists [], v, o. split; [constructor|]. split; [intros i Hi; constructor|]. exact Hst.
      - pose proof (List.Forall_inv Hf) as [Hi Hc]. pose proof (List.Forall_inv_tail Hf) as Hf'. cbn [fst snd] in Hi, Hc.
        destruct (any_call i c d l v o Hi Hc Hst) as (e & v' & o' & Ha & Hst1).
        destruct (IH _ _ _ _ Hf' Hst1) as (mixed & vf & of & I1 & I2 & I3).
        exists ((i, e) :: mixed), vf, of. split; [constructor; assumption|]. split.
        + intros j Hj. specialize (I2 j Hj). unfold events_of. cbn [List.filter fst].
          destruct (Nat.eqb_spec i j) as [->|Hne]; cbn [map snd].
          * econstructor; [exact Ha|]. rewrite !updv_eq in I2. exact I2.
          * rewrite !updv_ne in I2 by auto. exact I2.
        + cbn [sseq]. destruct (srun (fb_call (bs i) c) d) as [r d1]. cbn [snd] in I3.
          destruct (seqrun order d1) as [rs d2]. cbn [snd map log_after] in *. destruct e; exact I3.
    Qed.
  End Log.
End Sharing.



Theorem shared_log_all n name fl bs m css s0 sch ps' s' l v o :
  sharing n name fl bs -> (forall i, i < n -> b_max (bs i) = m) ->
  length css = n -> lks s0 = ∅ -> Forall (Forall (encodes name)) css ->
  records name (files (dat s0)) l -> length l <= m ->
  (forall i, i < n -> open_flag (bs i) (dat s0) (o i) /\ unfinished name (b_tmp (bs i)) (files (dat s0)) = v i /\
             no_break (v i) /\ utf8 (v i)) ->
  sched_run sch (fb_pool bs css, s0) = Some (ps', s') -> Forall (fun p => finished p = true) ps' ->
  exists (mixed : list (nat * effect)) (o' : nat -> bool),
    Forall (fun e => fst e < n) mixed /\
    (forall i cs, nth_error css i = Some cs ->
       open_flag (bs i) (dat s') (o' i) /\
       does_all cs (v i, o i) (events_of i mixed) (unfinished name (b_tmp (bs i)) (files (dat s')), o' i)) /\
    records name (files (dat s')) (log_after m l (map snd mixed)).
Proof.
  intros Hsh Hmax Hlen Hk Hlog Hrec Hll Hown Hr Hfin.
  destruct (serializable n name fl bs Hsh css s0 sch ps' s' Hlen Hk) as (order & [O1 O2] & H2 & _); auto.
  destruct s0 as [d0 k0]. cbn [lks dat] in *. subst k0. rewrite Hlen in O1.
  destruct (hist_sseq n name fl bs Hsh order d0 O1) as [G1 _]. rewrite G1 in H2. cbn [snd] in H2. subst s'.
  destruct (seq_log n name fl bs Hsh m Hmax order d0 l v o) as (mixed & vf & of & M1 & M2 & M3).
  - apply List.Forall_forall. intros [i c] Hin. rewrite List.Forall_forall in O1. pose proof (O1 _ Hin) as Hi. cbn [fst snd] in *.
    split; [exact Hi|]. destruct (nth_error css i) as [cs|] eqn:Ecs; [|apply nth_error_None in Ecs; lia].
    assert (Hc : In c cs).
    { rewrite <- (O2 i cs Ecs). unfold events_of. apply (in_map snd _ (i, c)). apply filter_In. split; [exact Hin|].
      apply Nat.eqb_refl. }
    rewrite List.Forall_forall in Hlog. specialize (Hlog cs (nth_error_In _ _ Ecs)).
    rewrite List.Forall_forall in Hlog. apply Hlog, Hc.
  - split; [assumption..|]. intros i Hi. destruct (Hown i Hi) as (A1 & A2). split; [|exact A2]. destruct (o i); exact A1.
  - exists mixed, of. split; [exact M1|]. cbn [dat]. split; [|apply (ls_rec _ _ _ _ _ _ _ _ M3)].
    intros i cs Hcs. rewrite <- (O2 i cs Hcs).
    assert (Hi : i < n) by (rewrite <- Hlen; apply nth_error_Some; congruence).
    destruct (ls_own _ _ _ _ _ _ _ _ M3 i Hi) as (A1 & -> & _). split; [|apply M2, Hi].
    unfold open_flag, is_open, is_closed. destruct (of i); exact A1.
Qed.

(** Without clear() and close() the batches are all that happens. *)
Lemma does_logging c v e p : logging c -> does c (v, true) e p -> exists b v', e = Adds b /\ p = (v', true) /\ adds c v b v'.
Proof.
  intros Hc H. remember (v, true) as p0 eqn:E. destruct H; try discriminate; cbn [logging] in Hc; try contradiction.
  injection E as ->. eauto.
Qed.
Lemma does_all_logging cs : forall v es v', Forall logging cs -> forall o', does_all cs (v, true) es (v', o') ->
  exists bs, es = map Adds bs /\ adds_all cs v bs v'.
Proof.
  induction cs as [|c cs IH]; intros v es v' Hl o' H.
  - remember (v, true) as p eqn:Ep. remember (v', o') as p' eqn:Ep'. remember [] as cs0 eqn:Ecs.
    destruct H as [p|]; [|discriminate]. subst p. injection Ep' as <- <-. exists []. split; [reflexivity|constructor].
  - remember (v, true) as p eqn:Ep. remember (v', o') as p' eqn:Ep'. remember (c :: cs) as cs0 eqn:Ecs.
    destruct H as [|c0 cs1 p e p1 es p2 H1 H2]; [discriminate|]. injection Ecs as -> ->. subst p p2.
    destruct (does_logging c v e p1 (List.Forall_inv Hl) H1) as (b & v1 & -> & -> & Ha).
    destruct (IH v1 es v' (List.Forall_inv_tail Hl) o' H2) as (bs & -> & Hb).
    exists (b :: bs). split; [reflexivity|]. econstructor; eauto.
Qed.
Definition batch_of (e : effect) : list text := match e with Adds b => b | Wipes => [] end.
Lemma log_after_adds m es : forall l, length l <= m -> Forall (fun e => exists b, e = Adds b) es ->
  log_after m l es = last_items m (l ++ concat (map batch_of es)).
Proof.
  induction es as [|e es IH]; intros l Hl He; cbn [log_after map concat].
  - rewrite app_nil_r, last_items_all by exact Hl. reflexivity.
  - destruct (List.Forall_inv He) as [b ->]. rewrite IH; [|rewrite last_items_length; lia|exact (List.Forall_inv_tail He)].
    cbn [batch_of]. rewrite last_items_app_idem, <- app_assoc. reflexivity.
Qed.

Theorem shared_log n name fl bs m css s0 sch ps' s' l v :
  sharing n name fl bs -> (forall i, i < n -> b_max (bs i) = m) ->
  length css = n -> lks s0 = ∅ -> Forall (Forall logging) css ->
  records name (files (dat s0)) l -> length l <= m ->
  (forall i, i < n -> is_open (bs i) (dat s0) /\ unfinished name (b_tmp (bs i)) (files (dat s0)) = v i /\
             no_break (v i) /\ utf8 (v i)) ->
  sched_run sch (fb_pool bs css, s0) = Some (ps', s') -> Forall (fun p => finished p = true) ps' ->
  exists mixed : list (nat * list text),
    Forall (fun e => fst e < n) mixed /\
    (forall i cs, nth_error css i = Some cs ->
       adds_all cs (v i) (events_of i mixed) (unfinished name (b_tmp (bs i)) (files (dat s')))) /\
    records name (files (dat s')) (last_items m (l ++ concat (map snd mixed))).
Proof.
  intros Hsh Hmax Hlen Hk Hlog Hrec Hll Hown Hr Hfin.
  destruct (shared_log_all n name fl bs m css s0 sch ps' s' l v (fun _ => true)) as (mixed & o' & M1 & M2 & M3); auto.
  { revert Hlog. apply List.Forall_impl. intros cs. apply List.Forall_impl. intros c Hc. destruct c; try contradiction; exact Hc. }
  assert (Hev : forall i, i < n -> exists cs bs', nth_error css i = Some cs /\ events_of i mixed = map Adds bs' /\
    adds_all cs (v i) bs' (unfinished name (b_tmp (bs i)) (files (dat s')))).
  { intros i Hi. destruct (nth_error css i) as [cs|] eqn:Ecs; [|apply nth_error_None in Ecs; lia].
    destruct (M2 i cs Ecs) as [_ D]. rewrite List.Forall_forall in Hlog.
    destruct (does_all_logging cs _ _ _ (Hlog cs (nth_error_In _ _ Ecs)) _ D) as (bs' & E & Ha). eauto. }
  assert (Hadd : Forall (fun e => exists b, snd e = Adds b) mixed).
  { apply List.Forall_forall. intros [i e] Hin. rewrite List.Forall_forall in M1. destruct (Hev i (M1 _ Hin)) as (cs & bs' & _ & E & _).
    assert (Hie : In e (events_of i mixed)).
    { unfold events_of. apply (in_map snd _ (i, e)). apply filter_In. split; [exact Hin|apply Nat.eqb_refl]. }
    rewrite E in Hie. apply in_map_iff in Hie. destruct Hie as (b & <- & _). exists b. reflexivity. }
  exists (map (fun e => (fst e, batch_of (snd e))) mixed). split; [|split].
  - apply List.Forall_map. exact M1.
  - intros i cs Hcs. assert (Hi : i < n) by (rewrite <- Hlen; apply nth_error_Some; congruence).
    destruct (Hev i Hi) as (cs' & bs' & Hcs' & E & Ha). assert (cs' = cs) by congruence. subst cs'.
    replace (events_of i (map (fun e => (fst e, batch_of (snd e))) mixed)) with bs'; [exact Ha|].
    assert (E2 : forall mx, events_of i (map (fun e => (fst e, batch_of (snd e))) mx) = map batch_of (events_of i mx)).
    { unfold events_of. induction mx as [|[j e] mx IH]; [reflexivity|]. cbn [map List.filter fst snd].
      destruct (Nat.eqb j i); cbn [map snd]; rewrite ?IH; reflexivity. }
    rewrite E2, E, map_map. symmetry. apply map_id.
  - rewrite log_after_adds in M3; [|exact Hll|apply List.Forall_map; exact Hadd].
    rewrite map_map in M3 |- *. exact M3.
Qed.
