(** * FileTmp: processes on one log whose temporary files may be the same

    As FileConc.v, but two processes may use the same tmp_id (file.py:75-78; its default is
    the same for all, file.py:62), hence the same temporary file and the same lock for it. *)
From stdpp Require Import gmap.
From Coq Require Import String.
From Coq Require Import List NArith ZArith Bool Arith Lia.
From Verif Require Import PyStr Prog ProgFacts PyIO Base Spec SpecFacts LineBuf LineBufSpec LineBufFacts Conc Locks Atomic Serial Blocks
  FileBuf FileFacts FileSpec FileMore FileStmt FileProofs FileConcSpec FileConc FileTmpSpec.
Import ListNotations.
Local Open Scope prog_scope.
Local Open Scope nat_scope.

(** ** Stories in two parts *)
Section Story.
  Variable m : nat.
  Variable tmp : nat -> text.
  Definition logf1 (l : list text) (e : nat * fstep) : list text :=
    match snd e with SLog (Adds b) => last_items m (l ++ b) | SLog Wipes => [] | _ => l end.
  Definition logf (g : list (nat * fstep)) (l : list text) : list text := fold_left logf1 g l.
  Fixpoint sawl (g : list (nat * fstep)) (l : list text) : Prop :=
    match g with
    | [] => True
    | e :: g' => match snd e with SSee l' => l' = l | _ => True end /\ sawl g' (logf1 l e)
    end.
  Definition tmpf1 (t : text) (v : text) (e : nat * fstep) : text :=
    if text_eqb t (tmp (fst e)) then match snd e with SEmpty => [] | SApp r => v ++ r | _ => v end else v.
  Definition tmpf (t : text) (g : list (nat * fstep)) (v : text) : text := fold_left (tmpf1 t) g v.
  Fixpoint gott (t : text) (g : list (nat * fstep)) (v : text) : Prop :=
    match g with
    | [] => True
    | e :: g' => (if text_eqb t (tmp (fst e)) then match snd e with SGet x => x = v | _ => True end else True) /\
                 gott t g' (tmpf1 t v e)
    end.
  Lemma logf_app g g' l : logf (g ++ g') l = logf g' (logf g l).
  Proof. apply fold_left_app. Qed.
  Lemma tmpf_app t g g' v : tmpf t (g ++ g') v = tmpf t g' (tmpf t g v).
  Proof. apply fold_left_app. Qed.
  Lemma sawl_app g g' : forall l, sawl (g ++ g') l <-> sawl g l /\ sawl g' (logf g l).
  Proof. clear tmp. induction g as [|e g IH]; intros l; [cbn; tauto|]. cbn [app sawl]. rewrite IH. cbn [logf fold_left]. tauto. Qed.
  Lemma gott_app t g g' : forall v, gott t (g ++ g') v <-> gott t g v /\ gott t g' (tmpf t g v).
  Proof. clear m. induction g as [|e g IH]; intros v; [cbn; tauto|]. cbn [app gott]. rewrite IH. cbn [tmpf fold_left]. tauto. Qed.

  Lemma story_parts g : forall l v (P : list text -> (text -> text) -> Prop),
    sawl g l -> (forall e, In e g -> gott (tmp (fst e)) g (v (tmp (fst e)))) ->
    (forall v', (forall t, v' t = tmpf t g (v t)) -> P (logf g l) v') -> story m tmp g l v P.
  Proof.
    induction g as [|[i s] g IH]; intros l v P Hs Hg HP; [apply HP; reflexivity|].
    assert (Hgo : forall v1, (forall t, v1 t = tmpf1 t (v t) (i, s)) -> story m tmp g (logf1 l (i, s)) v1 P).
    { intros v1 E. apply IH.
      - apply Hs.
      - intros e He. rewrite E. apply (Hg e). right. exact He.
      - intros v' Ev. apply HP. intros t. rewrite Ev, E. reflexivity. }
    pose proof (proj1 Hs) as Hs0. pose proof (proj1 (Hg (i, s) (or_introl eq_refl))) as Hg0. cbn [fst snd] in Hs0, Hg0.
    rewrite text_eqb_refl in Hg0.
    assert (Hsame : (forall x, tmpf1 (tmp i) x (i, s) = x) -> forall t, v t = tmpf1 t (v t) (i, s)).
    { intros H t. unfold tmpf1 in *. cbn [fst snd] in *. destruct (text_eqb t (tmp i)) eqn:E; [|reflexivity].
      specialize (H (v t)). rewrite text_eqb_refl in H. auto. }
    cbn [story]. destruct s as [[b|]|l'|x| |r].
    - apply (Hgo v), Hsame. intros x. unfold tmpf1. rewrite text_eqb_refl. reflexivity.
    - apply (Hgo v), Hsame. intros x. unfold tmpf1. rewrite text_eqb_refl. reflexivity.
    - split; [exact Hs0|]. apply (Hgo v), Hsame. intros x. unfold tmpf1. rewrite text_eqb_refl. reflexivity.
    - split; [exact Hg0|]. apply (Hgo v), Hsame. intros y. unfold tmpf1. rewrite text_eqb_refl. reflexivity.
    - apply Hgo. intros t. unfold setv, tmpf1. cbn [fst snd]. reflexivity.
    - apply Hgo. intros t. unfold setv, tmpf1. cbn [fst snd]. destruct (text_eqb t (tmp i)) eqn:E; [|reflexivity].
      apply text_eqb_eq in E. subst t. reflexivity.
  Qed.

  (** Steps on the records, steps on the temporary file. *)
  Definition on_log (s : fstep) : Prop := match s with SLog _ | SSee _ => True | _ => False end.
  Lemma on_log_tmp i es : Forall on_log es -> forall t v, tmpf t (map (pair i) es) v = v /\ gott t (map (pair i) es) v.
  Proof.
    clear m. induction 1 as [|s es Hs _ IH]; intros t v; [split; [reflexivity|exact I]|]. cbn [map tmpf fold_left gott fst snd].
    assert (E : tmpf1 t v (i, s) = v) by (unfold tmpf1; cbn [fst snd]; destruct s, (text_eqb t (tmp i)); (reflexivity || destruct Hs)).
    rewrite E. destruct (IH t v) as [I1 I2]. split; [exact I1|]. split; [|exact I2].
    destruct s, (text_eqb t (tmp i)); (exact I || destruct Hs).
  Qed.
  Lemma on_tmp_log i es : Forall (fun s => ~ on_log s) es -> forall l, logf (map (pair i) es) l = l /\ sawl (map (pair i) es) l.
  Proof.
    clear tmp. induction 1 as [|s es Hs _ IH]; intros l; [split; [reflexivity|exact I]|]. cbn [map logf fold_left sawl fst snd].
    assert (E : logf1 l (i, s) = l) by (destruct s as [[]|?|?| |?]; (reflexivity || (exfalso; apply Hs; exact I))).
    rewrite E. destruct (IH l) as [I1 I2]. split; [exact I1|]. split; [|exact I2].
    destruct s as [[]|?|?| |?]; (exact I || (exfalso; apply Hs; exact I)).
  Qed.
  Lemma other_tmp i es t : t <> tmp i -> forall v, tmpf t (map (pair i) es) v = v /\ gott t (map (pair i) es) v.
  Proof.
    clear m. intros Ht. induction es as [|s es IH]; intros v; [split; [reflexivity|exact I]|]. cbn [map tmpf fold_left gott fst snd].
    assert (E : text_eqb t (tmp i) = false) by (apply text_eqb_neq; exact Ht).
    assert (E1 : tmpf1 t v (i, s) = v) by (unfold tmpf1; cbn [fst]; rewrite E; reflexivity).
    rewrite E1. destruct (IH v) as [I1 I2]. split; [exact I1|]. split; [rewrite E; exact I|exact I2].
  Qed.
End Story.

Section OneLog.
  Variables (n : nat) (name : text) (fl : nat) (bs : nat -> fbuf) (m : nat).
  Hypothesis Hol : one_log n name fl bs.
  Hypothesis Hmax : forall i, i < n -> b_max (bs i) = m.
  Variables (l0 : list text) (v0 : text -> text).
  Notation T i := (tmp_name (bs i)).
  Notation tmp := (fun i => b_tmp (bs i)).
  Notation Rk := (record_file name).

  Definition mainl (l : nat) : Prop := l = fl \/ exists i, i < n /\ l = b_tl (bs i).
  Lemma mainl_plain l : mainl l -> reent l = false.
  Proof.
    assert (H : forall x, Nat.even x = true -> reent x = false) by (intros x E; unfold reent; rewrite <- Nat.negb_even, E; reflexivity).
    intros [->|(i & Hi & ->)]; apply H; [apply (ol_fl _ _ _ _ Hol)|apply (ol_one _ _ _ _ Hol i Hi)].
  Qed.
  (** The files under a lock. *)
  Definition under (L : nat) (y : text) : Prop :=
    (L = fl /\ forall i, i < n -> y <> T i) \/ (exists i, i < n /\ L = b_tl (bs i) /\ y = T i).
  Definition eqF (L : nat) (d d' : fdir) : Prop := forall y, under L y -> files d !! y = files d' !! y.
  Instance eqF_equiv L : Equivalence (eqF L).
  Proof.
    split.
    - intros d y _. reflexivity.
    - intros d d' H y Hy. symmetry. apply H, Hy.
    - intros a b c H1 H2 y Hy. rewrite (H1 y Hy). apply H2, Hy.
  Qed.
  Lemma same_T i j : i < n -> j < n -> T i = T j <-> b_tl (bs i) = b_tl (bs j).
  Proof.
    intros Hi Hj. destruct (decide (i = j)) as [->|Hne]; [tauto|]. destruct (ol_two _ _ _ _ Hol i j Hi Hj Hne) as [_ H].
    rewrite H. destruct (ol_one _ _ _ _ Hol i Hi) as (E1 & _). destruct (ol_one _ _ _ _ Hol j Hj) as (E2 & _). split.
    - intros E. apply tmp_name_inj in E; [exact E|congruence].
    - intros E. unfold tmp_name. rewrite E1, E2, E. reflexivity.
  Qed.
  Lemma under_one L L' y : under L y -> under L' y -> L = L'.
  Proof.
    intros [[-> H1]|(i & Hi & -> & ->)] [[-> H2]|(j & Hj & -> & E)]; [reflexivity|exfalso; eapply H1; eauto|exfalso; eapply H2; eauto|].
    apply same_T; auto.
  Qed.
  Lemma rk_tmp' k j : Rk k <> T j.
  Proof. intros E. apply (rec_tmp (mkfb 0 name [] 0 0 0) k (bs j)). exact E. Qed.
  Lemma under_rk k : under fl (Rk k).
  Proof. left. split; [reflexivity|]. intros i _. apply rk_tmp'. Qed.
  Lemma under_T i : i < n -> under (b_tl (bs i)) (T i).
  Proof. intros Hi. right. exists i. auto. Qed.
  Definition openb (i : nat) (d : fdir) : bool :=
    if i <? n then match fclosed d !! b_id (bs i) with Some _ => false | None => true end else true.

  (** *** Commands *)
  Notation rg := (reg mainl eqF openb).
  Lemma openb_same i d d' : fclosed d = fclosed d' -> openb i d = openb i d'.
  Proof. unfold openb. intros ->. reflexivity. Qed.
  (** A command that reads and writes only the files [ks] under [L]. *)
  Lemma reg_files L md (ks : list text) {X} (c : fcmd X) : Forall (under L) ks ->
    (forall d1 d2, (forall k, In k ks -> files d1 !! k = files d2 !! k) ->
       fst (cexec c d1) = fst (cexec c d2) /\
       (forall k, In k ks -> files (snd (cexec c d1)) !! k = files (snd (cexec c d2)) !! k)) ->
    (forall d y, ~ In y ks -> files (snd (cexec c d)) !! y = files d !! y) ->
    (forall d, fclosed (snd (cexec c d)) = fclosed d) ->
    (md = Sh -> forall d, snd (cexec c d) = d) -> rg L md c.
  Proof.
    intros Hks H1 H2 H3 H4. rewrite List.Forall_forall in Hks. split; [|split; [|split]].
    - intros d1 d2 E. destruct (H1 d1 d2) as [G1 G2]; [intros k Hk; apply E, Hks, Hk|].
      split; [exact G1|]. intros y Hy. destruct (in_dec text_eq_dec y ks) as [Hin|Hin]; [apply G2, Hin|].
      rewrite !H2 by exact Hin. apply E, Hy.
    - intros l d Hl _ y Hy. symmetry. apply H2. intros Hin. apply Hl. eapply under_one; eauto.
    - intros i d. apply openb_same, H3.
    - intros Hm d. rewrite (H4 Hm d). reflexivity.
  Qed.
  Section File.
    Variables (L : nat) (x : text).
    Hypothesis Hx : under L x.
    Let Hxs : Forall (under L) [x].
    Proof. constructor; [exact Hx|constructor]. Qed.
    Lemma reg_isfile md : rg L md (FIsfile x).
    Proof. apply (reg_files L md [x]); auto. intros d1 d2 E. split; [|exact E]. simpl. unfold present. rewrite (E x) by (left; reflexivity). reflexivity. Qed.
    Lemma reg_readfile md : rg L md (FReadFile x).
    Proof. apply (reg_files L md [x]); auto. intros d1 d2 E. split; [|exact E]. simpl. rewrite (E x) by (left; reflexivity). reflexivity. Qed.
    Lemma reg_openw : rg L Ex (FOpenW x).
    Proof.
      apply (reg_files L Ex [x]); auto; simpl; [| |discriminate].
      - intros d1 d2 E. split; [reflexivity|]. intros k [<-|[]]. rewrite !lookup_insert. reflexivity.
      - intros d y Hy. apply lookup_insert_ne. auto.
    Qed.
    Lemma reg_opena : rg L Ex (FOpenA x).
    Proof.
      apply (reg_files L Ex [x]); auto; simpl; [| | |discriminate].
      - intros d1 d2 E. split; [reflexivity|]. intros k [<-|[]]. pose proof (E x (or_introl eq_refl)) as E0.
        destruct (files d1 !! x) eqn:E1; rewrite <- E0; simpl; [congruence|]. rewrite !lookup_insert. reflexivity.
      - intros d y Hy. destruct (files d !! x); [reflexivity|]. simpl. apply lookup_insert_ne. auto.
      - intros d. destruct (files d !! x); reflexivity.
    Qed.
    Lemma reg_put c : rg L Ex (FPut x c).
    Proof.
      apply (reg_files L Ex [x]); auto; simpl; [| |discriminate].
      - intros d1 d2 E. split; [reflexivity|]. intros k [<-|[]]. rewrite !lookup_alter, (E x) by (left; reflexivity). reflexivity.
      - intros d y Hy. apply lookup_alter_ne. auto.
    Qed.
    Lemma reg_remove : rg L Ex (FRemove x).
    Proof.
      apply (reg_files L Ex [x]); auto; simpl; [| | |discriminate].
      - intros d1 d2 E. pose proof (E x (or_introl eq_refl)) as E0. rewrite <- E0. destruct (files d1 !! x) eqn:E1; simpl; (split; [reflexivity|]);
          intros k [<-|[]]; [rewrite !lookup_delete; reflexivity|congruence].
      - intros d y Hy. destruct (files d !! x); [|reflexivity]. simpl. apply lookup_delete_ne. auto.
      - intros d. destruct (files d !! x); reflexivity.
    Qed.
  End File.
  Lemma reg_encode L md s : rg L md (FEncode s).
  Proof. apply (reg_files L md []); auto. Qed.
  Lemma under_rks ks : Forall (under fl) (map Rk ks).
  Proof. apply List.Forall_map, List.Forall_forall. intros k _. apply under_rk. Qed.
  Lemma reg_listed md ks : rg fl md (FListed (map Rk ks)).
  Proof.
    apply (reg_files fl md (map Rk ks)); auto; [apply under_rks|]. simpl. intros d1 d2 E. split; [|exact E]. f_equal.
    apply map_ext_in. intros y Hy. unfold present. rewrite (E y Hy). reflexivity.
  Qed.
  Lemma reg_rename k k1 : rg fl Ex (FRename (Rk k) (Rk k1)).
  Proof.
    apply (reg_files fl Ex [Rk k; Rk k1]); [apply (under_rks [k; k1])|..]; simpl; [| | |discriminate].
    - intros d1 d2 E. pose proof (E (Rk k) (or_introl eq_refl)) as E0. rewrite <- E0. destruct (files d1 !! Rk k) eqn:E1; simpl; (split; [reflexivity|]);
        [|intros y Hy; apply E, Hy].
      intros y Hy. destruct (decide (y = Rk k1)) as [->|H1]; [rewrite !lookup_insert; reflexivity|].
      rewrite !lookup_insert_ne by auto. destruct (decide (y = Rk k)) as [->|H2]; [rewrite !lookup_delete; reflexivity|].
      rewrite !lookup_delete_ne by auto. apply E, Hy.
    - intros d y Hy. destruct (files d !! Rk k); [|reflexivity]. simpl.
      rewrite lookup_insert_ne, lookup_delete_ne by auto. reflexivity.
    - intros d. destruct (files d !! Rk k); reflexivity.
  Qed.
  Notation pat := (name ++ dash ++ txt "*.log").
  Lemma under_pat y : glob_match pat y = true -> under fl y.
  Proof. intros H. left. split; [reflexivity|]. intros i _ ->. rewrite glob_not_tmp in H. discriminate. Qed.
  Lemma reg_glob md : rg fl md (FGlob pat).
  Proof.
    split; [|split; [|split]]; [|reflexivity..].
    intros d1 d2 E. cbn [cexec fsem fexec fst snd]. split; [|exact E]. f_equal. f_equal. f_equal. apply map_eq. intros y.
    destruct (glob_match pat y) eqn:G.
    - pose proof (E y (under_pat y G)) as Ey. apply option_eq. intros s. rewrite !map_filter_lookup_Some, Ey. reflexivity.
    - rewrite !(proj2 (map_filter_lookup_None _ _ _)); [reflexivity|right; intros s _ H; change (glob_match pat y = true) in H; congruence..].
  Qed.

  Lemma inner_put L x s : under L x -> inner mainl eqF openb L Ex (put_chars x s).
  Proof.
    intros Hx. induction s as [|c s IH]; cbn [put_chars]; [constructor|].
    apply (inner_bind mainl eqF openb L Ex (fop _)); [apply inner_one, reg_put, Hx|auto].
  Qed.

  (** *** Invariants *)
  Definition Jf (L : nat) (g : list (nat * fstep)) (d : fdir) : Prop :=
    (L = fl -> sawl m g l0 /\ records name (files d) (logf m g l0) /\ length (logf m g l0) <= m) /\
    (forall i, i < n -> L = b_tl (bs i) ->
       let t := b_tmp (bs i) in let x := tmpf tmp t g (v0 t) in
       gott tmp t g (v0 t) /\ unfinished name t (files d) = x /\ no_break x /\ utf8 x).
  Lemma T_name i : i < n -> temp_file name (b_tmp (bs i)) = T i.
  Proof. intros Hi. destruct (ol_one _ _ _ _ Hol i Hi) as (E & _). unfold tmp_name, temp_file. rewrite E. reflexivity. Qed.
  Lemma Jf_eq L g d d' : eqF L d d' -> Jf L g d -> Jf L g d'.
  Proof.
    intros E [H1 H2]. split.
    - intros EL. destruct (H1 EL) as (S1 & S2 & S3). split; [exact S1|]. split; [|exact S3]. intros k.
      rewrite <- (E (Rk k)); [apply S2|]. rewrite EL. apply under_rk.
    - intros i Hi EL. destruct (H2 i Hi EL) as (S1 & S2 & S3). split; [exact S1|]. split; [|exact S3]. cbv zeta in *. rewrite <- S2.
      unfold unfinished. rewrite (T_name i Hi). rewrite (E (T i)); [reflexivity|]. rewrite EL. apply under_T, Hi.
  Qed.
  Lemma fl_not_tl i : i < n -> b_tl (bs i) <> fl.
  Proof. intros Hi. destruct (ol_one _ _ _ _ Hol i Hi) as (_ & _ & _ & H & _). lia. Qed.

  Section One.
    Variable i : nat.
    Hypothesis Hi : i < n.
    Notation b := (bs i).
    Notation t := (b_tmp (bs i)).
    Notation bl o R p := (blk mainl eqF openb Jf i o R p).
    Let En : b_name b = name.
    Proof. apply (ol_one _ _ _ _ Hol i Hi). Qed.
    Let Efl : b_fl b = fl.
    Proof. apply (ol_one _ _ _ _ Hol i Hi). Qed.
    Let Em : b_max b = m.
    Proof. apply Hmax, Hi. Qed.
    Let Hm : 1 <= m.
    Proof. rewrite <- Em. apply (ol_one _ _ _ _ Hol i Hi). Qed.
    Let ETn : temp_file name t = T i.
    Proof. apply T_name, Hi. Qed.
    Lemma rn' k : rec_name b k = Rk k.
    Proof. unfold rec_name. rewrite En. reflexivity. Qed.
    Let Hmf : mainl fl.
    Proof. left. reflexivity. Qed.
    Let Hmt : mainl (b_tl b).
    Proof. right. exists i. auto. Qed.
    Let Hrf : reent fl = false.
    Proof. apply mainl_plain, Hmf. Qed.
    Let Hrt : reent (b_tl b) = false.
    Proof. apply mainl_plain, Hmt. Qed.
    Let Hft : b_tl b <> fl.
    Proof. apply fl_not_tl, Hi. Qed.

    Lemma stable_tmp es : Forall (fun s => ~ on_log s) es -> forall l g d, l <> b_tl b -> mainl l -> Jf l g d -> Jf l (g ++ map (pair i) es) d.
    Proof.
      intros He l g d Hl _ [H1 H2]. split.
      - intros El. destruct (H1 El) as (S1 & S2 & S3). rewrite logf_app, sawl_app.
        destruct (on_tmp_log m i es He (logf m g l0)) as [E1 E2]. rewrite E1. auto.
      - intros j Hj El. specialize (H2 j Hj El). cbv zeta in *. rewrite gott_app, tmpf_app.
        assert (Ht : b_tmp (bs j) <> t).
        { intros E. apply Hl. rewrite El. destruct (decide (j = i)) as [->|Hne]; [reflexivity|].
          apply (proj2 (ol_two _ _ _ _ Hol j i Hj Hi Hne)), E. }
        destruct (other_tmp tmp i es (b_tmp (bs j)) Ht (tmpf tmp (b_tmp (bs j)) g (v0 (b_tmp (bs j))))) as [E1 E2].
        cbv beta in E1. rewrite E1. tauto.
    Qed.
    Lemma stable_log es : Forall on_log es -> forall l g d, l <> fl -> mainl l -> Jf l g d -> Jf l (g ++ map (pair i) es) d.
    Proof.
      intros He l g d Hl _ [H1 H2]. split; [intros El; contradiction|].
      intros j Hj El. specialize (H2 j Hj El). cbv zeta in *. rewrite gott_app, tmpf_app.
      destruct (on_log_tmp tmp i es He (b_tmp (bs j)) (tmpf tmp (b_tmp (bs j)) g (v0 (b_tmp (bs j))))) as [E1 E2].
      cbv beta in E1. rewrite E1. tauto.
    Qed.
    (** The invariant of the temporary file after steps of this process. *)
    Lemma J_tmp g es d d' x : Forall (fun s => ~ on_log s) es -> Jf (b_tl b) g d ->
      (let y := unfinished name t (files d) in no_break y -> utf8 y ->
       gott tmp t (map (pair i) es) y /\ tmpf tmp t (map (pair i) es) y = x /\ no_break x /\ utf8 x) ->
      unfinished name t (files d') = x ->
      Jf (b_tl b) (g ++ map (pair i) es) d'.
    Proof.
      intros He [_ H2] Hx Hd. destruct (H2 i Hi eq_refl) as (S1 & S2 & S3 & S4). cbv zeta in *.
      rewrite S2 in Hx. destruct (Hx S3 S4) as (X1 & X2 & X3 & X4).
      split; [intros E; contradiction|]. intros j Hj El. cbv zeta.
      assert (Ej : b_tmp (bs j) = t).
      { destruct (decide (j = i)) as [->|Hne]; [reflexivity|]. apply (proj2 (ol_two _ _ _ _ Hol j i Hj Hi Hne)). congruence. }
      rewrite Ej, gott_app, tmpf_app, X2. auto.
    Qed.
    Lemma J_log g es d d' l : Forall on_log es -> Jf fl g d ->
      (let y := logf m g l0 in records name (files d) y -> length y <= m ->
       sawl m (map (pair i) es) y /\ logf m (map (pair i) es) y = l /\ records name (files d') l /\ length l <= m) ->
      Jf fl (g ++ map (pair i) es) d'.
    Proof.
      intros He [H1 _] Hl. destruct (H1 eq_refl) as (S1 & S2 & S3). destruct (Hl S2 S3) as (X1 & X2 & X3 & X4).
      split; [|intros j Hj E; exfalso; eapply fl_not_tl; eauto].
      intros _. rewrite sawl_app, logf_app, X2. auto.
    Qed.
    Notation unf d := (unfinished name t (files d)).
    Lemma last_unf d : no_break (unf d) -> lastl b (files d) = unf d.
    Proof. intros H. rewrite lastl_unf, En. apply uni_no_cr, no_break_no_cr, H. Qed.
    Lemma tmpf_one s v : tmpf tmp t (map (pair i) [s]) v = match s with SEmpty => [] | SApp r => v ++ r | _ => v end.
    Proof. cbn. unfold tmpf1. cbn [fst snd]. rewrite text_eqb_refl. reflexivity. Qed.
    Lemma gott_one s v : gott tmp t (map (pair i) [s]) v <-> match s with SGet x => x = v | _ => True end.
    Proof. cbn. rewrite text_eqb_refl. tauto. Qed.

    (** **** Sections of the temporary file *)
    Lemma blk_get o (R : list fstep -> bool -> outcome text -> Prop) :
      (forall x, no_break x -> utf8 x -> R [SGet x] o (Good x)) -> bl o R (fb_get_last_line b).
    Proof.
      intros HR. unfold fb_get_last_line.
      apply (blk_with mainl fexec_nb eqF openb Jf i o R (b_tl b) Sh _ (fun g d => [SGet (unf d)])); [exact Hmt|exact Hrt|..].
      - apply inner_bind; [apply inner_one, reg_isfile, under_T, Hi|]. intros e. destruct e; [|constructor].
        apply inner_one, reg_readfile, under_T, Hi.
      - intros g d HJ. pose proof (get_last_run b d) as Er. unfold fb_get_last_line in Er. rewrite srun_with in Er. rewrite Er. cbn [fst snd].
        destruct (proj2 HJ i Hi eq_refl) as (_ & S2 & S3 & S4). cbv zeta in *. rewrite <- S2 in S3, S4.
        split; [|split].
        + apply (J_tmp g [SGet (unf d)] d d (unf d)); [repeat constructor; tauto|exact HJ| |reflexivity]. cbv zeta. intros N1 N2.
          rewrite tmpf_one, gott_one. auto.
        + intros l g' d1 Hl1 Hl2. apply stable_tmp; [repeat constructor; tauto|exact Hl1|exact Hl2].
        + rewrite (last_unf d S3). apply HR; assumption.
    Qed.
    Lemma blk_clean o (R : list fstep -> bool -> outcome unit -> Prop) :
      R [SEmpty] o (Good tt) -> bl o R (fb_clean_last_line b).
    Proof.
      intros HR. unfold fb_clean_last_line.
      apply (blk_with mainl fexec_nb eqF openb Jf i o R (b_tl b) Ex _ (fun g d => [SEmpty])); [exact Hmt|exact Hrt|..].
      - apply inner_one, reg_openw, under_T, Hi.
      - intros g d HJ. rewrite srun_op. cbn [cexec fsem fexec fst snd]. split; [|split].
        + apply (J_tmp g [SEmpty] d _ []); [repeat constructor; tauto|exact HJ| |].
          * cbv zeta. intros _ _. rewrite tmpf_one, gott_one. repeat split; constructor.
          * cbn [files]. rewrite <- En at 1. apply unf_insert.
        + intros l g' d1 Hl1 Hl2. apply stable_tmp; [repeat constructor; tauto|exact Hl1|exact Hl2].
        + exact HR.
    Qed.
    Lemma blk_app s o (R : list fstep -> bool -> outcome nat -> Prop) : utf8 s -> no_break s ->
      R (match s with [] => [] | _ => [SApp s] end) o (Good (length s)) -> bl o R (fb_write_last_line b s).
    Proof.
      intros Hs Hb HR. unfold fb_write_last_line.
      set (es := match s with [] => [] | _ => [SApp s] end) in *.
      apply (blk_with mainl fexec_nb eqF openb Jf i o R (b_tl b) Ex _ (fun g d => es)); [exact Hmt|exact Hrt|..].
      - apply inner_bind; [apply inner_one, reg_opena, under_T, Hi|]. intros _.
        apply inner_bind; [apply inner_one, reg_encode|]. intros _. apply inner_bind; [|constructor]. apply inner_put, under_T, Hi.
      - intros g [fs cl] HJ. pose proof (write_last_run b s fs cl (proj1 (utf8_enc _) Hs)) as Er. unfold fb_write_last_line in Er.
        rewrite srun_with in Er. rewrite Er. cbn [fst snd].
        assert (He : Forall (fun s => ~ on_log s) es) by (unfold es; destruct s; repeat constructor; tauto).
        split; [|split; [|exact HR]].
        + rewrite app_tmp_unf, En. apply (J_tmp g es (mkfdir fs cl) _ (unfinished name t fs ++ s)); [exact He|exact HJ| |].
          * cbv zeta. cbn [files]. intros N1 N2. unfold es. destruct s as [|x s].
            { rewrite app_nil_r. cbn. auto. }
            rewrite tmpf_one, gott_one. repeat split; auto; [apply no_break_app; auto|apply List.Forall_app; auto].
          * cbn [files]. rewrite <- En at 1. apply unf_insert.
        + intros l g' d1 Hl1 Hl2. apply stable_tmp; [exact He|exact Hl1|exact Hl2].
    Qed.
    (** **** Sections of the records *)
    Lemma inner_count k md : inner mainl eqF openb fl md (fb_count b k).
    Proof.
      apply inner_bind; [|constructor]. apply inner_one. rewrite (map_ext (rec_name b) Rk rn'). apply reg_listed.
    Qed.
    Lemma inner_update ls : inner mainl eqF openb fl Ex
      match ls with
      | [] => Ret tt
      | _ => let lines := lastn (b_max b) ls in
             n_current <- fb_count b (b_max b) ;;
             fb_move b (Nat.min n_current (b_max b - length lines)) (length lines) ;; fb_store b lines
      end.
    Proof.
      destruct ls as [|x ls]; [constructor|]. cbv zeta. apply inner_bind; [apply inner_count|]. intros k. apply inner_bind.
      - generalize (Nat.min k (b_max b - length (lastn (b_max b) (x :: ls)))). generalize (length (lastn (b_max b) (x :: ls))).
        intros q. induction n0 as [|k0 IH]; [constructor|]. cbn [fb_move]. rewrite !rn'.
        apply inner_bind; [apply inner_one, reg_isfile, under_rk|]. intros e. apply inner_bind; [|intros _; apply inner_bind; [|auto]].
        + destruct e; [apply inner_one, reg_remove, under_rk|constructor].
        + apply inner_one, reg_rename.
      - intros _. induction (lastn (b_max b) (x :: ls)) as [|y ys IH]; [constructor|]. cbn [fb_store]. rewrite rn'.
        apply inner_bind; [apply inner_one, reg_openw, under_rk|]. intros _. apply inner_bind; [|auto].
        apply inner_bind; [apply inner_one, reg_encode|]. intros _. apply inner_bind; [|constructor]. apply inner_put, under_rk.
    Qed.
    Lemma blk_update ls o (R : list fstep -> bool -> outcome unit -> Prop) : Forall utf8 ls ->
      R [SLog (Adds ls)] o (Good tt) -> bl o R (fb_update_records b ls).
    Proof.
      intros Hu HR. unfold fb_update_records. rewrite Efl.
      apply (blk_with mainl fexec_nb eqF openb Jf i o R fl Ex _ (fun g d => [SLog (Adds ls)])); [exact Hmf|exact Hrf|apply inner_update|].
      intros g [fs cl] HJ.
      assert (He : List.Forall enc ls) by (eapply List.Forall_impl; [|exact Hu]; intros x; apply utf8_enc).
      assert (Hm' : 1 <= b_max b) by (rewrite Em; exact Hm).
      pose proof (update_run b ls fs cl Hm' He) as Er. unfold fb_update_records in Er. rewrite srun_with in Er. rewrite Er. cbn [fst snd].
      split; [|split; [|exact HR]].
      - apply (J_log g [SLog (Adds ls)] (mkfdir fs cl) _ (last_items m (logf m g l0 ++ ls))); [constructor; [exact I|constructor]|exact HJ|].
        cbv zeta. cbn [files]. intros R1 R2. split; [cbn; auto|]. split; [reflexivity|]. split.
        + pose proof (records_upd_max b fs (logf m g l0) ls Hm') as HU. rewrite Em, En in HU. apply HU; assumption.
        + rewrite last_items_length. lia.
      - intros l g' d1 Hl1 Hl2. apply stable_log; [repeat constructor|exact Hl1|exact Hl2].
    Qed.
    Lemma blk_wipe o (R : list fstep -> bool -> outcome unit -> Prop) : plain name -> R [SLog Wipes; SEmpty] o (Good tt) -> bl o R (fb_clear b).
    Proof.
      intros Hp HR. unfold fb_clear. rewrite Efl, En.
      eapply (blk_bind mainl eqF openb Jf i o (fun es o' r => es = [SLog Wipes] /\ o' = o /\ r = Good tt)).
      - apply (blk_with mainl fexec_nb eqF openb Jf i o _ fl Ex _ (fun g d => [SLog Wipes])); [exact Hmf|exact Hrf|..].
        + apply inner_op; [apply reg_glob|..].
          * intros d ns Hns. cbn [cexec fsem fexec fst] in Hns. injection Hns as <-. cbn [bind].
            assert (Hall : forall ns, (forall y, In y ns -> under fl y) -> inner mainl eqF openb fl Ex (fb_remove_all ns)).
            { induction ns as [|y ns IH]; intros H; [constructor|]. cbn [fb_remove_all].
              apply inner_bind; [apply inner_one, reg_remove, H; left; reflexivity|]. intros _. apply IH. intros z Hz. apply H. right. exact Hz. }
            apply Hall. intros y Hy. apply in_map_iff in Hy. destruct Hy as ([z s] & E & Hz). cbn [fst] in E. subst z.
            apply elem_of_list_In, elem_of_map_to_list, map_filter_lookup_Some in Hz. destruct Hz as [_ Hz]. apply under_pat, Hz.
          * intros d e He. discriminate.
        + intros g [fs cl] HJ.
          assert (Er : srun (ns <- fop (FGlob pat) ;; fb_remove_all ns) (mkfdir fs cl) = (Good tt, mkfdir (dels (globbed b fs) fs) cl)).
          { rewrite srun_bind, srun_op. cbn [cexec fsem fexec files].
            replace (map fst (map_to_list (base.filter (fun kv => glob_match pat (fst kv) = true) fs))) with (globbed b fs)
              by (unfold globbed, log_pat; rewrite En; reflexivity).
            rewrite remove_all_run; [reflexivity|apply globbed_nodup|]. intros x Hx. apply globbed_in in Hx. tauto. }
          rewrite Er. cbn [fst snd]. split; [|split; [|auto]].
          * apply (J_log g [SLog Wipes] (mkfdir fs cl) _ []); [constructor; [exact I|constructor]|exact HJ|].
            cbv zeta. intros _ _. split; [cbn; auto|]. split; [reflexivity|]. split; [|cbn; lia]. cbn [files].
            intros k. assert (Hn : fclear b fs !! Rk k = None).
            { rewrite <- rn'. apply fclear_rec. rewrite En. exact Hp. }
            unfold fclear in Hn. rewrite lookup_delete_ne in Hn by (apply not_eq_sym, rk_tmp'). rewrite Hn. destruct k; reflexivity.
          * intros l g' d1 Hl1 Hl2. apply stable_log; [repeat constructor|exact Hl1|exact Hl2].
      - intros es o' a (-> & -> & _).
        apply (blk_with mainl fexec_nb eqF openb Jf i o _ (b_tl b) Ex _ (fun g d => [SEmpty])); [exact Hmt|exact Hrt|..].
        + apply inner_bind; [apply inner_one, reg_isfile, under_T, Hi|]. intros e. destruct e; [apply inner_one, reg_remove, under_T, Hi|constructor].
        + intros g d HJ.
          assert (Er : srun (e <- fop (FIsfile (T i)) ;; if e then fop (FRemove (T i)) else Ret tt) d =
                       (Good tt, mkfdir (delete (T i) (files d)) (fclosed d))).
          { rewrite srun_bind, srun_op. cbn [cexec fsem fexec]. unfold present. destruct (files d !! T i) as [s|] eqn:E.
            - rewrite srun_op. cbn [cexec fsem fexec]. rewrite E. reflexivity.
            - cbn [srun]. rewrite delete_notin by exact E. destruct d; reflexivity. }
          rewrite Er. cbn [fst snd]. split; [|split; [|exact HR]].
          * apply (J_tmp g [SEmpty] d _ []); [repeat constructor; tauto|exact HJ| |].
            -- cbv zeta. intros _ _. rewrite tmpf_one, gott_one. repeat split; constructor.
            -- cbn [files]. unfold unfinished. rewrite ETn, lookup_delete. reflexivity.
          * intros l g' d1 Hl1 Hl2. apply stable_tmp; [repeat constructor; tauto|exact Hl1|exact Hl2].
      - intros es o' e (_ & _ & E). discriminate.
    Qed.
    Lemma blk_len_sec o (R : list fstep -> bool -> outcome nat -> Prop) :
      (forall l, length l <= m -> R [SSee l] o (Good (length l))) -> bl o R (with_lock (b_fl b) Sh (fb_count b (b_max b))).
    Proof.
      intros HR. rewrite Efl.
      apply (blk_with mainl fexec_nb eqF openb Jf i o R fl Sh _ (fun g d => [SSee (logf m g l0)])); [exact Hmf|exact Hrf|apply inner_count|].
      intros g d HJ. rewrite count_run. cbn [fst snd]. destruct (proj1 HJ eq_refl) as (S1 & S2 & S3). split; [|split].
      - apply (J_log g [SSee (logf m g l0)] d d (logf m g l0)); [constructor; [exact I|constructor]|exact HJ|]. cbv zeta. cbn. auto.
      - intros l g' d1 Hl1 Hl2. apply stable_log; [repeat constructor|exact Hl1|exact Hl2].
      - rewrite (records_cnt b (files d) (logf m g l0)) by (rewrite En; exact S2).
        rewrite Em, Nat.min_r by exact S3. apply HR, S3.
    Qed.
    Lemma blk_read_sec (f : nat -> nat) x o (R : list fstep -> bool -> outcome (list text) -> Prop) bound :
      (forall k, f k <= k) ->
      (forall l l', length l <= m -> Forall2 newlines l l' ->
         R [SSee l] o (Good (last_items (f (Nat.min bound (length l))) l' ++ x))) ->
      bl o R (with_lock (b_fl b) Sh
                (n_current <- fb_count b bound ;; res <- fb_read_files b (f n_current) ;; Ret (res ++ x))).
    Proof.
      intros Hf HR. rewrite Efl.
      apply (blk_with mainl fexec_nb eqF openb Jf i o R fl Sh _ (fun g d => [SSee (logf m g l0)])); [exact Hmf|exact Hrf|..].
      - apply inner_bind; [apply inner_count|]. intros k. apply inner_bind; [|constructor]. generalize (f k). intros q.
        induction q as [|q IH]; [constructor|]. cbn [fb_read_files]. rewrite rn'.
        apply inner_bind; [apply inner_one, reg_readfile, under_rk|]. intros y. apply inner_bind; [exact IH|constructor].
      - intros g d HJ. destruct (proj1 HJ eq_refl) as (S1 & S2 & S3).
        rewrite srun_bind, count_run. rewrite srun_bind, read_files_run.
        2: { intros k Hk. destruct (cnt_spec b (files d) bound) as (C1 & C2 & C3). destruct (C2 k) as [s ->]; [|discriminate].
             eapply Nat.lt_le_trans; [exact Hk|apply Hf]. }
        cbn [srun fst snd]. split; [|split].
        + apply (J_log g [SSee (logf m g l0)] d d (logf m g l0)); [constructor; [exact I|constructor]|exact HJ|]. cbv zeta. cbn. auto.
        + intros l g' d1 Hl1 Hl2. apply stable_log; [repeat constructor|exact Hl1|exact Hl2].
        + rewrite (records_cnt b (files d) (logf m g l0)) by (rewrite En; exact S2).
          set (l := logf m g l0) in *. set (q := f (Nat.min bound (length l))).
          assert (Hq : q <= length l) by (unfold q; etransitivity; [apply Hf|apply Nat.le_min_r]).
          replace (recs b (files d) q) with (last_items q (map uni l)).
          * apply HR; [exact S3|]. clear. induction l as [|y l IH]; constructor; [apply newlines_uni|exact IH].
          * clear -Hq S2 Hi En Hol. induction q as [|q IH].
            { unfold last_items. rewrite map_length, Nat.sub_0_r, <- (map_length uni l), skipn_all. reflexivity. }
            cbn [recs]. rewrite <- IH by lia. unfold last_items. rewrite map_length.
            assert (Hk : exists x, nth_error (rev l) q = Some x).
            { destruct (nth_error (rev l) q) eqn:E; [eauto|]. apply nth_error_None in E. rewrite rev_length in E. lia. }
            destruct Hk as [x Hk]. unfold content. rewrite rn', (S2 q : files d !! Rk q = _), Hk.
            rewrite nth_error_rev in Hk by lia. apply (map_nth_error uni) in Hk.
            rewrite (skipn_cons_nth _ _ _ Hk). replace (S (length l - S q)) with (length l - q) by lia. reflexivity.
    Qed.

    (** **** What the process owns *)
    Lemma openb_open d : openb i d = negb (isclosed b (fclosed d)).
    Proof. unfold openb, isclosed. rewrite (proj2 (Nat.ltb_lt i n) Hi). destruct (fclosed d !! b_id b); reflexivity. Qed.
    Lemma blk_closed o (R : list fstep -> bool -> outcome bool -> Prop) : R [] o (Good (negb o)) -> bl o R (fb_closed b).
    Proof.
      intros HR. eapply (blk_good mainl eqF openb Jf i o R bool (FGetClosed (b_id b)) _ _ (negb o) o); [| |apply blk_ret, HR].
      - intros d Hd. cbn [cexec fsem fexec fst snd]. split; [|exact Hd]. f_equal. rewrite <- Hd, openb_open.
        unfold isclosed. destruct (fclosed d !! b_id b); reflexivity.
      - split; [intros l d _; reflexivity|reflexivity].
    Qed.
    Lemma blk_close o (R : list fstep -> bool -> outcome unit -> Prop) : R [] false (Good tt) -> bl o R (fop (FSetClosed (b_id b))).
    Proof.
      intros HR. eapply (blk_good mainl eqF openb Jf i o R unit (FSetClosed (b_id b)) _ _ tt false); [| |apply blk_ret, HR].
      - intros d Hd. cbn [cexec fsem fexec fst snd]. split; [reflexivity|]. unfold openb. rewrite (proj2 (Nat.ltb_lt i n) Hi).
        cbn [fclosed]. rewrite lookup_insert. reflexivity.
      - split; [intros l d _ y Hy; reflexivity|]. intros j d Hj. unfold openb. destruct (Nat.ltb_spec j n) as [Hjn|]; [|reflexivity].
        cbn [cexec fsem fexec snd fclosed]. rewrite lookup_insert_ne; [reflexivity|]. apply (ol_two _ _ _ _ Hol i j Hi Hjn). auto.
    Qed.
    Lemma blk_both md md' o (R : list fstep -> bool -> outcome bool -> Prop) : R [] o (Good o) ->
      bl o R (with_lock (b_tl b) md (with_lock (b_fl b) md' (c <- fb_closed b ;; Ret (negb c)))).
    Proof.
      intros HR. apply blk_around, blk_around.
      eapply (blk_bind mainl eqF openb Jf i o (fun es o' r => es = [] /\ o' = o /\ r = Good (negb o))); [apply blk_closed; auto|..].
      - intros es o' a (-> & -> & E). injection E as ->. apply blk_ret. rewrite negb_involutive. exact HR.
      - intros es o' e (_ & _ & E). discriminate.
    Qed.

    (** **** Calls *)
    Notation bnd := (blk_bind mainl eqF openb Jf i).
    Lemma blk_write_body data : utf8 data -> bl true (fun es o' r => exists x, es = write_steps (fst (seg data)) (snd (seg data)) x /\
        o' = true /\ r = Good (write_result (fst (seg data)) (snd (seg data)))) (fb_write_body b data).
    Proof.
      intros Hu. unfold fb_write_body. cbv zeta. rewrite splitlines_single.
      destruct (enc_seg data (proj1 (utf8_enc _) Hu)) as [Hs1 Hs2]. destruct (seg_no_break data) as [Hn1 Hn2].
      assert (Hs1' : Forall utf8 (fst (seg data))) by (eapply List.Forall_impl; [|exact Hs1]; intros x; apply utf8_enc).
      apply utf8_enc in Hs2.
      destruct (single_break data) eqn:Es.
      - unfold single_break in Es. destruct (seg data) as [[|l ls] r] eqn:E; [discriminate|].
        destruct l; [|discriminate]. destruct ls; [|discriminate]. destruct r; [|discriminate]. cbn [fst snd] in *.
        eapply (bnd true (fun es o' r => exists x, es = [SGet x] /\ o' = true /\ r = Good x /\ utf8 x)).
        { apply blk_get. intros x _ Hx. eauto. }
        2: { intros es o' e (x & _ & _ & E' & _). discriminate. }
        intros es o' a (x & -> & -> & E' & Hx). injection E' as ->.
        eapply (bnd true (fun es o' r => es = [SLog (Adds [x])] /\ o' = true /\ r = Good tt)).
        { apply blk_update; [constructor; [exact Hx|constructor]|auto]. }
        2: { intros es o' e (_ & _ & E'). discriminate. }
        intros es o' a (-> & -> & _).
        eapply (bnd true (fun es o' r => es = [SEmpty] /\ o' = true /\ r = Good tt)).
        { apply blk_clean. auto. }
        2: { intros es o' e (_ & _ & E'). discriminate. }
        intros es o' a' (-> & -> & _). apply blk_ret. exists x. cbn [write_steps app write_result]. rewrite !app_nil_r. auto.
      - rewrite is_end_seg, splitlines_seg. unfold write_result. destruct (seg data) as [[|l ls] r] eqn:E; cbn [fst snd] in *.
        + destruct r as [|c r]; [cbn; apply blk_ret; exists []; auto|]. cbn [opt_line app]. 
          apply blk_app; auto. exists []. auto.
        + assert (Hgen : forall x, utf8 x -> no_break x -> x = r ->
            bl true (fun es o' r' => exists y, es = write_steps (l :: ls) r y /\ o' = true /\ r' = Good (length r))
              (match (l :: ls) ++ [x] with
               | [] => Ret 0 | [y] => fb_write_last_line b y
               | y :: rest => l0 <- fb_get_last_line b ;;
                   fb_parse_lines b (removelast ((l0 ++ y) :: rest)) ;;
                   fb_clean_last_line b ;; fb_write_last_line b (last rest []) end)).
          { intros x Hx1 Hx2 Ex. cbn [app]. destruct (ls ++ [x]) as [|y ys] eqn:Ey; [destruct ls; discriminate|].
            rewrite <- Ey. clear y ys Ey.
            eapply (bnd true (fun es o' r => exists x, es = [SGet x] /\ o' = true /\ r = Good x /\ utf8 x)).
            { apply blk_get. intros y _ Hy. eauto. }
            2: { intros es o' e (y & _ & _ & E' & _). discriminate. }
            intros es o' a (y & -> & -> & E' & Hy). injection E' as ->. rewrite removelast_cons_app, last_last.
            eapply (bnd true (fun es o' r => es = [SLog (Adds ((y ++ l) :: ls))] /\ o' = true /\ r = Good tt)).
            { apply blk_update; [|auto]. inversion Hs1'; subst. constructor; [apply List.Forall_app; auto|assumption]. }
            2: { intros es o' e (_ & _ & E'). discriminate. }
            intros es o' a (-> & -> & _).
            eapply (bnd true (fun es o' r => es = [SEmpty] /\ o' = true /\ r = Good tt)).
            { apply blk_clean. auto. }
            2: { intros es o' e (_ & _ & E'). discriminate. }
            intros es o' a' (-> & -> & _). apply blk_app; auto. exists y. subst x. unfold write_steps. cbn [app]. auto. }
          assert (Hwr : (match l with [] => match ls, r with [], [] => 1 | _, _ => length r end | _ => length r end) = length r).
          { unfold single_break in Es. rewrite E in Es. destruct l; [|reflexivity]. destruct ls; [|reflexivity]. destruct r; [discriminate|reflexivity]. }
          assert (Hwr' : match l :: ls, r with [[]], [] => 1 | _, _ => length r end = length r).
          { destruct l; [|reflexivity]. destruct ls; [|reflexivity]. destruct r; [|reflexivity]. exact Hwr. }
          rewrite Hwr'. destruct r as [|c r]; cbn [opt_line].
          * rewrite app_nil_r. apply Hgen; auto.
          * apply Hgen; auto.
    Qed.
    Lemma blk_new_line : bl true (fun es o' r => plays m XNewLine true es o' (Good VUnit) /\ o' = true /\ r = Good tt) (fb_new_line b).
    Proof.
      unfold fb_new_line.
      eapply (bnd true (fun es o' r => es = [] /\ o' = true /\ r = Good false)); [apply blk_closed; auto| |].
      2: { intros es o' e (_ & _ & E'). discriminate. }
      intros es o' a (-> & -> & E'). injection E' as ->.
      eapply (bnd true (fun es o' r => exists x, es = [SGet x] /\ o' = true /\ r = Good x)).
      { apply blk_get. intros y _ Hy. eauto. }
      2: { intros es o' e (y & _ & _ & E'). discriminate. }
      intros es o' a (x & -> & -> & E'). injection E' as ->. destruct x as [|c x].
      - apply blk_ret. cbn [app]. split; [constructor|auto].
      - eapply (bnd true); [apply blk_write_body; constructor; [unfold LF; lia|constructor]|..].
        + intros es o' a (y & -> & -> & _). apply blk_ret. rewrite seg_LF. cbn [fst snd write_steps app]. rewrite app_nil_r.
          split; [|auto]. apply pl_new. discriminate.
        + intros es o' e (y & _ & _ & E'). discriminate.
    Qed.
    Lemma blk_send_exc e : utf8 (ex_text e) ->
      bl true (fun es o' r => plays m (XSendExc e) true es o' (Good VUnit) /\ o' = true /\ r = Good tt) (fb_send_exc b e).
    Proof.
      intros Hu. unfold fb_send_exc.
      eapply (bnd true (fun es o' r => es = [] /\ o' = true /\ r = Good false)); [apply blk_closed; auto| |].
      2: { intros es o' x (_ & _ & E'). discriminate. }
      intros es o' a (-> & -> & E'). injection E' as ->. rewrite gm_str_exc.
      apply blk_update; [constructor; [apply exc_text_utf8, Hu|constructor]|]. cbn [app]. split; [|auto].
      constructor. apply exc_record_eq. reflexivity.
    Qed.

    Lemma blk_call c o : encodes name c -> bl o (fun es o' r => plays m c o es o' r) (fb_call b c).
    Proof.
      intros Hc.
      assert (Hlk : forall X (f : X -> fres) (p : prog fcmd X) r, look_answer m o c = Some (Good (f r)) ->
                bl o (fun es o' r' => es = [] /\ o' = o /\ r' = Good r) p -> bl o (fun es o' r => plays m c o es o' r) (as_fres f p)).
      { intros X f p r Hl Hp. eapply (bnd o); [exact Hp|..].
        - intros es o' a (-> & -> & E). injection E as ->. apply blk_ret. cbn [app]. constructor. exact Hl.
        - intros es o' e (_ & _ & E). discriminate. }
      assert (Hlf : forall X (f : X -> fres) (p : prog fcmd X) e, look_answer m o c = Some (Fail e) ->
                bl o (fun es o' r' => es = [] /\ o' = o /\ r' = Fail e) p -> bl o (fun es o' r => plays m c o es o' r) (as_fres f p)).
      { intros X f p e Hl Hp. eapply (bnd o); [exact Hp|..].
        - intros es o' a (_ & _ & E). discriminate.
        - intros es o' e' (-> & -> & E). injection E as ->. constructor. exact Hl. }
      assert (Has : forall X (f : X -> fres) (p : prog fcmd X),
                bl o (fun es o' r => exists a, r = Good a /\ plays m c o es o' (Good (f a))) p ->
                bl o (fun es o' r => plays m c o es o' r) (as_fres f p)).
      { intros X f p Hp. eapply (bnd o); [exact Hp|..].
        - intros es o' a (a' & E & H). injection E as ->. apply blk_ret. rewrite app_nil_r. exact H.
        - intros es o' e (a & E & _). discriminate. }
      destruct c; cbn [fb_call].
      - (* write *)
        unfold fb_write. destruct o.
        + apply Has. eapply (bnd true (fun es o' r => es = [] /\ o' = true /\ r = Good true)); [apply blk_both; auto| |].
          2: { intros es o' e (_ & _ & E'). discriminate. }
          intros es o' a (-> & -> & E'). injection E' as ->. cbn [negb app].
          eapply blk_more; [apply blk_write_body; exact Hc|]. intros es o' r (x & -> & -> & ->).
          eexists. split; [reflexivity|]. constructor. apply seg_segments.
        + apply (Hlf _ _ _ OSError); [reflexivity|].
          eapply (bnd false (fun es o' r => es = [] /\ o' = false /\ r = Good false)); [apply blk_both; auto| |].
          2: { intros es o' e (_ & _ & E'). discriminate. }
          intros es o' a (-> & -> & E'). injection E' as ->. cbn [negb app]. apply blk_raise. auto.
      - (* read *)
        unfold fb_read. destruct o.
        2: { apply (Hlf _ _ _ OSError); [destruct size; reflexivity|].
             eapply (bnd false (fun es o' r => es = [] /\ o' = false /\ r = Good false)); [apply blk_both; auto| |].
             2: { intros es o' e (_ & _ & E'). discriminate. }
             intros es o' a (-> & -> & E'). injection E' as ->. cbn [negb app]. apply blk_raise. auto. }
        apply Has. eapply (bnd true (fun es o' r => es = [] /\ o' = true /\ r = Good true)); [apply blk_both; auto| |].
        2: { intros es o' e (_ & _ & E'). discriminate. }
        intros es o' a (-> & -> & E'). injection E' as ->. cbn [negb app].
        assert (Hread : forall (f : text -> nat -> nat), (forall x k, f x k <= k) ->
          look_answer m true (XRead size) = None ->
          (forall x l', length l' <= m ->
             last_items (f x (Nat.min (match x with [] => m | _ => m - 1 end) (length l'))) l' ++ if_any x =
             last_items (want m size) (l' ++ if_any x)) ->
          bl true (fun es o' r => exists a, r = Good a /\ plays m (XRead size) true es o' (Good (VTexts a)))
            (last_line <- fb_get_last_line b ;;
             with_lock (b_fl b) Sh
               (n_current <- fb_count b (match last_line with [] => b_max b | _ => b_max b - 1 end) ;;
                res <- fb_read_files b (f last_line n_current) ;;
                Ret (res ++ match last_line with [] => [] | _ => [last_line] end)))).
        { intros f Hf Hl Hv. rewrite Em.
          eapply (bnd true (fun es o' r => exists x, es = [SGet x] /\ o' = true /\ r = Good x)).
          { apply blk_get. intros y _ Hy. eauto. }
          2: { intros es o' e (y & _ & _ & E'). discriminate. }
          intros es o' a (x & -> & -> & E'). injection E' as ->.
          apply (blk_read_sec (f x)); [apply Hf|]. intros l l' Hl1 Hl2. eexists. split; [reflexivity|].
          pose proof (Forall2_length _ _ _ Hl2) as El. rewrite El. change (match x with [] => [] | _ => [x] end) with (if_any x).
          rewrite Hv by lia. cbn [app]. apply pl_read; assumption. }
        destruct size as [z|].
        + destruct (z <=? 0)%Z eqn:Ez.
          { apply blk_ret. eexists. split; [reflexivity|]. constructor. cbn [look_answer]. rewrite Ez. reflexivity. }
          apply (Hread (fun x k => Nat.min (match x with [] => Z.to_nat z | _ => Z.to_nat z - 1 end) k)).
          * intros x k. apply Nat.le_min_r.
          * cbn [look_answer]. rewrite Ez. reflexivity.
          * intros x l' Hl'. apply Z.leb_gt in Ez. cbn [want]. unfold last_items. rewrite app_length.
            destruct x as [|c x]; cbn [if_any length].
            -- rewrite !app_nil_r. f_equal. lia.
            -- rewrite skipn_app.
               replace (length l' + 1 - Nat.min m (Z.to_nat z) - length l') with 0 by lia. cbn [skipn]. f_equal. f_equal. lia.
        + apply (Hread (fun x k => k)).
          * auto.
          * reflexivity.
          * intros x l' Hl'. cbn [want]. unfold last_items. rewrite app_length.
            destruct x as [|c x]; cbn [if_any length].
            -- rewrite !app_nil_r. f_equal. lia.
            -- rewrite skipn_app. replace (length l' + 1 - m - length l') with 0 by lia. cbn [skipn]. f_equal. f_equal. lia.
      - (* new_line *)
        destruct o.
        + apply Has. eapply blk_more; [apply blk_new_line|]. intros es o' r (H & -> & ->). exists tt. auto.
        + apply (Hlk _ _ _ tt); [reflexivity|]. unfold fb_new_line.
          eapply (bnd false (fun es o' r => es = [] /\ o' = false /\ r = Good true)); [apply blk_closed; auto| |].
          2: { intros es o' e (_ & _ & E'). discriminate. }
          intros es o' a (-> & -> & E'). injection E' as ->. apply blk_ret. auto.
      - (* clear *)
        apply Has. apply blk_wipe; [exact Hc|]. exists tt. split; [reflexivity|]. constructor.
      - (* close *)
        apply Has. unfold fb_close.
        eapply (bnd o (fun es o' r => r = Good tt /\ plays m (XClose exc) o es false (Good VUnit))).
        + destruct o.
          * destruct exc as [e|].
            -- eapply blk_more; [apply blk_send_exc; exact Hc|]. intros es o' r (H & -> & ->). split; [reflexivity|]. constructor. exact H.
            -- eapply blk_more; [apply blk_new_line|]. intros es o' r (H & -> & ->). split; [reflexivity|]. constructor. exact H.
          * assert (Hcl : bl false (fun es o' r => r = Good tt /\ plays m (XClose exc) false es false (Good VUnit))
                            match exc with None => fb_new_line b | Some e => fb_send_exc b e end).
            { destruct exc as [e|]; unfold fb_send_exc, fb_new_line;
                (eapply (bnd false (fun es o' r => es = [] /\ o' = false /\ r = Good true)); [apply blk_closed; auto| |];
                 [intros es o' a (-> & -> & E'); injection E' as ->; apply blk_ret; split; [reflexivity|]; constructor; reflexivity
                 |intros es o' e' (_ & _ & E'); discriminate]). }
            exact Hcl.
        + intros es o' a (_ & H). apply blk_close. exists tt. rewrite app_nil_r. auto.
        + intros es o' e (E & _). discriminate.
      - (* send_exc *)
        destruct o.
        + apply Has. eapply blk_more; [apply blk_send_exc; exact Hc|]. intros es o' r (H & -> & ->). exists tt. auto.
        + apply (Hlk _ _ _ tt); [reflexivity|]. unfold fb_send_exc.
          eapply (bnd false (fun es o' r => es = [] /\ o' = false /\ r = Good true)); [apply blk_closed; auto| |].
          2: { intros es o' e' (_ & _ & E'). discriminate. }
          intros es o' a (-> & -> & E'). injection E' as ->. apply blk_ret. auto.
      - apply (Hlk _ _ _ tt); [reflexivity|]. apply blk_ret. auto.
      - (* len *)
        apply Has. unfold fb_len.
        eapply (bnd o (fun es o' r => exists l, es = [SSee l] /\ o' = o /\ r = Good (length l))).
        { apply blk_len_sec. intros l _. eauto. }
        2: { intros es o' e (l & _ & _ & E'). discriminate. }
        intros es o' a (l & -> & -> & E'). injection E' as ->.
        eapply (bnd o (fun es o' r => exists x, es = [SGet x] /\ o' = o /\ r = Good x)).
        { apply blk_get. intros y _ Hy. eauto. }
        2: { intros es o' e (y & _ & _ & E'). discriminate. }
        intros es o' a (x & -> & -> & E'). injection E' as ->. apply blk_ret. eexists. split; [reflexivity|]. cbn [app]. rewrite Em.
        replace (match x with [] => length l | _ => length l + 1 end) with (length l + length (if_any x)) by (destruct x; cbn; lia).
        constructor.
      - apply (Hlk _ _ _ (negb o)); [reflexivity|]. apply blk_closed. auto.
      - apply (Hlk _ _ _ o); [reflexivity|]. apply blk_both. auto.
      - apply (Hlk _ _ _ o); [reflexivity|]. apply blk_both. auto.
      - apply (Hlk _ _ _ m); [reflexivity|]. unfold fb_maxlen. rewrite Em. apply blk_ret. auto.
      - apply (Hlf _ _ _ OSError); [reflexivity|]. apply blk_raise. auto.
      - apply (Hlf _ _ _ OSError); [reflexivity|]. apply blk_raise. auto.
      - apply (Hlk _ _ _ false); [reflexivity|]. apply blk_ret. auto.
      - apply (Hlk _ _ _ false); [reflexivity|]. apply blk_ret. auto.
    Qed.
  End One.

  Lemma wlk_call' i c : i < n -> wlk [] [] (fb_call (bs i) c).
  Proof.
    intros Hi. apply (wlk_call 1 name fl (fun _ => bs i)) with (i := 0); [|lia].
    split; [apply (ol_fl _ _ _ _ Hol)|intros _ _; apply (ol_one _ _ _ _ Hol i Hi)|lia].
  Qed.
  Lemma wlk_pool css : length css = n -> Forall (wlk [] []) (fb_pool bs css).
  Proof.
    intros Hlen. apply Forall_lookup. intros i p Hp. unfold fb_pool in Hp. rewrite list_lookup_imap in Hp.
    destruct (css !! i) as [cs|] eqn:Hcs; [|discriminate]. injection Hp as <-.
    apply wlk_thread, List.Forall_map, List.Forall_forall. intros c _. apply wlk_call'.
    apply lookup_lt_Some in Hcs. lia.
  Qed.
End OneLog.

Lemma nth_lookup {A} (l : list A) : forall i, nth_error l i = l !! i.
Proof. induction l as [|x l IH]; intros [|i]; simpl; auto. Qed.
Lemma pool_len {A} sch : forall (c c' : config (C:=fcmd) (D:=fdir) A), sched_run sch c = Some c' -> length (fst c') = length (fst c).
Proof.
  induction sch as [|i sch IH]; intros c c' H; simpl in H; [injection H as <-; reflexivity|].
  destruct (cstep i c) as [c1|] eqn:E; [|discriminate]. rewrite (IH _ _ H). unfold cstep in E.
  destruct (fst c !! i); [|discriminate]. destruct (pstep i _ (snd c)) as [[p1 s1]|]; [|discriminate].
  injection E as <-. simpl. apply insert_length.
Qed.
Lemma chain_plays m cs o es o' rs : chain (fun c o es o' r => plays m c o es o' r) cs o es o' rs -> plays_all m cs o es o' rs.
Proof. induction 1; econstructor; eauto. Qed.

Theorem tmp_account n name fl bs m css s0 sch ps' s' l v o :
  one_log n name fl bs -> (forall i, i < n -> b_max (bs i) = m) ->
  length css = n -> lks s0 = ∅ -> Forall (Forall (encodes name)) css ->
  records name (files (dat s0)) l -> length l <= m ->
  (forall i, i < n -> open_flag (bs i) (dat s0) (o i) /\
     unfinished name (b_tmp (bs i)) (files (dat s0)) = v (b_tmp (bs i)) /\ no_break (v (b_tmp (bs i))) /\ utf8 (v (b_tmp (bs i)))) ->
  sched_run sch (fb_pool bs css, s0) = Some (ps', s') -> Forall (fun p => finished p = true) ps' ->
  exists (g : list (nat * fstep)) (o' : nat -> bool),
    Forall (fun e => fst e < n) g /\
    (forall i cs, nth_error css i = Some cs -> open_flag (bs i) (dat s') (o' i) /\
       exists rs, nth_error ps' i = Some (Ret rs) /\ plays_all m cs (o i) (events_of i g) (o' i) rs) /\
    story m (fun i => b_tmp (bs i)) g l v (fun l' v' =>
      records name (files (dat s')) l' /\ length l' <= m /\
      forall i, i < n -> unfinished name (b_tmp (bs i)) (files (dat s')) = v' (b_tmp (bs i))).
Proof.
  intros Hol Hmax Hlen Hk Hc Hrec Hll Hv Hr Hfin. destruct s0 as [d0 k0]. simpl in Hk. subst k0. cbn [dat] in *.
  assert (Hflag : forall i d q, i < n -> open_flag (bs i) d q <-> openb n bs i d = q).
  { intros i d q Hi. unfold open_flag, openb, is_open, is_closed. rewrite (proj2 (Nat.ltb_lt i n) Hi).
    destruct q, (fclosed d !! b_id (bs i)) as [[]|]; split; intros H; congruence || reflexivity. }
  pose (Rf := fun (i : nat) (es : list fstep) (q : bool) (r : outcome (list (outcome fres))) =>
    match css !! i with None => False | Some cs => exists rs, r = Good rs /\ plays_all m cs (openb n bs i d0) es q rs end).
  pose proof (blocks (mainl n fl bs) fexec_nb (eqF n fl bs) (eqF_equiv n fl bs) (openb n bs)
    (Jf n name fl bs m l v) (Jf_eq n name fl bs m Hol l v) Rf sch (fb_pool bs css) d0 ps' s') as HB.
  destruct HB as (g & G1 & G2 & G3); auto.
  - eapply wlk_pool; eauto.
  - intros i p Hp. unfold fb_pool in Hp. rewrite list_lookup_imap in Hp. unfold Rf. destruct (css !! i) as [cs|] eqn:Hcs; [|discriminate].
    injection Hp as <-. assert (Hi : i < n) by (apply lookup_lt_Some in Hcs; lia).
    eapply blk_more; [apply (blk_calls _ _ _ _ (fb_call (bs i)) (fun c o es o' r => plays m c o es o' r) i cs (openb n bs i d0) [])|].
    + apply List.Forall_forall. intros c Hcc q. apply (blk_call n name fl bs m Hol Hmax l v i Hi).
      rewrite Forall_lookup in Hc. specialize (Hc i cs Hcs). rewrite List.Forall_forall in Hc. apply Hc, Hcc.
    + intros es o1 r (rs & -> & H). exists rs. split; [reflexivity|]. apply chain_plays, H.
  - intros L HL. split.
    + intros _. cbn. auto.
    + intros i Hi _. cbn. destruct (Hv i Hi) as (_ & V1 & V2 & V3). auto.
  - assert (Hlp : length ps' = n).
    { transitivity (length (fb_pool bs css)); [exact (pool_len sch _ _ Hr)|]. unfold fb_pool. rewrite imap_length. exact Hlen. }
    exists g, (fun i => openb n bs i (dat s')). rewrite Hlp in G1. split; [exact G1|]. split.
    + intros i cs Hcs. assert (Hi : i < n) by (rewrite <- Hlen; apply nth_error_Some; congruence).
      split; [apply Hflag; auto|]. destruct (nth_error ps' i) as [p|] eqn:Hp; [|apply nth_error_None in Hp; lia].
      rewrite nth_lookup in Hcs. destruct (G2 i p (eq_trans (eq_sym (nth_lookup ps' i)) Hp)) as (r & Ep & _ & HR). unfold Rf in HR. rewrite Hcs in HR.
      destruct HR as (rs & -> & H). exists rs. split; [rewrite Ep; reflexivity|].
      destruct (Hv i Hi) as (Ho & _). apply Hflag in Ho; [|exact Hi]. rewrite <- Ho. exact H.
    + destruct (G3 fl (or_introl eq_refl)) as [J1 _]. destruct (J1 eq_refl) as (S1 & S2 & S3).
      assert (Ht : forall i, i < n -> gott (fun i => b_tmp (bs i)) (b_tmp (bs i)) g (v (b_tmp (bs i))) /\
        unfinished name (b_tmp (bs i)) (files (dat s')) = tmpf (fun i => b_tmp (bs i)) (b_tmp (bs i)) g (v (b_tmp (bs i)))).
      { intros i Hi. destruct (G3 (b_tl (bs i))) as [_ J2]; [right; eauto|]. destruct (J2 i Hi eq_refl) as (T1 & T2 & _). auto. }
      apply story_parts.
      * exact S1.
      * intros e He. rewrite List.Forall_forall in G1. apply Ht, G1, He.
      * intros v' Ev. split; [exact S2|]. split; [exact S3|]. intros i Hi. rewrite Ev. apply Ht, Hi.
Qed.

Theorem tmp_no_deadlock n name fl bs css d0 sch ps' s' :
  one_log n name fl bs -> length css = n ->
  sched_run sch (fb_pool bs css, mkst d0 ∅) = Some (ps', s') ->
  (Forall (fun p => finished p = true) ps' /\ lks s' = ∅) \/ (exists i c, cstep i (ps', s') = Some c).
Proof.
  intros Hol Hlen Hr. apply (lock_progress fexec_nb (fb_pool bs css) d0 sch ps' s'); [|exact Hr].
  eapply wlk_pool; eauto.
Qed.

(** ** What follows for the lines *)
Definition effs (es : list fstep) : list effect := flat_map (fun s => match s with SLog e => [e] | _ => [] end) es.
Definition effg (g : list (nat * fstep)) : list (nat * effect) :=
  flat_map (fun e => match snd e with SLog x => [(fst e, x)] | _ => [] end) g.
Lemma effs_app a b : effs (a ++ b) = effs a ++ effs b.
Proof. apply flat_map_app. Qed.
Lemma events_effg i g : events_of i (effg g) = effs (events_of i g).
Proof.
  unfold events_of, effg, effs. induction g as [|[j s] g IH]; [reflexivity|]. cbn [flat_map List.filter fst snd].
  rewrite List.filter_app, map_app, IH. destruct s; cbn [List.filter app fst]; destruct (Nat.eqb j i); reflexivity.
Qed.
Lemma effs_write ls r x : effs (write_steps ls r x) = match ls with [] => [] | l :: ls' => [Adds ((x ++ l) :: ls')] end.
Proof. unfold write_steps. rewrite effs_app. destruct ls, r; reflexivity. Qed.
Lemma plays_logs m (G : text -> Prop) c o es o' r : plays m c o es o' r -> (forall x, In (SGet x) es -> G x) -> logs G c o (effs es) o'.
Proof.
  induction 1 as [c o r H|data ls r x H|size x l l' H H'| |x y H|e t H|es r H IH|e es r H IH|o|o x l]; intros HG.
  - apply lg_other. destruct o, c; cbn in H; (discriminate || exact I || idtac).
  - rewrite effs_write. destruct ls as [|l ls]; [econstructor; eauto|]. econstructor; [exact H|]. apply HG. left. reflexivity.
  - apply lg_other. exact I.
  - apply lg_new_none.
  - apply lg_new. apply HG. right. left. reflexivity.
  - apply lg_exc, H.
  - apply lg_close, IH, HG.
  - apply lg_close_exc, IH, HG.
  - apply lg_clear.
  - apply lg_other. destruct o; [exact I|discriminate].
Qed.
Lemma plays_all_logs m (G : text -> Prop) cs o es o' rs : plays_all m cs o es o' rs -> (forall x, In (SGet x) es -> G x) ->
  logs_all G cs o (effs es) o'.
Proof.
  induction 1 as [|c cs o es o1 r es' o2 rs H H' IH]; intros HG; [constructor|]. rewrite effs_app. econstructor.
  - eapply plays_logs; [exact H|]. intros x Hx. apply HG, in_or_app. auto.
  - apply IH. intros x Hx. apply HG, in_or_app. auto.
Qed.
Lemma plays_app m c o es o' r s : plays m c o es o' r -> In (SApp s) es -> exists data ls, c = XWrite data /\ segments data ls s.
Proof.
  induction 1 as [c o r H|data ls r x H|size x l l' H H'| |x y H|e t H|es r H IH|e es r H IH|o|o x l]; intros Hin;
    try (cbn in Hin; intuition discriminate).
  - exists data, ls. split; [reflexivity|]. unfold write_steps in Hin. apply in_app_or in Hin. destruct Hin as [Hin|Hin].
    + destruct ls; cbn in Hin; intuition discriminate.
    + destruct r; cbn in Hin; [contradiction|]. destruct Hin as [E|[]]. injection E as <-. exact H.
  - destruct (IH Hin) as (data & ls & E & _). discriminate.
  - destruct (IH Hin) as (data & ls & E & _). discriminate.
Qed.
Lemma plays_all_app m cs o es o' rs s : plays_all m cs o es o' rs -> In (SApp s) es -> exists data ls, In (XWrite data) cs /\ segments data ls s.
Proof.
  induction 1 as [|c cs o es o1 r es' o2 rs H H' IH]; intros Hin; [destruct Hin|]. apply in_app_or in Hin. destruct Hin as [Hin|Hin].
  - destruct (plays_app _ _ _ _ _ _ _ H Hin) as (data & ls & -> & Hs). exists data, ls. split; [left; reflexivity|exact Hs].
  - destruct (IH Hin) as (data & ls & Hd & Hs). exists data, ls. split; [right; exact Hd|exact Hs].
Qed.
Lemma story_glued m tmp (G : text -> text -> Prop) (v0 : text -> text) g : forall l v P,
  (forall i s, In (i, SApp s) g -> G (tmp i) s) -> (forall t, glued (G t) (v0 t) (v t)) -> story m tmp g l v P ->
  (forall i x, In (i, SGet x) g -> glued (G (tmp i)) (v0 (tmp i)) x) /\
  exists v', P (log_after m l (map snd (effg g))) v' /\ forall t, glued (G t) (v0 t) (v' t).
Proof.
  induction g as [|[i s] g IH]; intros l v P HA Hv Hs.
  - split; [intros i x []|]. exists v. auto.
  - assert (HA' : forall i s, In (i, SApp s) g -> G (tmp i) s) by (intros j y Hj; apply HA; right; exact Hj).
    destruct s as [[b|]|l'|x| |r]; cbn [story] in Hs.
    1-2: destruct (IH _ _ _ HA' Hv Hs) as [I1 I2]; split; [intros j y [E|Hj]; [discriminate|apply I1, Hj]|exact I2].
    + destruct Hs as [_ Hs]. destruct (IH _ _ _ HA' Hv Hs) as [I1 I2]. split; [intros j y [E|Hj]; [discriminate|apply I1, Hj]|exact I2].
    + destruct Hs as [-> Hs]. destruct (IH _ _ _ HA' Hv Hs) as [I1 I2]. split; [|exact I2].
      intros j y [E|Hj]; [|apply I1, Hj]. injection E as <- <-. apply Hv.
    + destruct (IH l (setv v (tmp i) []) P HA') as [I1 I2]; [|exact Hs|split; [intros j y [E|Hj]; [discriminate|apply I1, Hj]|exact I2]].
      intros t. unfold setv. destruct (text_eqb t (tmp i)); [|apply Hv]. exists [], []. repeat split; auto.
    + destruct (IH l (setv v (tmp i) (v (tmp i) ++ r)) P HA') as [I1 I2]; [|exact Hs|split; [intros j y [E|Hj]; [discriminate|apply I1, Hj]|exact I2]].
      intros t. unfold setv. destruct (text_eqb t (tmp i)) eqn:E; [|apply Hv]. apply text_eqb_eq in E. subst t.
      destruct (Hv (tmp i)) as (v' & ss & H1 & H2 & ->). exists v', (ss ++ [r]). split; [exact H1|]. split.
      * apply List.Forall_app. split; [exact H2|]. constructor; [|constructor]. apply HA. left. reflexivity.
      * rewrite concat_app. cbn [concat]. rewrite app_nil_r, app_assoc. reflexivity.
Qed.

Theorem tmp_lines n name fl bs m css s0 sch ps' s' l v o :
  one_log n name fl bs -> (forall i, i < n -> b_max (bs i) = m) ->
  length css = n -> lks s0 = ∅ -> Forall (Forall (encodes name)) css ->
  records name (files (dat s0)) l -> length l <= m ->
  (forall i, i < n -> open_flag (bs i) (dat s0) (o i) /\
     unfinished name (b_tmp (bs i)) (files (dat s0)) = v (b_tmp (bs i)) /\ no_break (v (b_tmp (bs i))) /\ utf8 (v (b_tmp (bs i)))) ->
  sched_run sch (fb_pool bs css, s0) = Some (ps', s') -> Forall (fun p => finished p = true) ps' ->
  exists (mixed : list (nat * effect)) (o' : nat -> bool),
    Forall (fun e => fst e < n) mixed /\
    (forall i cs, nth_error css i = Some cs ->
       open_flag (bs i) (dat s') (o' i) /\
       logs_all (glued (remainder bs css (b_tmp (bs i))) (v (b_tmp (bs i)))) cs (o i) (events_of i mixed) (o' i) /\
       glued (remainder bs css (b_tmp (bs i))) (v (b_tmp (bs i))) (unfinished name (b_tmp (bs i)) (files (dat s')))) /\
    records name (files (dat s')) (log_after m l (map snd mixed)).
Proof.
  intros Hol Hmax Hlen Hk Hc Hrec Hll Hv Hr Hfin.
  destruct (tmp_account n name fl bs m css s0 sch ps' s' l v o) as (g & o' & G1 & G2 & G3); auto.
  assert (Hin : forall i (s : fstep), In (i, s) g -> In s (events_of i g)).
  { intros i s H. unfold events_of. apply (in_map snd _ (i, s)). apply filter_In. split; [exact H|apply Nat.eqb_refl]. }
  assert (Hni : forall i (s : fstep), In s (events_of i g) -> In (i, s) g).
  { intros i s H. unfold events_of in H. apply in_map_iff in H. destruct H as ([j s1] & E & H). apply filter_In in H. destruct H as [H1 H2].
    cbn [fst snd] in *. apply Nat.eqb_eq in H2. subst. exact H1. }
  pose proof (fun A B => story_glued m (fun i => b_tmp (bs i)) (remainder bs css) v g l v _ A B G3) as HG.
  destruct HG as (S1 & v' & (P1 & P2 & P3) & S2).
  - intros i s H. rewrite List.Forall_forall in G1. pose proof (G1 _ H) as Hi. cbn [fst] in Hi.
    destruct (nth_error css i) as [cs|] eqn:Hcs; [|apply nth_error_None in Hcs; lia].
    destruct (G2 i cs Hcs) as (_ & rs & _ & Hp). destruct (plays_all_app _ _ _ _ _ _ s Hp (Hin _ _ H)) as (data & ls & Hd & Hs).
    exists i, cs, data, ls. auto.
  - intros t. exists (v t), []. rewrite app_nil_r. auto.
  - exists (effg g), o'. split; [|split].
    + apply List.Forall_forall. intros e He. unfold effg in He. apply in_flat_map in He. destruct He as (e0 & H0 & H).
      rewrite List.Forall_forall in G1. specialize (G1 e0 H0). destruct (snd e0); try contradiction. destruct H as [<-|[]]. exact G1.
    + intros i cs Hcs. assert (Hi : i < n) by (rewrite <- Hlen; apply nth_error_Some; congruence).
      destruct (G2 i cs Hcs) as (Ho & rs & _ & Hp). split; [exact Ho|]. split.
      * rewrite events_effg. eapply plays_all_logs; [exact Hp|]. intros x Hx. apply S1, Hni, Hx.
      * rewrite (P3 i Hi). apply S2.
    + exact P1.
Qed.
