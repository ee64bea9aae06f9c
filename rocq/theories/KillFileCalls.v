(** * KillFileCalls: processes that are killed while they use one log: the methods *)
From stdpp Require Import gmap.
From Coq Require Import String.
From Coq Require Import List NArith ZArith Bool Arith Lia.
From Verif Require Import PyStr Prog ProgFacts PyIO Base Spec SpecFacts LineBuf LineBufFacts FileBuf FileFacts FileMore FileSpec FileStmt FileProofs FileConcSpec FileConc CrashSpec Kill KillFacts KillRely KillFileSpec KillFile KillFileOps.
Import ListNotations.
Local Open Scope prog_scope.
Local Open Scope nat_scope.

Section Calls.
  Variables (n : nat) (name : text) (fl : nat) (bs : nat -> fbuf) (m : nat).
  Variable full : nat -> list text.
  Variable ord : Prop.
  Variable l0 : list text.
  Hypothesis Hsh : sharing n name fl bs.
  Hypothesis Hmax : forall i, i < n -> b_max (bs i) = m.
  Variable t : nat.
  Hypothesis Ht : t < n.

  Notation inv := (inv name m full ord l0).
  Notation R := (R n name fl bs m full ord l0).
  Notation ok := (ok n name fl bs m full ord l0).
  Notation T := (T n name fl bs m full ord l0 t).
  Notation stab := (stab n name fl bs m full ord l0 t).
  Notation own := (own name bs m full ord l0 t).
  Notation idle := (idle name bs m full ord l0 t).
  Notation inx := (inx name bs m full ord l0 t).
  Notation b := (bs t).
  Notation XL := [(fl, Ex)].

  Local Hint Resolve stab_own stab_idle stab_inx stab_and stab_ex cx_fl : st.

  Lemma fl_b : b_fl b = fl. Proof. apply (sh_one _ _ _ _ Hsh t Ht). Qed.
  Lemma rn' k : rec_name b k = record_file name k. Proof. exact (rn n name fl bs Hsh t k Ht). Qed.

  Definition has (g : ghost) (i : nat) : bool := match pos g !! i with Some _ => true | None => false end.
  Lemma has_present d g i : inv d g -> present (files d) (record_file name i) = has g i.
  Proof.
    intros I. pose proof (pos_content name m full ord l0 d g i I) as H. unfold present, has.
    destruct (files d !! record_file name i), (pos g !! i); try reflexivity; exfalso; [destruct H as [_ H]|destruct H as [H _]];
      discriminate (H eq_refl).
  Qed.
  Definition counted (bound : nat) (p : gmap nat nat) (c : nat) : Prop :=
    c <= bound /\ (forall i, i < c -> p !! i <> None) /\ (c < bound -> p !! c = None).
  Lemma counted_has bound g : counted bound (pos g) (count_true (map (has g) (seq 0 bound))).
  Proof.
    destruct (count_true_spec (has g) bound 0) as (H1 & H2 & H3). split; [exact H1|]. split.
    - intros i Hi. specialize (H2 i ltac:(lia)). unfold has in H2. destruct (pos g !! i); discriminate.
    - intros Hc. specialize (H3 Hc). unfold has in H3. simpl in H3. destruct (pos g !! count_true _); [discriminate|reflexivity].
  Qed.
  Lemma listed_has bound d g : inv d g ->
    fexec (FListed (map (rec_name b) (seq 0 bound))) d = (Good (map (has g) (seq 0 bound)), d).
  Proof.
    intros I. simpl. rewrite map_map. do 2 f_equal. apply map_ext. intros i. rewrite rn'. apply has_present, I.
  Qed.

  Definition begun (g : ghost) : Prop := t ∈ flag g /\ frozen g = length (hist g) /\
    (ord -> forall x e, pos g !! x = Some e -> x + e + 1 < total g).

  Lemma T_count_x D v :
    T XL (idle D v) (fb_count b m) (fun r => inx D v (fun g => begun g /\ exists c, r = Good c /\ counted m (pos g) c)).
  Proof.
    unfold fb_count. eapply T_bind with (Qm := fun r => inx D v (fun g => begun g /\ r = Good (map (has g) (seq 0 m)))).
    - apply T_op; [auto with st|auto with st|]. intros d g [Ho Hf]. pose proof (ow_inv _ _ _ _ _ _ _ _ _ _ _ Ho) as I.
      exists (g_begin t g). rewrite (listed_has m d g I). cbn [fst snd]. 
      assert (Hok : ok t XL d g d (g_begin t g)) by (apply ok_begin; auto with st). split; [exact Hok|].
      pose proof (o_inv _ _ _ _ _ _ _ _ _ _ _ _ _ _ Hok I) as I'.
      destruct Ho as [O1 O2 O3 O4 O5 O6]. split; [split; auto|]. split; [|reflexivity]. split; [simpl; set_solver|].
      split; [reflexivity|]. intros Hord x e E. destruct (j_ord _ _ _ _ _ _ _ I Hord) as (_ & Hb & _).
      specialize (Hb x e E). unfold total. simpl. rewrite size_union by set_solver. rewrite size_singleton. unfold total in Hb. lia.
    - intros l. apply T_ret; [auto with st|]. intros d g [Ho [Hb E]]. split; [exact Ho|]. split; [exact Hb|].
      injection E as ->. eexists. split; [reflexivity|]. apply counted_has.
    - intros e d g [_ [_ E]]. discriminate.
  Qed.

  (** The loop that renames the files; [k] files are still to be moved by [nl]. *)
  Definition moving (k nl : nat) (g : ghost) : Prop :=
    t ∈ flag g /\ frozen g = length (hist g) /\ k + nl <= m /\ 1 <= nl /\ (forall i, i < k -> pos g !! i <> None) /\
    (ord -> nl = 1 /\ (forall y e, pos g !! y = Some e -> y <= k -> y + e + 1 < total g) /\ (pos g !! k = None \/ k + 1 = m)).

  Lemma T_move D v nl : forall k,
    T XL (inx D v (moving k nl)) (fb_move b k nl) (fun r => inx D v (fun g => r = Good tt /\ moving 0 nl g)).
  Proof.
    induction k as [|k IH]; cbn [fb_move].
    { apply T_ret; [auto with st|]. intros d g [Ho Hm]. split; auto. }
    eapply T_bind with (Qm := fun r => inx D v (fun g => moving (Datatypes.S k) nl g /\ r = Good (has g (k + nl)))).
    { apply T_look; [auto with st|auto with st|reflexivity|]. intros d g [Ho Hm]. split; [exact Ho|]. split; [exact Hm|].
      cbn [fexec fst]. rewrite rn', (has_present d g); [reflexivity|]. apply Ho. }
    2: { intros e d g [_ [_ E]]. discriminate. }
    intros e. eapply T_bind with (Qm := fun r => inx D v (fun g => moving (Datatypes.S k) nl g /\ r = Good tt /\ pos g !! (k + nl) = None)).
    { destruct e.
      - apply T_op; [auto with st|auto with st|]. intros d g [Ho [Hm E]]. injection E as E.
        pose proof (ow_inv _ _ _ _ _ _ _ _ _ _ _ Ho) as I. cbn [fexec]. rewrite rn'.
        destruct (files d !! record_file name (k + nl)) as [s|] eqn:Es.
        2: { apply (pos_content name m full ord l0 d g _ I) in Es. unfold has in E. rewrite Es in E. discriminate. }
        cbn [fst snd]. exists (g_remove (k + nl) g).
        destruct Hm as (M1 & M2 & M3 & M4 & M5 & M6).
        assert (Hok : ok t XL d g (mkfdir (delete (record_file name (k + nl)) (files d)) (fclosed d)) (g_remove (k + nl) g)).
        { apply ok_remove; [auto with st|exact I|]. intros Hord e Ee. destruct (M6 Hord) as (E1 & E2 & E3). subst nl.
          specialize (E2 _ e Ee ltac:(lia)). destruct E3 as [E3|E3]; [|lia]. replace (k + 1) with (Datatypes.S k) in Ee by lia. congruence. }
        split; [exact Hok|]. destruct Ho as [O1 O2 O3 O4 O5 O6]. split; [split; simpl; auto|].
        + apply (o_inv _ _ _ _ _ _ _ _ _ _ _ _ _ _ Hok), I.
        + rewrite <- O3. unfold unfinished. simpl. rewrite (tn n name fl bs Hsh t Ht).
          rewrite lookup_delete_ne by apply file_tmp. reflexivity.
        + split; [|split; [reflexivity|simpl; apply lookup_delete]]. repeat (split; [assumption|]). simpl. split.
          * intros i Hi. rewrite lookup_delete_ne by lia. auto.
          * intros Hord. destruct (M6 Hord) as (E1 & E2 & E3). split; [exact E1|]. split.
            -- intros y e Ey. apply lookup_delete_Some in Ey. change (total (g_remove (k + nl) g)) with (total g). apply E2, Ey.
            -- destruct E3 as [E3|E3]; [|auto]. left. apply lookup_delete_None. auto.
      - apply T_ret; [auto with st|]. intros d g [Ho [Hm E]]. split; [exact Ho|]. split; [exact Hm|]. split; [reflexivity|].
        unfold has in E. destruct (pos g !! (k + nl)); [discriminate|reflexivity]. }
    2: { intros e0 d g [_ [_ [E _]]]. discriminate. }
    intros []. eapply T_bind with (Qm := fun r => inx D v (fun g => r = Good tt /\ moving k nl g)).
    2: { intros []. eapply T_conseq; [apply IH| |auto]. intros d g [Ho [_ Hm]]. split; auto. }
    2: { intros e0 d g [_ [E _]]. discriminate. }
    apply T_op; [auto with st|auto with st|]. intros d g [Ho [Hm [_ Hn]]].
    pose proof (ow_inv _ _ _ _ _ _ _ _ _ _ _ Ho) as I. cbn [fexec]. rewrite !rn'.
    destruct Hm as (M1 & M2 & M3 & M4 & M5 & M6).
    destruct (pos g !! k) as [a|] eqn:Ea; [|exfalso; apply (M5 k); [lia|exact Ea]].
    destruct (files d !! record_file name k) as [s|] eqn:Es.
    2: { apply (pos_content name m full ord l0 d g _ I) in Es. congruence. }
    cbn [fst snd]. exists (g_move k (k + nl) g).
    assert (Hok : ok t XL d g (mkfdir (<[record_file name (k + nl) := s]> (delete (record_file name k) (files d))) (fclosed d)) (g_move k (k + nl) g)).
    { apply ok_move with (e := a); auto with st; try lia. intros Hord. destruct (M6 Hord) as (E1 & E2 & E3). subst nl.
      specialize (E2 k a Ea ltac:(lia)). lia. }
    split; [exact Hok|]. destruct Ho as [O1 O2 O3 O4 O5 O6]. split; [split; auto|].
    - apply (o_inv _ _ _ _ _ _ _ _ _ _ _ _ _ _ Hok), I.
    - rewrite <- O3. unfold unfinished. simpl. rewrite (tn n name fl bs Hsh t Ht).
      rewrite lookup_insert_ne, lookup_delete_ne by apply file_tmp. reflexivity.
    - split; [reflexivity|]. do 2 (split; [assumption|]). split; [lia|]. split; [exact M4|]. simpl. rewrite Ea. split.
      + intros i Hi. rewrite lookup_insert_ne, lookup_delete_ne by lia. apply M5. lia.
      + intros Hord. destruct (M6 Hord) as (E1 & E2 & E3). split; [exact E1|]. change (total (g_move k (k + nl) g)) with (total g). split.
        * intros y e1 Ey Hy. apply lookup_insert_Some in Ey. destruct Ey as [[<- <-]|[_ Ey]]; [lia|].
          apply lookup_delete_Some in Ey. apply E2; [apply Ey|lia].
        * left. rewrite lookup_insert_ne by lia. apply lookup_delete.
  Qed.

  (** The loop that writes the files. *)
  Definition storing (ls : list text) (g : ghost) : Prop :=
    (ls = [] -> t ∉ flag g) /\ length ls <= m /\
    (ord -> ls = [] \/ (length ls = 1 /\ t ∈ flag g /\ forall e, pos g !! 0 = Some e -> m = 1 /\ e + 1 < total g)).
  (** The last file of the history is being written: [p] is in it. *)
  Definition putting (p : text) (ls : list text) (g : ghost) : Prop :=
    t ∉ flag g /\ length ls <= m /\ (ord -> ls = []) /\
    exists h0, hist g = h0 ++ [(Some t, p)] /\ pos g !! length ls = Some (length h0) /\ frozen g <= length h0.

  Lemma T_put D v ls rest l q : forall p, l = p ++ q -> full t = D ++ l :: rest ->
    T XL (inx (D ++ [p]) v (putting p ls)) (put_chars (rec_name b (length ls)) q)
      (fun r => inx (D ++ [l]) v (fun g => r = Good tt /\ putting l ls g)).
  Proof.
    induction q as [|c q IH]; intros p El Hfull; cbn [put_chars].
    { rewrite app_nil_r in El. subst p. apply T_ret; [auto with st|]. intros d g [Ho Hp]. split; auto. }
    eapply T_bind with (Qm := fun r => inx (D ++ [p ++ [c]]) v (fun g => r = Good tt /\ putting (p ++ [c]) ls g)).
    2: { intros []. eapply T_conseq; [apply (IH (p ++ [c])); [rewrite <- app_assoc; exact El|exact Hfull]| |auto].
         intros d g [Ho [_ Hp]]. split; auto. }
    2: { intros e0 d g [_ [E _]]. discriminate. }
    apply T_op; [auto with st|auto with st|]. intros d g [Ho (P1 & P2 & P3 & h0 & P4 & P5 & P6)].
    pose proof (ow_inv _ _ _ _ _ _ _ _ _ _ _ Ho) as I. cbn [fexec fst snd]. rewrite rn'. exists (g_put t h0 (p ++ [c]) g).
    destruct Ho as [O1 O2 O3 O4 O5 O6].
    assert (Ed : written_by t h0 = D).
    { rewrite P4, written_app, Nat.eqb_refl in O2. apply app_inj_tail in O2. apply O2. }
    assert (Hok : ok t XL d g (mkfdir (alter (fun s : text => (s ++ [c])%list : text) (record_file name (length ls)) (files d)) (fclosed d)) (g_put t h0 (p ++ [c]) g)).
    { eapply ok_put; eauto with st. rewrite Ed. exact Hfull. }
    split; [exact Hok|]. split; [split; auto|].
    - apply (o_inv _ _ _ _ _ _ _ _ _ _ _ _ _ _ Hok), I.
    - simpl. rewrite written_app, Nat.eqb_refl, Ed. reflexivity.
    - rewrite <- O3. unfold unfinished. simpl. rewrite (tn n name fl bs Hsh t Ht).
      rewrite lookup_alter_ne by apply file_tmp. reflexivity.
    - split; [reflexivity|]. split; [exact P1|]. split; [exact P2|]. split; [exact P3|]. exists h0. auto.
  Qed.

  Lemma T_store v rest : forall ls D, List.Forall utf8 ls -> full t = D ++ ls ++ rest ->
    T XL (inx D v (storing ls)) (fb_store b ls) (fun r => inx (D ++ ls) v (fun g => r = Good tt /\ t ∉ flag g)).
  Proof.
    induction ls as [|l ls IH]; intros D Hu Hfull; cbn [fb_store].
    { rewrite app_nil_r. apply T_ret; [auto with st|]. intros d g [Ho (S1 & _)]. split; auto. }
    inversion Hu as [|? ? Hl Hls]; subst.
    eapply T_bind with (Qm := fun r => inx (D ++ [[]]) v (fun g => r = Good tt /\ putting [] ls g)).
    { apply T_op; [auto with st|auto with st|]. intros d g [Ho (S1 & S2 & S3)].
      pose proof (ow_inv _ _ _ _ _ _ _ _ _ _ _ Ho) as I. cbn [fexec fst snd]. rewrite rn'. exists (g_create t (length ls) g).
      destruct Ho as [O1 O2 O3 O4 O5 O6]. simpl in S2.
      assert (Hok : ok t XL d g (mkfdir (<[record_file name (length ls) := []]> (files d)) (fclosed d)) (g_create t (length ls) g)).
      { eapply ok_create with (l := l) (rest := ls ++ rest); auto with st; [rewrite O2; exact Hfull|].
        intros Hord. destruct (S3 Hord) as [S4|(S4 & S5 & S6)]; [discriminate|]. simpl in S4. split; [lia|auto]. }
      split; [exact Hok|]. split; [split; auto|].
      - apply (o_inv _ _ _ _ _ _ _ _ _ _ _ _ _ _ Hok), I.
      - simpl. rewrite written_app, Nat.eqb_refl, O2. reflexivity.
      - rewrite <- O3. unfold unfinished. simpl. rewrite (tn n name fl bs Hsh t Ht).
        rewrite lookup_insert_ne by apply file_tmp. reflexivity.
      - split; [reflexivity|]. split; [simpl; set_solver|]. split; [lia|]. split.
        + intros Hord. destruct (S3 Hord) as [S4|(S4 & _)]; [discriminate|]. simpl in S4. destruct ls; [reflexivity|simpl in S4; lia].
        + exists (hist g). simpl. split; [reflexivity|]. split; [apply lookup_insert|]. apply I. }
    2: { intros e0 d g [_ [E _]]. discriminate. }
    intros []. eapply T_bind with (Qm := fun r => inx (D ++ [l]) v (fun g => (exists k, r = Good k) /\ putting l ls g)).
    2: { intros k. eapply T_conseq; [apply (IH (D ++ [l]) Hls)| |].
         - rewrite Hfull, <- app_assoc. reflexivity.
         - intros d g [Ho [_ (P1 & P2 & P3 & _)]]. split; [exact Ho|]. split; [auto|]. split; [exact P2|]. intros Hord. left. auto.
         - intros r d g H. rewrite <- app_assoc in H. exact H. }
    2: { intros e0 d g [_ [[k E] _]]. discriminate. }
    unfold file_write. eapply T_bind with (Qm := fun r => inx (D ++ [[]]) v (fun g => r = Good tt /\ putting [] ls g)).
    { apply T_look; [auto with st|auto with st|reflexivity|]. intros d g [Ho [_ Hp]]. split; [exact Ho|]. split; [|exact Hp].
      cbn [fexec fst]. apply utf8_enc in Hl. unfold enc in Hl. rewrite Hl. reflexivity. }
    2: { intros e0 d g [_ [E _]]. discriminate. }
    intros []. eapply T_bind.
    { eapply T_conseq; [apply (T_put D v ls (ls ++ rest) l l []); [reflexivity|exact Hfull]| |].
      - intros d g [Ho [_ Hp]]. split; auto.
      - intros r d g H. exact H. }
    { intros []. apply T_ret; [auto with st|]. intros d g [Ho [_ Hp]]. split; [exact Ho|]. split; [eauto|exact Hp]. }
    { intros e0 d g [_ [E _]]. discriminate. }
  Qed.

  Lemma T_update D v lines rest : List.Forall utf8 lines -> full t = D ++ last_items m lines ++ rest ->
    (ord -> length lines <= 1) ->
    T [] (idle D v) (fb_update_records b lines) (fun r d g => idle (D ++ last_items m lines) v d g /\ r = Good tt).
  Proof.
    intros Hu Hfull Ho1. pose proof (m_pos n name fl bs m Hsh Hmax t Ht) as Hm1. unfold fb_update_records. rewrite fl_b.
    apply T_with; [apply (sh_fl _ _ _ _ Hsh)|reflexivity|reflexivity|auto with st|auto with st|auto with st|intros _ _ r d g [[_ H] _]; exact H|].
    destruct lines as [|x lines].
    { apply T_ret; [auto with st|]. intros d g H. unfold last_items. simpl. rewrite app_nil_r. auto. }
    set (all := x :: lines) in *. rewrite (Hmax t Ht). change (lastn m all) with (last_items m all).
    assert (Hlen : length (last_items m all) = Nat.min m (length all)) by apply lastn_length.
    assert (Hnl : 1 <= length (last_items m all) <= m) by (rewrite Hlen; unfold all; simpl; lia).
    eapply T_bind; [apply T_count_x| |intros e0 d g [_ [_ [c [E _]]]]; discriminate].
    intros c. eapply T_bind.
    { eapply T_conseq; [apply (T_move D v (length (last_items m all)))| |intros r d g H; exact H].
      intros d g [Ho [(B1 & B2 & B3) [c' [E (C1 & C2 & C3)]]]]. injection E as <-. split; [exact Ho|].
      split; [exact B1|]. split; [exact B2|]. split; [lia|]. split; [lia|]. split; [intros i Hi; apply C2; lia|].
      intros Hord. specialize (Ho1 Hord). assert (En : length (last_items m all) = 1) by lia. rewrite En. split; [reflexivity|].
      split; [intros y e Ey _; apply B3; auto|]. destruct (Nat.le_gt_cases c (m - 1)) as [Hc|Hc].
      - left. rewrite Nat.min_l by lia. apply C3. lia.
      - right. rewrite Nat.min_r by lia. lia. }
    { intros []. eapply T_conseq; [apply (T_store v rest (last_items m all) D)| |].
      - apply last_items_Forall, Hu.
      - exact Hfull.
      - intros d g [Ho [_ (M1 & M2 & M3 & M4 & M5 & M6)]]. split; [exact Ho|]. split; [intros E; rewrite E in Hnl; simpl in Hnl; lia|].
        split; [lia|]. intros Hord. destruct (M6 Hord) as (E1 & E2 & E3). right. split; [exact E1|]. split; [exact M1|].
        intros e Ee. specialize (E2 0 e Ee ltac:(lia)). destruct E3 as [E3|E3]; [congruence|]. lia.
      - intros r d g [H1 [H2 H3]]. split; [split; auto|exact H2]. }
    { intros e0 d g [_ [E _]]. discriminate. }
  Qed.
End Calls.
