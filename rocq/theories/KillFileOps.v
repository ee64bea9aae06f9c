(** * KillFileOps: processes that are killed while they use one log: updates of the log *)
From stdpp Require Import gmap.
From Coq Require Import String.
From Coq Require Import List NArith ZArith Bool Arith Lia.
From Verif Require Import PyStr Prog ProgFacts PyIO Base Spec LineBuf FileBuf FileFacts FileSpec FileStmt FileProofs FileConcSpec FileConc CrashSpec Kill KillFacts KillRely KillFileSpec KillFile.
Import ListNotations.
Local Open Scope nat_scope.

Lemma written_app t h o s : written_by t (h ++ [(o, s)]) =
  written_by t h ++ (match o with Some u => if u =? t then [s] else [] | None => [] end).
Proof.
  unfold written_by. rewrite List.filter_app, map_app. f_equal. simpl. destruct o as [u|]; [destruct (u =? t)|]; reflexivity.
Qed.
Lemma before_app h t s : from_before (h ++ [(Some t, s)]) = from_before h.
Proof. unfold from_before. rewrite List.filter_app, map_app. simpl. apply app_nil_r. Qed.

Lemma nth_last {A} (l : list A) x : nth_error (l ++ [x]) (length l) = Some x.
Proof. rewrite nth_error_app2 by lia. rewrite Nat.sub_diag. reflexivity. Qed.

Lemma file_inj name i j : record_file name i = record_file name j -> i = j.
Proof. intros E. apply (rec_name_inj (mkfb 0 name [] 0 0 0)). exact E. Qed.
Lemma file_tmp name i b : record_file name i <> tmp_name b.
Proof. apply (rec_tmp (mkfb 0 name [] 0 0 0)). Qed.

Lemma size_out (t : nat) (X : gset nat) : t ∈ X -> size X = Datatypes.S (size (X ∖ {[t]})).
Proof.
  intros Ht. assert (E : X = {[t]} ∪ (X ∖ {[t]})) by (apply union_difference_singleton_L, Ht).
  rewrite E at 1. rewrite size_union by set_solver. rewrite size_singleton. reflexivity.
Qed.

Section Ops.
  Variables (n : nat) (name : text) (fl : nat) (bs : nat -> fbuf) (m : nat).
  Variable full : nat -> list text.
  Variable ord : Prop.
  Variable l0 : list text.
  Hypothesis Hsh : sharing n name fl bs.
  Hypothesis Hmax : forall i, i < n -> b_max (bs i) = m.

  Notation inv := (inv name m full ord l0).
  Notation R := (R n name fl bs m full ord l0).
  Notation ok := (ok n name fl bs m full ord l0).
  Notation T := (T n name fl bs m full ord l0).
  Notation stab := (stab n name fl bs m full ord l0).

  Lemma rn t k : t < n -> rec_name (bs t) k = record_file name k.
  Proof. intros Ht. unfold rec_name. destruct (sh_one _ _ _ _ Hsh t Ht) as (-> & _). reflexivity. Qed.
  Lemma tn t : t < n -> temp_file name (b_tmp (bs t)) = tmp_name (bs t).
  Proof. intros Ht. unfold tmp_name. destruct (sh_one _ _ _ _ Hsh t Ht) as (-> & _). reflexivity. Qed.
  Lemma m_pos t : t < n -> 1 <= m.
  Proof. intros Ht. destruct (sh_one _ _ _ _ Hsh t Ht) as (_ & _ & H & _). rewrite Hmax in H by exact Ht. exact H. Qed.

  (** ** What a process knows at any time *)
  Record own (t : nat) (D : list text) (v : text) (d : fdir) (g : ghost) : Prop := mkown {
    ow_inv : inv d g;
    ow_mine : written_by t (hist g) = D;
    ow_last : unfinished name (b_tmp (bs t)) (files d) = v;
    ow_nb : no_break v;
    ow_utf : utf8 v;
    ow_open : fclosed d !! b_id (bs t) = None }.
  Definition idle (t : nat) (D : list text) (v : text) (d : fdir) (g : ghost) : Prop := own t D v d g /\ t ∉ flag g.

  Lemma stab_own t hs D v : t < n -> stab t hs (own t D v).
  Proof.
    intros Ht x x' HR _ [I1 I2 I3 I4 I5 I6]. destruct (r_own _ _ _ _ _ _ _ _ _ _ _ HR Ht) as [E1 E2].
    destruct (r_mono _ _ _ _ _ _ _ _ _ _ _ HR) as (_ & _ & E3 & _). split; auto.
    - apply (r_inv _ _ _ _ _ _ _ _ _ _ _ HR), I1.
    - congruence.
    - rewrite <- I3. unfold unfinished. rewrite tn by exact Ht. rewrite E1. reflexivity.
    - congruence.
  Qed.
  Lemma stab_idle t hs D v : t < n -> stab t hs (idle t D v).
  Proof.
    intros Ht x x' HR Hh [H1 H2]. split; [exact (stab_own t hs D v Ht x x' HR Hh H1)|].
    destruct (r_mono _ _ _ _ _ _ _ _ _ _ _ HR) as (_ & _ & _ & E). tauto.
  Qed.
  Lemma stab_and t hs P (c : Prop) : stab t hs P -> stab t hs (fun d g => P d g /\ c).
  Proof. intros H x x' HR Hh [H1 H2]. split; [exact (H x x' HR Hh H1)|exact H2]. Qed.
  Lemma stab_ex {Y} t hs (P : Y -> fdir -> ghost -> Prop) : (forall y, stab t hs (P y)) -> stab t hs (fun d g => exists y, P y d g).
  Proof. intros H x x' HR Hh [y Hy]. exists y. exact (H y x x' HR Hh Hy). Qed.

  (** Inside 'with lock.write_lock()'. *)
  Definition inx (t : nat) (D : list text) (v : text) (F : ghost -> Prop) (d : fdir) (g : ghost) : Prop := own t D v d g /\ F g.
  Lemma stab_inx t hs D v F : t < n -> 0 < cx fl hs -> stab t hs (inx t D v F).
  Proof.
    intros Ht Hx x x' HR Hh [H1 H2]. split; [exact (stab_own t hs D v Ht x x' HR Hh H1)|].
    destruct (Hh fl) as [E _]. destruct (r_held _ _ _ _ _ _ _ _ _ _ _ HR) as (_ & A1 & A2 & A3 & A4); [left; lia|].
    specialize (A4 ltac:(lia)). destruct (snd x) as [a b c e], (snd x') as [a' b' c' e']. simpl in *. subst. exact H2.
  Qed.

  Lemma ok_same t hs d g : ok t hs d g d g.
  Proof. split; auto 10. Qed.

  (** A command that changes the temporary file of its process at most. *)
  Lemma ok_tmp t hs d g d2 : t < n -> (forall y, y <> tmp_name (bs t) -> files d2 !! y = files d !! y) -> fclosed d2 = fclosed d ->
    ok t hs d g d2 g.
  Proof.
    intros Ht Hf Hc. assert (Hr : forall i, files d2 !! record_file name i = files d !! record_file name i).
    { intros i. apply Hf, file_tmp. }
    split; auto 10.
    - intros u Hu Hne. apply Hf. apply (tmp_ne n name fl bs Hsh); auto.
    - intros [I1 I2 I3 I4 I5 I6 I7]. split; auto. intros i. rewrite Hr. apply I1.
  Qed.

  (** A command that changes nothing. *)
  Lemma T_look {X} t hs P (c : fcmd X) (Q : outcome X -> fdir -> ghost -> Prop) :
    stab t hs P -> (forall r, stab t hs (Q r)) -> (forall d, snd (fexec c d) = d) ->
    (forall d g, P d g -> Q (fst (fexec c d)) d g) -> T t hs P (fop c) Q.
  Proof.
    intros HP HQ Hs H. apply T_op; [exact HP|exact HQ|]. intros d g Hp. exists g. rewrite Hs. split; [apply ok_same|auto].
  Qed.

  Lemma cx_fl hs : 0 < cx fl ((fl, Ex) :: hs).
  Proof. rewrite cx_cons, Nat.eqb_refl. simpl. lia. Qed.

  (** ** Steps of an update, with the history *)
  Lemma pos_content d g i : inv d g -> files d !! record_file name i = None <-> pos g !! i = None.
  Proof.
    intros I. rewrite (j_files _ _ _ _ _ _ _ I i). destruct (pos g !! i) as [e|] eqn:E; [|tauto].
    destruct (j_pos _ _ _ _ _ _ _ I i e E) as [_ Hl]. apply nth_error_Some in Hl.
    destruct (nth_error (hist g) e); [simpl; split; discriminate|contradiction].
  Qed.

  Definition g_begin (t : nat) (g : ghost) : ghost := mkG (hist g) (pos g) (length (hist g)) ({[t]} ∪ flag g).
  Lemma ok_begin t hs d g : t < n -> 0 < cx fl hs -> t ∉ flag g -> inv d g -> ok t hs d g d (g_begin t g).
  Proof.
    intros Hn Hx Ht I. split; auto.
    - split; [apply (j_frozen _ _ _ _ _ _ _ I)|]. split; [auto|]. intros u Hne. split; [reflexivity|]. simpl. set_solver.
    - intros [I1 I2 I3 I4 I5 I6 I7]. split; auto. intros Ho. destruct (I4 Ho) as (O1 & O2 & O3). split; [exact O1|].
      assert (Et : total (g_begin t g) = Datatypes.S (total g)).
      { unfold total. simpl. rewrite size_union by set_solver. rewrite size_singleton. lia. }
      rewrite Et. split.
      + intros x e E. pose proof (O2 x e E). lia.
      + intros e He Hle. apply O3; [exact He|lia].
  Qed.

  Definition g_remove (k : nat) (g : ghost) : ghost := mkG (hist g) (delete k (pos g)) (frozen g) (flag g).
  Lemma ok_remove t hs d g k : 0 < cx fl hs -> inv d g ->
    (ord -> forall e, pos g !! k = Some e -> e + m < total g) ->
    ok t hs d g (mkfdir (delete (record_file name k) (files d)) (fclosed d)) (g_remove k g).
  Proof.
    intros Hx I Hd. split; auto.
    - intros u Hu Hne. simpl. apply lookup_delete_ne. apply file_tmp.
    - intros [I1 I2 I3 I4 I5 I6 I7]. split; simpl; auto.
      + intros i. destruct (decide (i = k)) as [->|Hne]; [rewrite !lookup_delete; reflexivity|].
        rewrite !lookup_delete_ne by (intros E; try apply file_inj in E; auto). apply I1.
      + intros i e E. apply lookup_delete_Some in E. apply I2, E.
      + intros i j e E1 E2. apply lookup_delete_Some in E1, E2. eapply I3; [apply E1|apply E2].
      + intros Ho. destruct (I4 Ho) as (O1 & O2 & O3). unfold total in *. simpl. split; [|split].
        * intros x y a b E1 E2. apply lookup_delete_Some in E1, E2. apply O1; [apply E1|apply E2].
        * intros x e E. apply lookup_delete_Some in E. apply O2, E.
        * intros e He Hle. destruct (O3 e He Hle) as [x Ex]. exists x. rewrite lookup_delete_ne; [exact Ex|].
          intros <-. pose proof (Hd Ho e Ex). lia.
  Qed.

  Definition g_move (k k' : nat) (g : ghost) : ghost :=
    mkG (hist g) (match pos g !! k with Some e => <[k' := e]> (delete k (pos g)) | None => pos g end) (frozen g) (flag g).
  Lemma ok_move t hs d g k k' s e : 0 < cx fl hs -> inv d g -> files d !! record_file name k = Some s ->
    pos g !! k = Some e -> k <> k' -> pos g !! k' = None -> k' < m ->
    (ord -> k' = Datatypes.S k /\ k' + e < total g) ->
    ok t hs d g (mkfdir (<[record_file name k' := s]> (delete (record_file name k) (files d))) (fclosed d)) (g_move k k' g).
  Proof.
    intros Hx I Hs He Hne Hk' Hlt Ho. split; auto.
    - intros u Hu Hu'. simpl. rewrite lookup_insert_ne by apply file_tmp. apply lookup_delete_ne, file_tmp.
    - intros [I1 I2 I3 I4 I5 I6 I7].
      assert (Hp : forall i a, pos (g_move k k' g) !! i = Some a -> (i = k' /\ a = e) \/ (i <> k /\ i <> k' /\ pos g !! i = Some a)).
      { intros i a E. simpl in E. rewrite He in E. apply lookup_insert_Some in E. destruct E as [[<- <-]|[H1 H2]]; [auto|].
        apply lookup_delete_Some in H2. right. destruct H2. auto. }
      split; auto.
      + intros i. simpl. rewrite He. destruct (decide (i = k')) as [->|Hi].
        * rewrite !lookup_insert. rewrite <- Hs, I1, He. reflexivity.
        * rewrite !lookup_insert_ne by (intros E; try apply file_inj in E; auto).
          destruct (decide (i = k)) as [->|Hi2]; [rewrite !lookup_delete; reflexivity|].
          rewrite !lookup_delete_ne by (intros E; try apply file_inj in E; auto). apply I1.
      + intros i a E. destruct (Hp i a E) as [[-> ->]|(_ & _ & E')]; [|apply I2, E'].
        split; [exact Hlt|apply (I2 k e He)].
      + intros i j a E1 E2. destruct (Hp i a E1) as [[-> ->]|(Hi1 & Hi2 & E1')], (Hp j _ E2) as [[-> E3]|(Hj1 & Hj2 & E2')].
        * reflexivity.
        * exfalso. apply Hj1. eapply I3; eauto.
        * subst a. exfalso. apply Hi1. eapply I3; eauto.
        * eapply I3; eauto.
      + intros Hord. destruct (Ho Hord) as [Ek Hb]. destruct (I4 Hord) as (O1 & O2 & O3).
        change (total (g_move k k' g)) with (total g). change (hist (g_move k k' g)) with (hist g). split; [|split].
        * intros x y a b E1 E2 Hxy. destruct (Hp x a E1) as [[-> ->]|(Hi1 & Hi2 & E1')], (Hp y _ E2) as [[-> E3]|(Hj1 & Hj2 & E2')].
          -- lia.
          -- apply (O1 k y); auto. lia.
          -- subst b. apply (O1 x k); auto. lia.
          -- apply (O1 x y); auto.
        * intros x a E. destruct (Hp x a E) as [[-> ->]|(_ & _ & E')]; [exact Hb|apply O2, E'].
        * intros a Ha Hle. destruct (O3 a Ha Hle) as [x Ex]. simpl. rewrite He. destruct (decide (x = k)) as [->|Hxk].
          -- exists k'. rewrite lookup_insert. congruence.
          -- exists x. rewrite lookup_insert_ne; [rewrite lookup_delete_ne by auto; exact Ex|]. intros <-. congruence.
  Qed.

  Definition g_create (t k : nat) (g : ghost) : ghost :=
    mkG (hist g ++ [(Some t, [])]) (<[k := length (hist g)]> (pos g)) (frozen g) (flag g ∖ {[t]}).
  Lemma cut_next D l rest p : prefix_of p l -> cut_short (D ++ [p]) (D ++ l :: rest).
  Proof. intros H. exists D, (l :: rest). split; [reflexivity|]. right. exists l, rest, p. auto. Qed.

  Lemma ok_create t hs d g k l rest : 0 < cx fl hs -> inv d g -> k < m ->
    full t = written_by t (hist g) ++ l :: rest ->
    (ord -> k = 0 /\ t ∈ flag g /\ forall e, pos g !! 0 = Some e -> m = 1 /\ e + 1 < total g) ->
    ok t hs d g (mkfdir (<[record_file name k := []]> (files d)) (fclosed d)) (g_create t k g).
  Proof.
    intros Hx I Hk Hfull Ho. split; auto.
    - intros u Hu Hu'. simpl. apply lookup_insert_ne, file_tmp.
    - simpl. split; [auto|]. split.
      + intros e He. apply nth_error_app1. pose proof (j_frozen _ _ _ _ _ _ _ I). lia.
      + intros u Hne. rewrite written_app. replace (t =? u) with false by (symmetry; apply Nat.eqb_neq; auto).
        rewrite app_nil_r. split; [reflexivity|]. set_solver.
    - intros [I1 I2 I3 I4 I5 I6 I7].
      assert (Hp : forall i a, pos (g_create t k g) !! i = Some a -> (i = k /\ a = length (hist g)) \/ (i <> k /\ pos g !! i = Some a)).
      { intros i a E. simpl in E. apply lookup_insert_Some in E. destruct E as [[<- <-]|[H1 H2]]; auto. }
      split.
      + intros i. simpl. destruct (decide (i = k)) as [->|Hi].
        * rewrite !lookup_insert, nth_last. reflexivity.
        * rewrite !lookup_insert_ne by (intros E; try apply file_inj in E; auto). rewrite I1.
          destruct (pos g !! i) as [e|] eqn:E; [|reflexivity]. rewrite nth_error_app1; [reflexivity|]. apply (I2 i e E).
      + intros i a E. simpl. rewrite app_length. simpl. destruct (Hp i a E) as [[-> ->]|[_ E']]; [lia|].
        destruct (I2 i a E'). lia.
      + intros i j a E1 E2. destruct (Hp i a E1) as [[-> ->]|[Hi E1']], (Hp j _ E2) as [[-> E3]|[Hj E2']].
        * reflexivity.
        * destruct (I2 j _ E2'). lia.
        * subst a. destruct (I2 i _ E1'). lia.
        * eapply I3; eauto.
      + intros Hord. destruct (Ho Hord) as (-> & Ht & Hz). destruct (I4 Hord) as (O1 & O2 & O3).
        assert (Et : total (g_create t 0 g) = total g /\ 1 <= size (flag g)).
        { unfold total. simpl. rewrite app_length. simpl.
          rewrite (size_out t (flag g) Ht). lia. }
        destruct Et as [Et Hsz]. rewrite Et. split; [|split].
        * intros x y a b E1 E2 Hxy. destruct (Hp x a E1) as [[-> ->]|(Hi1 & E1')], (Hp y _ E2) as [[-> E3]|(Hj1 & E2')]; [lia| |lia|].
          -- apply (I2 y b E2').
          -- apply (O1 x y); auto.
        * intros x a E. destruct (Hp x a E) as [[-> ->]|(_ & E')]; [unfold total; lia|apply O2, E'].
        * intros a Ha Hle. simpl in Ha. rewrite app_length in Ha. simpl in Ha. simpl.
          destruct (decide (a = length (hist g))) as [->|Hal]; [exists 0; apply lookup_insert|].
          destruct (O3 a ltac:(lia) Hle) as [x Ex]. destruct (decide (x = 0)) as [->|Hx0].
          -- destruct (Hz a Ex). lia.
          -- exists x. rewrite lookup_insert_ne by auto. exact Ex.
      + intros u. simpl. rewrite written_app. destruct (Nat.eqb_spec t u) as [<-|Hne].
        * rewrite Hfull. apply cut_next. exists l. reflexivity.
        * rewrite app_nil_r. apply I5.
      + simpl. rewrite before_app. exact I6.
      + simpl. rewrite app_length. simpl. lia.
    - simpl. set_solver.
  Qed.

  Definition g_put (t : nat) (h0 : history) (p : text) (g : ghost) : ghost :=
    mkG (h0 ++ [(Some t, p)]) (pos g) (frozen g) (flag g).
  Lemma ok_put t hs d g k h0 p c l rest q : 0 < cx fl hs -> inv d g -> hist g = h0 ++ [(Some t, p)] ->
    pos g !! k = Some (length h0) -> frozen g <= length h0 ->
    full t = written_by t h0 ++ l :: rest -> l = p ++ c :: q ->
    ok t hs d g (mkfdir (alter (fun s : text => (s ++ [c])%list : text) (record_file name k) (files d)) (fclosed d))
       (g_put t h0 (p ++ [c]) g).
  Proof.
    intros Hx I Eh Ek Hfr Hfull El. split; auto.
    - intros u Hu Hu'. simpl. apply lookup_alter_ne, file_tmp.
    - simpl. split; [auto|]. rewrite Eh. split.
      + intros e He. rewrite !nth_error_app1 by lia. reflexivity.
      + intros u Hne. rewrite !written_app. replace (t =? u) with false by (symmetry; apply Nat.eqb_neq; auto). tauto.
    - intros [I1 I2 I3 I4 I5 I6 I7]. rewrite Eh in *. split; simpl; auto.
      + intros i. destruct (decide (i = k)) as [->|Hi].
        * rewrite lookup_alter, I1, Ek, !nth_last. reflexivity.
        * rewrite lookup_alter_ne by (intros E; apply file_inj in E; auto). rewrite I1.
          destruct (pos g !! i) as [e|] eqn:E; [|reflexivity]. destruct (I2 i e E) as [_ Hl]. rewrite app_length in Hl. simpl in Hl.
          assert (e <> length h0) by (intros ->; apply Hi; eapply I3; eauto). rewrite !nth_error_app1 by lia. reflexivity.
      + intros i e E. destruct (I2 i e E) as [A B]. rewrite app_length in *. simpl in *. auto.
      + intros Ho. destruct (I4 Ho) as (O1 & O2 & O3).
        assert (Et : total (g_put t h0 (p ++ [c]) g) = total g).
        { unfold total. simpl. rewrite Eh, !app_length. reflexivity. }
        rewrite Et. split; [exact O1|]. split; [exact O2|]. intros e He Hle. apply O3; [|exact Hle]. rewrite app_length in *. exact He.
      + intros u. specialize (I5 u). rewrite written_app in *. destruct (decide (u = t)) as [->|Hne].
        2: { replace (t =? u) with false in * by (symmetry; apply Nat.eqb_neq; auto). exact I5. }
        rewrite Nat.eqb_refl, Hfull. apply cut_next. exists q. rewrite <- app_assoc. exact El.
      + rewrite before_app in *. exact I6.
      + rewrite app_length. simpl. lia.
  Qed.
End Ops.
