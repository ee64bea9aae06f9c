(** * FileProofs: proofs of the sequential properties of LineFileBuffer *)
From stdpp Require Import gmap.
From Coq Require Import String.
From Coq Require Import List NArith ZArith Bool Arith Lia.
From Verif Require Import PyStr Strip Prog ProgFacts PyIO Base Spec SpecFacts LineBuf LineBufSpec LineBufFacts LineBufProofs
  Atomic FileBuf FileFacts FileMore FileSpec FileStmt.
Import ListNotations.
Local Open Scope prog_scope.
Local Open Scope nat_scope.

(** ** Links between the vocabulary of FileSpec and the model *)
Lemma utf8_enc s : utf8 s <-> enc s.
Proof.
  unfold utf8, enc. rewrite forallb_forall, List.Forall_forall. split; intros H x Hx; specialize (H x Hx).
  - unfold encodable. apply negb_true_iff, andb_false_iff.
    destruct (N.leb_spec 55296 x); [right; apply N.leb_gt; lia|left; reflexivity].
  - unfold encodable in H. apply negb_true_iff, andb_false_iff in H. intros [H1 H2].
    apply N.leb_le in H1, H2. destruct H; congruence.
Qed.

Lemma newlines_uni s : newlines s (uni s).
Proof.
  induction s as [s IH] using text_ind2. destruct s as [|c s]; [constructor|]. cbn [uni].
  destruct (N.eqb_spec c CR) as [->|Hc]; [|apply nl_other; [exact Hc|apply IH; simpl; lia]].
  destruct s as [|d s]; [apply nl_cr; [discriminate|constructor]|].
  destruct (N.eqb_spec d LF) as [->|Hd].
  - apply nl_crlf, IH. simpl. lia.
  - apply nl_cr; [|apply IH; simpl; lia]. intros r E. injection E as E _. contradiction.
Qed.
Lemma newlines_fun s t : newlines s t -> t = uni s.
Proof.
  induction 1 as [|s s' _ IH|s s' Hn _ IH|c s s' Hc _ IH]; [reflexivity|..]; cbn [uni].
  - subst. reflexivity.
  - subst. cbn. destruct s as [|d s]; [reflexivity|].
    destruct (N.eqb_spec d LF) as [->|]; [exfalso; apply (Hn s); reflexivity|reflexivity].
  - destruct (N.eqb_spec c CR); [contradiction|]. subst. reflexivity.
Qed.

Section B.
  Variable b : fbuf.
  Notation R := (rec_name b).
  Notation T := (tmp_name b).
  Notation m := (b_max b).
  Notation dr fs cl := (mkfdir fs cl).
  Notation unf := (unfinished (b_name b) (b_tmp b)).

  Lemma lastl_unf fs : lastl b fs = uni (unf fs).
  Proof. unfold lastl, unfinished. change (temp_file _ _) with T. destruct (fs !! T); reflexivity. Qed.
  Lemma app_tmp_unf s fs : app_tmp b s fs = <[T := unf fs ++ s]> fs.
  Proof. reflexivity. Qed.
  Lemma unf_insert s fs : unf (<[T := s]> fs) = s.
  Proof. unfold unfinished. change (temp_file _ _) with T. rewrite lookup_insert. reflexivity. Qed.
  Lemma records_tmp fs l s : records (b_name b) fs l -> records (b_name b) (<[T := s]> fs) l.
  Proof.
    intros H. eapply records_ext; [exact H|]. intros i. apply lookup_insert_ne.
    intros E. apply (rec_tmp b i b). auto.
  Qed.

  Lemma seen_sees fs : sees (b_name b) (b_tmp b) m fs (seen b fs).
  Proof.
    unfold sees. set (k := cnt b fs (m - length (opt_t (lastl b fs)))).
    assert (Hr : forall n, rev (recs b fs n) = map (content b fs) (seq 0 n)).
    { induction n as [|n IH]; [reflexivity|]. rewrite seq_S, map_app. cbn [recs rev]. rewrite IH. reflexivity. }
    exists k, (lastl b fs), (map (content b fs) (seq 0 k)).
    destruct (cnt_spec b fs (m - length (opt_t (lastl b fs)))) as (C1 & C2 & C3). fold k in C1, C2, C3.
    split; [rewrite lastl_unf; apply newlines_uni|].
    change (match lastl b fs with [] => [] | _ => [lastl b fs] end) with (opt_t (lastl b fs)). cbv zeta.
    split; [|split; [|split; [|split]]].
    - rewrite <- Hr, rev_involutive. reflexivity.
    - rewrite map_length, seq_length. reflexivity.
    - exact C1.
    - intros i t Ht. assert (Hi : i < k).
      { assert (nth_error (map (content b fs) (seq 0 k)) i <> None) as Hn by congruence.
        apply nth_error_Some in Hn. rewrite map_length, seq_length in Hn. exact Hn. }
      destruct (C2 i Hi) as [s Hs]. exists s. split; [exact Hs|].
      assert (Hc : nth_error (map (content b fs) (seq 0 k)) i = Some (content b fs i)).
      { rewrite nth_error_map. assert (nth_error (seq 0 k) i = Some i) as ->; [|reflexivity].
        rewrite (nth_error_nth' _ 0) by (rewrite seq_length; exact Hi). rewrite seq_nth by exact Hi. reflexivity. }
      rewrite Hc in Ht. injection Ht as <-. unfold content. rewrite Hs. apply newlines_uni.
    - exact C3.
  Qed.

  Lemma seen_records fs l v : 1 <= m -> records (b_name b) fs l -> List.Forall no_cr l ->
    lastl b fs = v -> seen b fs = last_items m (l ++ opt_t v).
  Proof.
    intros Hm H Hc Hv. unfold seen. rewrite Hv, (records_cnt b fs l _ H).
    rewrite (records_recs b fs l H Hc) by lia.
    rewrite last_items_app_ge by (destruct v; simpl; lia). f_equal.
    rewrite Nat.min_comm, Nat.min_comm. apply last_items_min.
  Qed.

  (** ** C38 *)
  Lemma c38 t k fs cl size : 1 <= m -> b_tl b <> b_fl b -> k !! b_tl b = None -> k !! b_fl b = None ->
    cl !! b_id b = None ->
    exists l, sees (b_name b) (b_tmp b) m fs l /\
      run t (fb_read b None) (mkst (dr fs cl) k) = (Good l, mkst (dr fs cl) k) /\
      run t (fb_read b (Some size)) (mkst (dr fs cl) k) =
        (Good (if (size <=? 0)%Z then [] else last_items (Z.to_nat size) l), mkst (dr fs cl) k) /\
      run t (fb_len b) (mkst (dr fs cl) k) = (Good (length l), mkst (dr fs cl) k).
  Proof.
    intros Hm Hlk Hk1 Hk2 Hcl. exists (seen b fs).
    assert (Hc : isclosed b cl = false) by (unfold isclosed; rewrite Hcl; reflexivity).
    assert (Hk : forall l, In l [b_tl b; b_fl b] -> k !! l = None) by (intros l [<-|[<-|[]]]; assumption).
    split; [apply seen_sees|].
    rewrite (bal_read b Hlk None t (dr fs cl) k Hk (fb_nb _ _)), (bal_read b Hlk (Some size) t (dr fs cl) k Hk (fb_nb _ _)).
    rewrite !read_run by exact Hc.
    assert (Hlen : bal [b_tl b; b_fl b] (fb_len b)).
    { unfold fb_len. apply bal_bind; [apply bal_fl, bal_count|]. intros n.
      apply bal_bind; [apply bal_get_last|]. intros; apply bal_ret. }
    rewrite (Hlen t (dr fs cl) k Hk (fb_nb _ _)), len_run by exact Hm. auto.
  Qed.

  (** ** C37 *)
  Definition frel (fs : directory) (a : abuf) : Prop :=
    records (b_name b) fs (map item_text (aq a)) /\ unf fs = av a /\
    (forall x, fs !! x <> None -> x = T \/ exists i, x = R i) /\
    length (aq a) <= m /\ acl a = false /\
    List.Forall (fun i => exists s, i = IStr s /\ no_break s) (aq a) /\ no_break (av a) /\ enc (av a).

  Lemma mk_frel fs a :
    records (b_name b) fs (map item_text (aq a)) -> unf fs = av a ->
    (forall x, fs !! x <> None -> x = T \/ exists i, x = R i) ->
    length (aq a) <= m -> acl a = false ->
    List.Forall (fun i => exists s, i = IStr s /\ no_break s) (aq a) -> no_break (av a) -> enc (av a) -> frel fs a.
  Proof. unfold frel. tauto. Qed.

  Lemma frel_lastl fs a : frel fs a -> lastl b fs = av a.
  Proof. intros (H1 & H2 & H3 & H4 & H5 & H6 & H7 & H8). rewrite lastl_unf, H2. apply uni_no_break, H7. Qed.

  Lemma no_break_app s s' : no_break (s ++ s') <-> no_break s /\ no_break s'.
  Proof. apply List.Forall_app. Qed.

  Lemma last_items_Forall {A} (P : A -> Prop) n l : List.Forall P l -> List.Forall P (last_items n l).
  Proof. apply Forall_skipn'. Qed.
  Lemma last_items_map {A B} (f : A -> B) n l : last_items n (map f l) = map f (last_items n l).
  Proof. unfold last_items. rewrite map_length, skipn_map. reflexivity. Qed.

  Lemma map_item_text l : map item_text (map IStr l) = l.
  Proof. rewrite map_map. apply map_id. Qed.

  Lemma mv_keys n x : forall k fs, mv b k n fs !! x <> None -> fs !! x <> None \/ exists i, x = R i.
  Proof.
    induction k as [|k IH]; intros fs H; cbn [mv] in H; [auto|]. apply IH in H. destruct H as [H|H]; [|auto].
    destruct (fs !! R k); [|auto]. destruct (decide (x = R (k + n))) as [->|Hx]; [eauto|].
    rewrite lookup_insert_ne in H by auto. destruct (decide (x = R k)) as [->|Hx2]; [eauto|].
    rewrite lookup_delete_ne in H by auto. auto.
  Qed.
  Lemma sto_keys x : forall ls fs, sto b ls fs !! x <> None -> fs !! x <> None \/ exists i, x = R i.
  Proof.
    induction ls as [|l ls IH]; intros fs H; cbn [sto] in H; [auto|]. apply IH in H. destruct H as [H|H]; [|auto].
    destruct (decide (x = R (length ls))) as [->|Hx]; [eauto|]. rewrite lookup_insert_ne in H by auto. auto.
  Qed.
  Lemma upd_keys lines fs x : upd b lines fs !! x <> None -> fs !! x <> None \/ exists i, x = R i.
  Proof.
    unfold upd. destruct lines as [|l ls]; [auto|]. intros H. apply sto_keys in H. destruct H as [H|H]; [|auto].
    apply mv_keys in H. exact H.
  Qed.
  Lemma unf_upd lines fs : unf (upd b lines fs) = unf fs.
  Proof. unfold unfinished. change (temp_file _ _) with T. rewrite upd_tmp. reflexivity. Qed.

  Lemma opt_item_text v : map item_text (opt_item v) = opt_t v.
  Proof. destruct v; reflexivity. Qed.

  Lemma frel_no_cr fs a : frel fs a -> List.Forall no_cr (map item_text (aq a)).
  Proof.
    intros (H1 & H2 & H3 & H4 & H5 & H6 & H7 & H8). apply List.Forall_map.
    eapply List.Forall_impl; [|exact H6]. intros i (s & -> & Hs). apply no_break_no_cr, Hs.
  Qed.

  (** New complete lines and a new unfinished line. *)
  Lemma frel_update fs a lines r : 1 <= m -> frel fs a -> List.Forall no_break lines -> no_break r -> enc r ->
    frel (<[T := r]> (upd b lines fs)) (mkabuf (last_items m (aq a ++ map IStr lines)) r false).
  Proof.
    intros Hm (H1 & H2 & H3 & H4 & H5 & H6 & H7 & H8) Hl Hr He. unfold frel. cbn [aq av acl].
    split; [|split; [|split; [|split; [|split; [|split; [|split]]]]]]; auto.
    - apply records_tmp. rewrite <- last_items_map, map_app, map_item_text.
      apply records_upd_max; [exact Hm|rewrite map_length; exact H4|exact H1].
    - apply unf_insert.
    - intros x Hx. destruct (decide (x = T)) as [->|Hne]; [auto|]. rewrite lookup_insert_ne in Hx by auto.
      apply upd_keys in Hx. destruct Hx as [Hx|Hx]; auto.
    - rewrite last_items_length. lia.
    - apply last_items_Forall, List.Forall_app. split; [exact H6|]. apply List.Forall_map.
      eapply List.Forall_impl; [|exact Hl]. intros s Hs. eauto.
  Qed.

  Lemma srun_as {X} (f : X -> fres) (p : prog fcmd X) d r d' : srun p d = (r, d') ->
    srun (as_fres f p) d = (out_map f r, d').
  Proof. intros H. unfold as_fres. rewrite srun_bind, H. destruct r; reflexivity. Qed.

  Lemma file_step c fs cl a : 1 <= m -> isclosed b cl = false -> frel fs a -> common b c ->
    exists fs', srun (fb_call b (file_call c)) (dr fs cl) = (out_map to_fres (fst (astep m c a)), dr fs' cl) /\
                frel fs' (snd (astep m c a)).
  Proof.
    intros Hm Hc Hr Hcm. pose proof (frel_lastl fs a Hr) as Hl. pose proof (frel_no_cr fs a Hr) as Hcr.
    pose proof Hr as (H1 & H2 & H3 & H4 & H5 & H6 & H7 & H8).
    destruct a as [q v cl0]. cbn [aq av acl] in *. subst cl0.
    destruct c; cbn [common] in Hcm; try contradiction; cbn [file_call fb_call astep fst snd].
    - (* write *)
      apply utf8_enc in Hcm.
      exists (fwr b data fs). split.
      + erewrite srun_as by (apply write_run; auto; rewrite Hl; exact H8). reflexivity.
      + unfold fwr, wlines, wtail. destruct (seg_no_break data) as [Hn1 Hn2].
        destruct (enc_seg data Hcm) as [He1 He2].
        destruct (seg data) as [[|l ls] r]; cbn [fst snd] in *.
        * rewrite app_nil_r, last_items_all by exact H4.
          destruct r as [|c r]; [rewrite app_nil_r; exact Hr|]. set (rr := c :: r) in *.
          rewrite app_tmp_unf, H2. apply mk_frel; cbn [aq av acl]; auto.
          -- apply records_tmp, H1.
          -- apply unf_insert.
          -- intros x Hx. destruct (decide (x = T)) as [->|Hne]; [auto|]. rewrite lookup_insert_ne in Hx by auto. auto.
          -- apply no_break_app. auto.
          -- apply enc_app. auto.
        * unfold app_tmp, clean_tmp. rewrite lookup_insert, insert_insert, Hl. cbn [app].
          change (IStr (v ++ l) :: map IStr ls) with (map IStr ((v ++ l) :: ls)).
          pose proof (List.Forall_inv Hn1) as Hl1. pose proof (List.Forall_inv_tail Hn1) as Hl2.
          apply (frel_update fs (mkabuf q v false)); auto.
          constructor; [apply no_break_app; auto|assumption].
    - (* read *)
      exists fs. split; [|exact Hr]. erewrite srun_as by (apply read_run; exact Hc).
      cbn [out_map to_fres files]. f_equal. f_equal. f_equal.
      rewrite (seen_records fs (map item_text q) v Hm H1 Hcr Hl).
      assert (E : last_items m (map item_text q ++ opt_t v) = map item_text (last_items m (q ++ opt_item v))).
      { rewrite <- last_items_map, map_app, opt_item_text. reflexivity. }
      rewrite E. destruct size as [z|]; cbn [aread aq av]; [|reflexivity].
      destruct (Z.leb_spec z 0), (Z.ltb_spec 0 z); try lia; [reflexivity|]. apply last_items_map.
    - (* new_line *)
      pose proof (new_line_run b fs cl Hm ltac:(rewrite Hl; exact H8) Hc) as Hnl. rewrite Hl in Hnl.
      destruct v as [|c v].
      + exists fs. split; [|exact Hr]. erewrite srun_as by exact Hnl. reflexivity.
      + exists (clean_tmp b (upd b [c :: v] fs)). split; [erewrite srun_as by exact Hnl; reflexivity|].
        apply (frel_update fs (mkabuf q (c :: v) false) [c :: v] []); auto; [constructor|reflexivity].
    - (* clear *)
      exists (fclear b fs). split; [erewrite srun_as by apply clear_run; reflexivity|].
      apply mk_frel; cbn [aq av acl map]; auto; [| | | |constructor..|reflexivity].
      + intros i. rewrite (fclear_rec b fs i Hcm : fclear b fs !! record_file _ _ = None). destruct i; reflexivity.
      + unfold unfinished. change (temp_file _ _) with T. rewrite fclear_lookup, text_eqb_refl. reflexivity.
      + intros x Hx. rewrite fclear_lookup in Hx. destruct (text_eqb x T); [congruence|].
        destruct (glob_match _ _); [congruence|]. auto.
      + simpl. lia.
    - exists fs. split; [reflexivity|exact Hr].
    - exists fs. split; [|exact Hr]. erewrite srun_as by apply closed_run. cbn [fclosed]. rewrite Hc. reflexivity.
    - exists fs. split; [|exact Hr]. erewrite srun_as by apply readable_run. cbn [fclosed]. rewrite Hc. reflexivity.
    - exists fs. split; [|exact Hr]. erewrite srun_as by apply writable_run. cbn [fclosed]. rewrite Hc. reflexivity.
    - exists fs. split; [reflexivity|exact Hr].
    - exists fs. split; [reflexivity|exact Hr].
    - exists fs. split; [reflexivity|exact Hr].
    - exists fs. split; [reflexivity|exact Hr].
    - exists fs. split; [reflexivity|exact Hr].
  Qed.


  Lemma file_steps h k cl : 1 <= m -> b_tl b <> b_fl b -> k !! b_tl b = None -> k !! b_fl b = None ->
    isclosed b cl = false -> List.Forall (fun tc => common b (snd tc)) h ->
    forall fs a, frel fs a -> exists fs',
      fb_hist (fun _ => b) (file_hist h) (mkst (dr fs cl) k) =
        (map (out_map to_fres) (fst (ahist m h a)), mkst (dr fs' cl) k) /\
      frel fs' (snd (ahist m h a)).
  Proof.
    intros Hm Hlk Hk1 Hk2 Hc H. induction H as [|[t c] h Hcm _ IH]; intros fs a Hr.
    - exists fs. auto.
    - cbn [file_hist map fst snd fb_hist ahist]. cbn [snd] in Hcm.
      rewrite (call_run b Hlk) by assumption.
      destruct (file_step c fs cl a Hm Hc Hr Hcm) as (fs1 & -> & Hr1). cbn [fst snd].
      destruct (astep m c a) as [r a1]. cbn [fst snd] in *.
      destruct (IH fs1 a1 Hr1) as (fs2 & E & Hr2). fold (file_hist h). rewrite E.
      destruct (ahist m h a1) as [rs a2]. cbn [fst snd map] in *. eauto.
  Qed.

  Lemma isclosed_empty : isclosed b ∅ = false.
  Proof. unfold isclosed. rewrite lookup_empty. reflexivity. Qed.
  Lemma frel_empty : frel ∅ a0.
  Proof.
    unfold a0. apply mk_frel; cbn [aq av acl map]; auto; [| | |constructor..|reflexivity].
    - intros i. rewrite lookup_empty. destruct i; reflexivity.
    - intros x Hx. rewrite lookup_empty in Hx. congruence.
    - simpl. lia.
  Qed.

  Lemma c37_results h : 1 <= m -> b_tl b <> b_fl b -> List.Forall (fun tc => common b (snd tc)) h ->
    fst (fb_hist (fun _ => b) (file_hist h) (mkst (dr ∅ ∅) ∅)) =
    map (out_map to_fres) (fst (run_hist h (fresh m))).
  Proof.
    intros Hm Hlk H. rewrite fresh_cst, run_hist_ahist; [|apply lookup_empty|apply a0_ok, Hm]. cbn [fst].
    destruct (file_steps h ∅ ∅ Hm Hlk (lookup_empty _) (lookup_empty _) isclosed_empty H ∅ a0 frel_empty) as (fs' & E & _).
    rewrite E. reflexivity.
  Qed.

  Lemma c37_disk os g : 1 <= m -> b_tl b <> b_fl b ->
    List.Forall (fun to => common b (call_of (snd to))) os ->
    log_steps (map snd os) slog0 g ->
    exists fs, snd (fb_hist (fun _ => b) (file_hist (hist_of os)) (mkst (dr ∅ ∅) ∅)) = mkst (dr fs ∅) ∅ /\
      records (b_name b) fs (last_items m (map item_text (done g))) /\
      unf fs = pend g /\
      (forall x, fs !! x <> None -> x = T \/ exists i, i < Nat.min m (length (done g)) /\ x = R i).
  Proof.
    intros Hm Hlk H Hg.
    assert (H' : List.Forall (fun tc => common b (snd tc)) (hist_of os)).
    { apply List.Forall_map. exact H. }
    destruct (file_steps (hist_of os) ∅ ∅ Hm Hlk (lookup_empty _) (lookup_empty _) isclosed_empty H' ∅ a0 frel_empty)
      as (fs & E & Hr). exists fs. rewrite E. split; [reflexivity|].
    assert (Ha : snd (ahist m (hist_of os) a0) = absg m g).
    { change a0 with (absg m slog0). rewrite ahist_gsteps. f_equal. symmetry. apply log_steps_fun, Hg. }
    rewrite Ha in Hr. destruct Hr as (H1 & H2 & H3 & H4 & H5 & H6 & H7 & H8).
    split; [rewrite last_items_map; exact H1|]. split; [exact H2|].
    intros x Hx. destruct (H3 x Hx) as [->|[i ->]]; [auto|]. right. exists i. split; [|reflexivity].
    rewrite (H1 i : fs !! R i = _) in Hx. apply nth_error_Some in Hx. rewrite rev_length, map_length in Hx.
    cbn [absg aq] in Hx. rewrite last_items_length in Hx. exact Hx.
  Qed.
End B.

(** ** C42 *)
Section More.
  Variable b : fbuf.
  Notation R := (rec_name b).
  Notation T := (tmp_name b).
  Notation m := (b_max b).
  Notation dr fs cl := (mkfdir fs cl).
  Notation unf := (unfinished (b_name b) (b_tmp b)).
  Hypothesis Hwf : wf_fbuf b.

  Lemma is_open_flag d : is_open b d -> isclosed b (fclosed d) = false.
  Proof. intros H. unfold isclosed. rewrite H. reflexivity. Qed.
  Lemma is_closed_flag d : is_closed b d -> isclosed b (fclosed d) = true.
  Proof. intros H. unfold isclosed. rewrite H. reflexivity. Qed.
  Lemma unlocked_in k : unlocked b k -> forall l, In l [b_tl b; b_fl b] -> k !! l = None.
  Proof. intros [H1 H2] l [<-|[<-|[]]]; assumption. Qed.

  Lemma run_bal {A} t (p : prog fcmd A) d k : unlocked b k -> bal [b_tl b; b_fl b] p ->
    run t p (mkst d k) = (fst (srun p d), mkst (snd (srun p d)) k).
  Proof. intros Hk Hp. apply Hp; [apply unlocked_in, Hk|apply fb_nb]. Qed.

  Lemma seen_empty fs : (forall i, fs !! R i = None) -> unf fs = [] -> seen b fs = [].
  Proof.
    intros H Hu. destruct Hwf as [Hm _].
    rewrite (seen_records b fs [] [] Hm); [reflexivity| |constructor|].
    - intros i. rewrite (H i : fs !! record_file _ _ = _). destruct i; reflexivity.
    - rewrite lastl_unf, Hu. reflexivity.
  Qed.

  Lemma c42 t k d : plain (b_name b) -> unlocked b k ->
    exists fs', run t (fb_clear b) (mkst d k) = (Good tt, mkst (dr fs' (fclosed d)) k) /\
      (forall x, x = temp_file (b_name b) (b_tmp b) \/ (exists mid, x = b_name b ++ txt "-" ++ mid ++ txt ".log") ->
         fs' !! x = None) /\
      (forall x, x <> temp_file (b_name b) (b_tmp b) -> (forall mid, x <> b_name b ++ txt "-" ++ mid ++ txt ".log") ->
         fs' !! x = files d !! x) /\
      (is_open b d -> run t (fb_read b None) (mkst (dr fs' (fclosed d)) k) = (Good [], mkst (dr fs' (fclosed d)) k)).
  Proof.
    intros Hp Hk. destruct d as [fs cl]. cbn [files fclosed]. destruct Hwf as [Hm Hlk]. exists (fclear b fs).
    rewrite (run_bal t _ _ _ Hk (bal_clear b)), clear_run. cbn [fst snd]. split; [reflexivity|].
    split; [|split].
    - intros x Hx. rewrite fclear_lookup. destruct (text_eqb x T) eqn:E; [reflexivity|].
      destruct Hx as [->|Hx]; [exfalso; apply text_eqb_neq in E; apply E; reflexivity|].
      apply (glob_log _ _ Hp) in Hx. unfold log_pat. rewrite Hx. reflexivity.
    - intros x H1 H2. rewrite fclear_lookup. destruct (text_eqb x T) eqn:E.
      + apply text_eqb_eq in E. contradiction.
      + destruct (glob_match (log_pat b) x) eqn:G; [|reflexivity].
        apply (glob_log _ _ Hp) in G. destruct G as [mid G]. exfalso. apply (H2 mid G).
    - intros Ho. rewrite (run_bal t _ _ _ Hk (bal_read b Hlk None)), read_run by (apply is_open_flag, Ho).
      cbn [fst snd files]. rewrite seen_empty; [reflexivity| |].
      + intros i. apply fclear_rec, Hp.
      + unfold unfinished. change (temp_file _ _) with T. rewrite fclear_lookup, text_eqb_refl. reflexivity.
  Qed.

  (** ** C44 *)
  Lemma exc_record_eq e t : exc_record e t <-> t = exc_text e.
  Proof.
    unfold exc_record, exc_text. rewrite splitlines_seg. split.
    - intros (ls & r & Hs & ->). apply segments_seg in Hs. rewrite Hs. reflexivity.
    - intros ->. exists (fst (seg (ex_text e))), (snd (seg (ex_text e))). split; [apply seg_segments|reflexivity].
  Qed.
  Lemma join_Forall (P : N -> Prop) (l : list text) : P LF -> List.Forall (List.Forall P) l ->
    List.Forall P (join [LF] l).
  Proof.
    intros H0. induction 1 as [|s l Hs Hl IH]; [constructor|]. cbn [join]. destruct l as [|s' l]; [exact Hs|].
    apply List.Forall_app. split; [exact Hs|]. apply List.Forall_app. split; [constructor; [exact H0|constructor]|exact IH].
  Qed.
  Lemma exc_text_utf8 e : utf8 (ex_text e) -> utf8 (exc_text e).
  Proof.
    intros H. apply join_Forall; [unfold LF; lia|]. rewrite splitlines_seg.
    apply utf8_enc in H. destruct (enc_seg _ H) as [H1 H2]. apply List.Forall_app. split.
    - eapply List.Forall_impl; [|exact H1]. intros s Hs. apply utf8_enc, Hs.
    - destruct (snd (seg (ex_text e))); cbn [opt_line]; [constructor|]. constructor; [|constructor].
      apply utf8_enc, H2.
  Qed.
  Lemma exc_text_no_cr e : no_cr (exc_text e).
  Proof.
    assert (H : List.Forall (fun c => c <> CR) (exc_text e)).
    { apply join_Forall; [discriminate|]. rewrite splitlines_seg.
      destruct (seg_no_break (ex_text e)) as [H1 H2].
      assert (Hc : forall s, no_break s -> List.Forall (fun c => c <> CR) s).
      { intros s Hs. apply List.Forall_forall. intros x Hx ->. apply (no_break_no_cr s Hs Hx). }
      apply List.Forall_app. split; [eapply List.Forall_impl; [|exact H1]; exact Hc|].
      destruct (snd (seg (ex_text e))); cbn [opt_line]; [constructor|]. constructor; [|constructor]. apply Hc, H2. }
    intros Hi. rewrite List.Forall_forall in H. apply (H _ Hi). reflexivity.
  Qed.

  Lemma c44 t k d e r : unlocked b k -> is_open b d -> utf8 (ex_text e) -> exc_record e r ->
    exists fs', run t (fb_send_exc b e) (mkst d k) = (Good tt, mkst (dr fs' (fclosed d)) k) /\
      fs' !! record_file (b_name b) 0 = Some r /\
      (forall x, (forall n, x <> record_file (b_name b) n) -> fs' !! x = files d !! x) /\
      (forall l, records (b_name b) (files d) l -> length l <= m ->
         records (b_name b) fs' (last_items m (l ++ [r])) /\
         (List.Forall no_cr l -> no_cr (unf (files d)) ->
          run t (fb_read b None) (mkst (dr fs' (fclosed d)) k) =
          (Good (last_items m (l ++ [r] ++ match unf (files d) with [] => [] | v => [v] end)),
           mkst (dr fs' (fclosed d)) k))).
  Proof.
    intros Hk Ho Hu Hr. apply exc_record_eq in Hr. subst r. destruct d as [fs cl]. cbn [files fclosed] in *.
    destruct Hwf as [Hm Hlk]. pose proof (is_open_flag _ Ho) as Hc. cbn [fclosed] in Hc.
    exists (upd b [exc_text e] fs). rewrite (run_bal t _ _ _ Hk (bal_send_exc b e)).
    rewrite send_exc_run by (auto; apply utf8_enc, exc_text_utf8, Hu). cbn [fst snd]. split; [reflexivity|].
    split; [|split].
    - change (record_file (b_name b) 0) with (R 0). rewrite upd_rec by (auto; discriminate). cbv zeta.
      replace (0 <? Nat.min m (length [exc_text e])) with true by (symmetry; apply Nat.ltb_lt; simpl; lia).
      reflexivity.
    - intros x Hx. apply upd_other, Hx.
    - intros l Hl Hlen. pose proof (records_upd_max b fs l [exc_text e] Hm Hlen Hl) as Hrec. split; [exact Hrec|].
      intros Hcl Hcu. rewrite (run_bal t _ _ _ Hk (bal_read b Hlk None)), read_run by exact Hc. cbn [fst snd files].
      f_equal. f_equal. rewrite (seen_records b _ _ (unf fs) Hm Hrec).
      + rewrite last_items_app_idem, <- app_assoc. destruct (unf fs); reflexivity.
      + apply last_items_Forall, List.Forall_app. split; [exact Hcl|]. constructor; [apply exc_text_no_cr|constructor].
      + rewrite lastl_unf, unf_upd. apply uni_no_cr, Hcu.
  Qed.

  Lemma c44_close t k d e : unlocked b k -> is_open b d -> utf8 (ex_text e) ->
    utf8 (unf (files d)) -> no_cr (unf (files d)) ->
    exists fs', run t (fb_close b (Some e)) (mkst d k) = (Good tt, mkst (dr fs' (<[b_id b := tt]> (fclosed d))) k) /\
      fs' !! temp_file (b_name b) (b_tmp b) = files d !! temp_file (b_name b) (b_tmp b) /\
      (forall l, records (b_name b) (files d) l -> length l <= m -> forall r, exc_record e r ->
         records (b_name b) fs' (last_items m (l ++ [r]))).
  Proof.
    intros Hk Ho Hu Hv1 Hv2. destruct d as [fs cl]. cbn [files fclosed] in *.
    destruct Hwf as [Hm Hlk]. pose proof (is_open_flag _ Ho) as Hc. cbn [fclosed] in Hc.
    exists (upd b [exc_text e] fs).
    assert (Hb : bal [b_tl b; b_fl b] (fb_close b (Some e))).
    { unfold fb_close. apply bal_bind; [apply bal_send_exc|]. intros; apply bal_op. }
    rewrite (run_bal t _ _ _ Hk Hb), close_run.
    - cbn [fst snd]. split; [reflexivity|]. split; [apply upd_tmp|].
      intros l Hl Hlen r Hr. apply exc_record_eq in Hr. subst r. apply records_upd_max; assumption.
    - exact Hm.
    - rewrite lastl_unf, uni_no_cr by exact Hv2. apply utf8_enc, Hv1.
    - intros e' [= <-]. apply utf8_enc, exc_text_utf8, Hu.
    - exact Hc.
  Qed.

  (** ** C45 *)
  Lemma closed_srun d c : 1 <= m -> isclosed b (fclosed d) = true -> c <> XClear ->
    srun (fb_call b c) d = (closed_file_answer b (length (seen b (files d))) c, d).
  Proof.
    intros Hm Hcl Hc. destruct c; try congruence; cbn [fb_call closed_file_answer].
    - erewrite srun_as by (apply write_closed, Hcl). reflexivity.
    - erewrite srun_as by (apply read_closed, Hcl). reflexivity.
    - erewrite srun_as by (apply new_line_closed, Hcl). reflexivity.
    - erewrite srun_as by (apply close_closed, Hcl). reflexivity.
    - erewrite srun_as by (apply send_exc_closed, Hcl). reflexivity.
    - reflexivity.
    - erewrite srun_as by (apply len_run, Hm). reflexivity.
    - erewrite srun_as by apply closed_run. rewrite Hcl. reflexivity.
    - erewrite srun_as by apply readable_run. rewrite Hcl. reflexivity.
    - erewrite srun_as by apply writable_run. rewrite Hcl. reflexivity.
    - reflexivity.
    - reflexivity.
    - reflexivity.
    - reflexivity.
    - reflexivity.
  Qed.
  Lemma c45_answers t k d c : unlocked b k -> is_closed b d -> c <> XClear ->
    exists l, sees (b_name b) (b_tmp b) m (files d) l /\
      run t (fb_call b c) (mkst d k) = (closed_file_answer b (length l) c, mkst d k).
  Proof.
    intros Hk Hcl Hc. destruct Hwf as [Hm Hlk]. apply is_closed_flag in Hcl.
    exists (seen b (files d)). split; [apply seen_sees|].
    rewrite (run_bal t _ _ _ Hk (bal_call b Hlk c)).
    pose proof (closed_srun d c Hm Hcl Hc) as E.
    rewrite E. reflexivity.
  Qed.
End More.

(** No command ever re-opens a buffer. *)
Lemma fexec_closed X (c : fcmd X) d i : fclosed d !! i = Some tt -> fclosed (snd (cexec c d)) !! i = Some tt.
Proof.
  intros H. destruct c; simpl; auto.
  - destruct (files d !! n); exact H.
  - destruct (files d !! old); exact H.
  - destruct (files d !! n); exact H.
  - destruct (decide (i = i0)) as [->|Hn]; [apply lookup_insert|rewrite lookup_insert_ne by auto; exact H].
Qed.
Lemma run_closed_stays {A} t (p : prog fcmd A) i : forall s, fclosed (dat s) !! i = Some tt ->
  fclosed (dat (snd (run t p s))) !! i = Some tt.
Proof.
  induction p as [a|e|X c k IHk h IHh]; intros s H; [exact H|exact H|]. cbn [run].
  assert (H' : fclosed (dat (snd (exec t c s))) !! i = Some tt).
  { destruct c as [l mo|l|X c]; cbn [exec].
    - destruct (lock_acq _ _ _ _ _); exact H.
    - destruct (lock_rel _ _ _); exact H.
    - pose proof (fexec_closed _ c (dat s) i H) as Hx. destruct (cexec c (dat s)); exact Hx. }
  destruct (exec t c s) as [[x|e|] s']; cbn [snd] in *; auto.
Qed.
Lemma c45_forever bs h b : forall s, is_closed b (dat s) -> is_closed b (dat (snd (fb_hist bs h s))).
Proof.
  induction h as [|[i c] h IH]; intros s H; [exact H|]. cbn [fb_hist].
  pose proof (run_closed_stays i (fb_call (bs i) c) (b_id b) s H) as H1.
  destruct (run i (fb_call (bs i) c) s) as [r s1]. cbn [snd] in H1. specialize (IH s1 H1).
  destruct (fb_hist bs h s1) as [rs s2]. exact IH.
Qed.

Lemma c45_close b t k d : wf_fbuf b -> unlocked b k -> is_open b d ->
  utf8 (unfinished (b_name b) (b_tmp b) (files d)) -> no_cr (unfinished (b_name b) (b_tmp b) (files d)) ->
  exists fs', run t (fb_close b None) (mkst d k) = (Good tt, mkst (mkfdir fs' (<[b_id b := tt]> (fclosed d))) k) /\
    unfinished (b_name b) (b_tmp b) fs' = [] /\
    (forall l, records (b_name b) (files d) l -> length l <= b_max b ->
       records (b_name b) fs'
         (last_items (b_max b) (l ++ match unfinished (b_name b) (b_tmp b) (files d) with [] => [] | v => [v] end))).
Proof.
  intros Hwf Hk Ho Hv1 Hv2. destruct d as [fs cl]. cbn [files fclosed] in *.
  pose proof Hwf as [Hm Hlk]. pose proof (is_open_flag b _ Ho) as Hc. cbn [fclosed] in Hc.
  assert (Hl : lastl b fs = unfinished (b_name b) (b_tmp b) fs) by (rewrite lastl_unf; apply uni_no_cr, Hv2).
  assert (Hb : bal [b_tl b; b_fl b] (fb_close b None)).
  { unfold fb_close. apply bal_bind; [apply bal_new_line|]. intros; apply bal_op. }
  rewrite (run_bal b t _ _ _ Hk Hb), close_run; [|exact Hm| |discriminate|exact Hc].
  2: { rewrite Hl. apply utf8_enc, Hv1. }
  rewrite Hl. cbn [fst snd]. destruct (unfinished (b_name b) (b_tmp b) fs) as [|c v] eqn:E.
  - exists fs. split; [reflexivity|]. split; [exact E|]. intros l Hr Hlen.
    rewrite app_nil_r, last_items_all by exact Hlen. exact Hr.
  - eexists. split; [reflexivity|]. split; [apply unf_insert|]. intros l Hr Hlen.
    apply records_tmp. apply records_upd_max; assumption.
Qed.

(** ** C46 *)
Lemma subseq_refl {A} (l : list A) : subseq l l.
Proof. induction l; [apply subseq_nil|apply subseq_keep; assumption]. Qed.
Lemma subseq_nil_l {A} (l : list A) : subseq [] l.
Proof. induction l; [apply subseq_nil|apply subseq_skip; assumption]. Qed.
Lemma subseq_app {A} (a a' b b' : list A) : subseq a a' -> subseq b b' -> subseq (a ++ b) (a' ++ b').
Proof. intros H Hb. induction H; cbn [app]; [exact Hb|apply subseq_skip; auto|apply subseq_keep; auto]. Qed.
Lemma subseq_skipn {A} n (l : list A) : subseq (skipn n l) l.
Proof.
  revert l. induction n as [|n IH]; intros l; [apply subseq_refl|]. destruct l; [apply subseq_nil|].
  cbn. apply subseq_skip. apply IH.
Qed.

Definition write_lines (v data : text) : list text := map item_text (wlines v data).

Lemma middle_subseq {A} m (l lines : list A) :
  subseq (firstn (length l - m) l ++ last_items m (l ++ lines)) (l ++ lines).
Proof.
  rewrite <- (last_items_app_idem m l lines).
  assert (E : l ++ lines = firstn (length l - m) l ++ (last_items m l ++ lines))
    by (unfold last_items; rewrite app_assoc, firstn_skipn; reflexivity).
  rewrite E. apply subseq_app; [apply subseq_refl|]. apply subseq_skipn.
Qed.

Lemma c46_sees b t k d l : wf_fbuf b -> unlocked b k -> is_open b d ->
  records (b_name b) (files d) l -> List.Forall no_cr l -> no_cr (unfinished (b_name b) (b_tmp b) (files d)) ->
  run t (fb_read b None) (mkst d k) =
  (Good (last_items (b_max b) (l ++ match unfinished (b_name b) (b_tmp b) (files d) with [] => [] | v => [v] end)),
   mkst d k).
Proof.
  intros Hwf Hk Ho Hr Hcl Hcu. pose proof Hwf as [Hm Hlk].
  rewrite (run_bal b t _ _ _ Hk (bal_read b Hlk None)), read_run by (apply is_open_flag, Ho). cbn [fst snd].
  rewrite (seen_records b _ _ (unfinished (b_name b) (b_tmp b) (files d)) Hm Hr Hcl);
    [destruct (unfinished (b_name b) (b_tmp b) (files d)); reflexivity|].
  rewrite lastl_unf. apply uni_no_cr, Hcu.
Qed.

Lemma c46_write b t k d l data l1 ls r : wf_fbuf b -> unlocked b k -> is_open b d ->
  records (b_name b) (files d) l -> utf8 data ->
  utf8 (unfinished (b_name b) (b_tmp b) (files d)) -> no_cr (unfinished (b_name b) (b_tmp b) (files d)) ->
  segments data (l1 :: ls) r ->
  let lines := (unfinished (b_name b) (b_tmp b) (files d) ++ l1) :: ls in
  exists n fs', run t (fb_write b data) (mkst d k) = (Good n, mkst (mkfdir fs' (fclosed d)) k) /\
    unfinished (b_name b) (b_tmp b) fs' = r /\
    records (b_name b) fs' (firstn (length l - b_max b) l ++ last_items (b_max b) (l ++ lines)) /\
    subseq (firstn (length l - b_max b) l ++ last_items (b_max b) (l ++ lines)) (l ++ lines).
Proof.
  intros Hwf Hk Ho Hr Hd Hu1 Hu2 Hs lines. pose proof Hwf as [Hm Hlk]. destruct d as [fs cl]. cbn [files fclosed] in *.
  pose proof (is_open_flag b _ Ho) as Hc. cbn [fclosed] in Hc.
  assert (Hl : lastl b fs = unfinished (b_name b) (b_tmp b) fs) by (rewrite lastl_unf; apply uni_no_cr, Hu2).
  assert (Hb : bal [b_tl b; b_fl b] (fb_write b data)).
  { unfold fb_write. apply bal_bind; [apply bal_both; [exact Hlk|]; apply bal_bind; intros; [apply bal_op|apply bal_ret]|].
    intros w. destruct (negb w); [apply bal_raise|apply bal_write_body]. }
  exists (wres data), (fwr b data fs).
  rewrite (run_bal b t _ _ _ Hk Hb), write_run; [|exact Hm|apply utf8_enc, Hd|rewrite Hl; apply utf8_enc, Hu1|exact Hc].
  split; [reflexivity|]. apply segments_seg in Hs. unfold fwr. rewrite Hs, Hl. fold lines.
  unfold app_tmp, clean_tmp. rewrite lookup_insert, insert_insert. cbn [app].
  split; [apply unf_insert|]. split; [|apply middle_subseq].
  apply records_tmp, records_upd; assumption.
Qed.

(** ** The constructor *)
Lemma c14_file p v t :
  match fb_init p v t with
  | Good (_, _, _, n) => exists z, as_int v = Some z /\ (1 <= z)%Z /\ n = Z.to_nat z
  | Fail e => e = TypeError
  | Block => False
  end.
Proof.
  unfold fb_init. destruct (as_int v) as [z|]; [|reflexivity].
  destruct (Z.ltb_spec z 1); [reflexivity|]. destruct (strip p); [reflexivity|]. destruct t; [reflexivity|].
  destruct (path_split _) as [dir [|c name]]; [reflexivity|]. exists z. auto.
Qed.

Lemma rfind1_none c s : ~ In c s -> rfind1 c s = 0.
Proof.
  induction s as [|x s IH]; intros H; [reflexivity|]. cbn. rewrite IH by (intros Hi; apply H; right; exact Hi).
  destruct (N.eqb_spec x c) as [->|]; [|reflexivity]. exfalso. apply H. left. reflexivity.
Qed.
Lemma rfind1_app c s s' : ~ In c s' -> rfind1 c (s ++ s') = rfind1 c s.
Proof.
  intros H. induction s as [|x s IH]; cbn; [apply rfind1_none, H|]. rewrite IH. reflexivity.
Qed.
Lemma rfind1_at c s s' : ~ In c s' -> rfind1 c (s ++ c :: s') = S (length s).
Proof.
  intros H. induction s as [|x s IH]; cbn.
  - rewrite rfind1_none by exact H. rewrite N.eqb_refl. reflexivity.
  - rewrite IH. reflexivity.
Qed.
Lemma rfind1_le c s : rfind1 c s <= length s.
Proof. induction s as [|x s IH]; cbn; [lia|]. destruct (rfind1 c s); [destruct (N.eqb x c); lia|lia]. Qed.

Lemma splitext0_ext dir base ext : (dir = [] \/ exists d, dir = d ++ [slash]) -> ~ In slash base ->
  (exists c, In c base /\ c <> dot) -> ~ In slash ext -> ~ In dot ext ->
  splitext0 (dir ++ base ++ dot :: ext) = dir ++ base.
Proof.
  intros Hd Hb (c & Hc & Hcd) H1 H2. unfold splitext0. rewrite app_assoc.
  rewrite rfind1_at by exact H2.
  assert (Hsep : rfind1 slash ((dir ++ base) ++ dot :: ext) = length dir).
  { rewrite rfind1_app by (intros [H|H]; [discriminate|apply (H1 H)]). rewrite rfind1_app by exact Hb.
    destruct Hd as [->|[d ->]]; [reflexivity|]. rewrite rfind1_at by intros []. rewrite app_length. cbn. lia. }
  rewrite Hsep, app_length. replace (length dir <? S (length dir + length base)) with true
    by (symmetry; apply Nat.ltb_lt; lia).
  replace (S (length dir + length base) - 1) with (length (dir ++ base)) by (rewrite app_length; lia).
  rewrite firstn_app, firstn_all, Nat.sub_diag, firstn_O, app_nil_r.
  rewrite skipn_app, skipn_all, Nat.sub_diag. cbn [app skipn andb].
  replace (existsb _ base) with true; [reflexivity|]. symmetry. apply existsb_exists. exists c.
  split; [exact Hc|]. apply negb_true_iff, N.eqb_neq, Hcd.
Qed.

Lemma strip_id (s : text) c s' d : s = c :: s' -> is_space c = false -> is_space (last s d) = false ->
  strip s = s.
Proof.
  intros -> Hc Hl. unfold strip. cbn [lstrip_by]. rewrite Hc. unfold rstrip_by.
  destruct (exists_last (l := c :: s') ltac:(discriminate)) as (l & x & E). rewrite E in *.
  rewrite last_last in Hl. rewrite rev_app_distr. cbn [rev app lstrip_by]. rewrite Hl.
  cbn [rev]. rewrite rev_involutive. reflexivity.
Qed.

Lemma c69 dir base e1 e2 v t : (dir = [] \/ exists d, dir = d ++ [slash]) -> ~ In slash base ->
  (exists c, In c base /\ c <> dot) ->
  ~ space (hd 0%N (dir ++ base)) ->
  (~ In slash e1 /\ ~ In dot e1 /\ List.Forall (fun c => ~ space c) e1) ->
  (~ In slash e2 /\ ~ In dot e2 /\ List.Forall (fun c => ~ space c) e2) ->
  fb_init (dir ++ base ++ dot :: e1) v t = fb_init (dir ++ base ++ dot :: e2) v t.
Proof.
  intros Hd Hb Hc Hs (A1 & A2 & A3) (B1 & B2 & B3).
  apply not_space_iff in Hs.
  assert (Hst : forall e, List.Forall (fun c => ~ space c) e ->
            strip (dir ++ base ++ dot :: e) = dir ++ base ++ dot :: e).
  { intros e He. destruct (dir ++ base) as [|c0 r] eqn:E.
    - exfalso. destruct Hc as (c & Hc & _). apply app_eq_nil in E. destruct E as [_ ->]. destruct Hc.
    - rewrite app_assoc, E. cbn [hd] in Hs. eapply (strip_id _ _ _ 0%N); [reflexivity|exact Hs|].
      rewrite last_app_ne by discriminate. destruct (exists_last (l := dot :: e) ltac:(discriminate)) as (l & x & El).
      rewrite El, last_last. assert (Hx : In x (dot :: e)) by (rewrite El; apply in_or_app; right; left; reflexivity).
      destruct Hx as [<-|Hx]; [reflexivity|]. rewrite List.Forall_forall in He. apply not_space_iff, He, Hx. }
  unfold fb_init. rewrite !Hst, !splitext0_ext by assumption.
  assert (Hne : forall e, match dir ++ base ++ dot :: e with [] => True | _ => False end -> False)
    by (intros e; destruct dir; [destruct base|]; intros []).
  pose proof (Hne e1) as N1. pose proof (Hne e2) as N2.
  destruct (dir ++ base ++ dot :: e1); [destruct N1; exact I|].
  destruct (dir ++ base ++ dot :: e2); [destruct N2; exact I|]. reflexivity.
Qed.

(** ** C70 *)
Lemma not_utf8 s : ~ utf8 s -> forallb encodable s = false.
Proof. intros H. destruct (forallb encodable s) eqn:E; [|reflexivity]. exfalso. apply H, utf8_enc, E. Qed.

Lemma write_body_bad b data d : segments data [] data -> ~ utf8 data ->
  srun (fb_write_body b data) d =
  (Fail ValueError, mkfdir (match files d !! tmp_name b with
                            | Some _ => files d | None => <[tmp_name b := []]> (files d) end) (fclosed d)).
Proof.
  intros Hs Hu. apply segments_seg in Hs. unfold fb_write_body. cbv zeta. rewrite splitlines_single.
  assert (Hsb : single_break data = false) by (unfold single_break; rewrite Hs; reflexivity). rewrite Hsb.
  rewrite is_end_seg, splitlines_seg, Hs. cbn [fst snd].
  destruct data as [|c data']; [exfalso; apply Hu; constructor|]. cbn [opt_line app].
  unfold fb_write_last_line. rewrite srun_with.
  rewrite srun_bind, srun_op. cbn [cexec fsem fexec].
  destruct d as [fs cl]. cbn [files fclosed].
  destruct (fs !! tmp_name b) eqn:E; unfold file_write; rewrite srun_bind, srun_op; cbn [cexec fsem fexec];
    rewrite (not_utf8 _ Hu); reflexivity.
Qed.
Lemma c70 b t k d data : wf_fbuf b -> unlocked b k -> is_open b d -> segments data [] data -> ~ utf8 data ->
  exists fs', run t (fb_write b data) (mkst d k) = (Fail ValueError, mkst (mkfdir fs' (fclosed d)) k) /\
    (forall x, x <> temp_file (b_name b) (b_tmp b) -> fs' !! x = files d !! x) /\
    unfinished (b_name b) (b_tmp b) fs' = unfinished (b_name b) (b_tmp b) (files d).
Proof.
  intros [Hm Hlk] Hk Ho Hs Hu. eexists.
  assert (Hb : bal [b_tl b; b_fl b] (fb_write b data)).
  { unfold fb_write. apply bal_bind; [apply bal_both; [exact Hlk|]; apply bal_bind; intros; [apply bal_op|apply bal_ret]|].
    intros w. destruct (negb w); [apply bal_raise|apply bal_write_body]. }
  rewrite (run_bal b t _ _ _ Hk Hb). unfold fb_write. rewrite srun_bind, writable_run.
  rewrite (is_open_flag b _ Ho). cbn [negb]. rewrite write_body_bad by assumption.
  split; [reflexivity|]. unfold unfinished. change (temp_file (b_name b) (b_tmp b)) with (tmp_name b).
  destruct (files d !! tmp_name b) eqn:E.
  - rewrite E. auto.
  - rewrite lookup_insert. split; [|reflexivity]. intros x Hx. apply lookup_insert_ne. auto.
Qed.

(** ** Numbers in names *)
Lemma dec_digits_decimal f : forall n acc, (n < 2 ^ N.of_nat (S f))%N ->
  exists s, dec_digits (S f) n acc = s ++ acc /\ decimal (N.to_nat n) s.
Proof.
  assert (Hd : forall n, (n < 10)%N -> decimal (N.to_nat n) [(48 + n)%N]).
  { intros n Hn. pose proof (dc_digit (N.to_nat n)) as H. rewrite N2Nat.id in H. apply H. lia. }
  assert (Hone : forall n, (n / 10 = 0)%N -> decimal (N.to_nat n) [(48 + n mod 10)%N]).
  { intros n Hn. apply N.div_small_iff in Hn; [|lia]. rewrite N.mod_small by exact Hn. apply Hd, Hn. }
  induction f as [|f IH]; intros n acc Hn.
  - assert (Hn' : (n < 2)%N) by exact Hn. exists [(48 + n mod 10)%N]. cbn [dec_digits].
    rewrite (N.div_small n 10) by lia. split; [reflexivity|]. apply Hone. apply N.div_small. lia.
  - change (dec_digits (S (S f)) n acc) with
      (if (n / 10 =? 0)%N then (48 + n mod 10)%N :: acc else dec_digits (S f) (n / 10) ((48 + n mod 10)%N :: acc)).
    destruct (N.eqb_spec (n / 10) 0) as [E|E].
    + exists [(48 + n mod 10)%N]. split; [reflexivity|apply Hone, E].
    + destruct (IH (n / 10)%N ((48 + n mod 10)%N :: acc)) as (s & E1 & H1).
      { rewrite Nat2N.inj_succ, N.pow_succ_r' in Hn. apply N.div_lt_upper_bound; lia. }
      exists (s ++ [(48 + n mod 10)%N]). split; [rewrite E1, <- app_assoc; reflexivity|].
      pose proof (N.mod_lt n 10) as Hm. pose proof (dc_more (N.to_nat (n / 10)) s (N.to_nat (n mod 10))) as H2.
      rewrite N2Nat.id in H2. replace (N.to_nat n) with (10 * N.to_nat (n / 10) + N.to_nat (n mod 10)).
      * apply H2; [apply Nat.neq_0_lt_0; intros E0; apply E, N2Nat.inj; exact E0|exact H1|specialize (Hm ltac:(discriminate)); lia].
      * rewrite (N.div_mod n 10) at 3 by lia. lia.
Qed.
Theorem number_text n s : decimal n s <-> s = dec_of_nat n.
Proof.
  assert (H0 : forall n, decimal n (dec_of_nat n)).
  { intros k. unfold dec_of_nat, dec_of_N. destruct (dec_digits_decimal (N.to_nat (N.log2 (N.of_nat k))) (N.of_nat k) []) as (s1 & E & H).
    - rewrite Nat2N.inj_succ, N2Nat.id. destruct (N.eq_dec (N.of_nat k) 0) as [->|Hk]; [reflexivity|]. apply N.log2_spec. lia.
    - rewrite E, app_nil_r. rewrite Nat2N.id in H. exact H. }
  assert (Hv : forall n s, decimal n s -> dec_val s 0 = N.of_nat n /\ s <> []).
  { induction 1 as [d Hd|k s1 d Hk H [IH Hne] Hd]; (split; [|try (intros E; apply app_eq_nil in E; destruct E); discriminate]).
    - unfold dec_val. cbn. lia.
    - unfold dec_val in *. rewrite fold_left_app, IH. cbn [fold_left]. lia. }
  assert (Hf : forall n s, decimal n s -> forall s', decimal n s' -> s = s').
  { induction 1 as [d Hd|k s1 d Hk H IH Hd]; intros s' H'.
    - inversion H' as [d' Hd' Ed|k' s2 d' Hk' H2 Hd' Ek]; subst; [reflexivity|lia].
    - inversion H' as [d' Hd' Ed|k' s2 d' Hk' H2 Hd' Ek]; subst; [lia|]. assert (k' = k) by lia. subst k'.
      assert (d' = d) by lia. subst d'. rewrite (IH s2 H2). reflexivity. }
  split; [intros H; eapply Hf; eauto|intros ->; apply H0].
Qed.
Theorem record_file_number p n x : x = record_file p n <-> exists s, decimal n s /\ x = p ++ txt "-" ++ s ++ txt ".log".
Proof.
  split.
  - intros ->. exists (dec_of_nat n). split; [apply number_text; reflexivity|reflexivity].
  - intros (s & H & ->). apply number_text in H. subst s. reflexivity.
Qed.
