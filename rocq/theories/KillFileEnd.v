(** * KillFileEnd: processes that are killed while they use one log: the theorems *)
From stdpp Require Import gmap.
From Coq Require Import String.
From Coq Require Import List NArith ZArith Bool Arith Lia.
From Verif Require Import PyStr Prog ProgFacts PyIO Base Spec SpecFacts LineBuf LineBufFacts Locks LineBufConcProofs FileBuf FileFacts FileMore FileSpec FileStmt FileProofs FileConcSpec FileConc CrashSpec Kill KillFacts KillRely KillFileSpec KillFile KillFileOps KillFileCalls KillFileAll.
Import ListNotations.
Local Open Scope nat_scope.

(** What calls add, computed. *)
Definition call_adds (c : fcall) (v : text) : list text * text :=
  match c with
  | XWrite data => piece data v
  | XNewLine => (own_line v, [])
  | XSendExc e => ([exc_text e], v)
  | _ => ([], v)
  end.
Lemma call_adds_spec c v : logging c -> adds c v (fst (call_adds c v)) (snd (call_adds c v)).
Proof.
  destruct c; intros H; try contradiction; try (apply add_nothing; exact I).
  - cbn [call_adds]. unfold piece. pose proof (seg_segments data) as Hs. destruct (seg data) as [[|l ls] r]; constructor; assumption.
  - exact (add_new_line v).
  - constructor; [exact H|]. apply exc_record_eq. reflexivity.
Qed.
Fixpoint all_adds (cs : list fcall) (v : text) : list (list text) * text :=
  match cs with
  | [] => ([], v)
  | c :: cs' => let '(bt, v1) := call_adds c v in let '(bts, v2) := all_adds cs' v1 in (bt :: bts, v2)
  end.
Lemma all_adds_spec cs : forall v, List.Forall logging cs -> adds_all cs v (fst (all_adds cs v)) (snd (all_adds cs v)).
Proof.
  induction cs as [|c cs IH]; intros v H; simpl; [constructor|]. inversion H as [|? ? H1 H2]; subst.
  pose proof (call_adds_spec c v H1) as Hc. destruct (call_adds c v) as [bt v1]. specialize (IH v1 H2).
  destruct (all_adds cs v1) as [bts v2]. simpl in *. econstructor; eauto.
Qed.

(** The history at the beginning. *)
Definition hist0 (l : list text) : history := map (pair None) l.
Definition pos0 (l : list text) : gmap nat nat := map_seq 0 (rev (seq 0 (length l))).
Lemma rev_seq_lookup k i : rev (seq 0 k) !! i = if i <? k then Some (k - 1 - i) else None.
Proof.
  destruct (Nat.ltb_spec i k) as [H|H].
  - rewrite <- lookup_nth_error, nth_error_nth' with (d := 0) by (rewrite rev_length, seq_length; exact H).
    rewrite rev_nth by (rewrite seq_length; exact H). rewrite seq_length, seq_nth by lia. f_equal. lia.
  - apply lookup_ge_None. rewrite rev_length, seq_length. exact H.
Qed.
Lemma pos0_spec l i e : pos0 l !! i = Some e <-> i < length l /\ e = length l - 1 - i.
Proof.
  unfold pos0. rewrite lookup_map_seq_0, rev_seq_lookup. destruct (Nat.ltb_spec i (length l)); split.
  - intros E. injection E as <-. auto.
  - intros [_ ->]. reflexivity.
  - discriminate.
  - lia.
Qed.
Lemma written_hist0 t l : written_by t (hist0 l) = [].
Proof. unfold written_by, hist0. induction l as [|x l IH]; [reflexivity|exact IH]. Qed.
Lemma before_hist0 l : from_before (hist0 l) = l.
Proof. unfold from_before, hist0. induction l as [|x l IH]; [reflexivity|]. simpl. f_equal. exact IH. Qed.

Section End.
  Variables (n : nat) (name : text) (fl : nat) (bs : nat -> fbuf) (m : nat).
  Hypothesis Hsh : sharing n name fl bs.
  Hypothesis Hmax : forall i, i < n -> b_max (bs i) = m.
  Variables (css : list (list fcall)) (v : nat -> text) (l : list text).
  Hypothesis Hlen : length css = n.
  Hypothesis Hlog : List.Forall (List.Forall logging) css.

  Definition batches (i : nat) : list (list text) := fst (all_adds (nth i css []) (v i)).
  Definition line_end (i : nat) : text := snd (all_adds (nth i css []) (v i)).
  Definition full (i : nat) : list text := concat (map (last_items m) (batches i)).
  Definition by_lines : Prop := forall i cs, nth_error css i = Some cs -> line_by_line cs (v i).

  Lemma css_log i : List.Forall logging (nth i css []).
  Proof.
    destruct (le_lt_dec (length css) i) as [H|H]; [rewrite nth_overflow by exact H; constructor|].
    rewrite List.Forall_forall in Hlog. apply Hlog, nth_In, H.
  Qed.
  Lemma full_writes i : writes m (nth i css []) (v i) (full i) (line_end i).
  Proof. exists (batches i). split; [apply all_adds_spec, css_log|reflexivity]. Qed.

  Lemma inv0 d : records name (files d) l -> length l <= m ->
    inv name m full by_lines l d (mkG (hist0 l) (pos0 l) (length l) ∅).
  Proof.
    intros Hr Hl. assert (Hh : length (hist0 l) = length l) by apply map_length.
    split; simpl.
    - intros i. rewrite Hr. destruct (pos0 l !! i) as [e|] eqn:E.
      + apply pos0_spec in E. destruct E as [Hi ->]. unfold hist0. rewrite nth_error_map.
        destruct (nth_error l (length l - 1 - i)) as [x|] eqn:Ex; simpl.
        * rewrite nth_error_nth' with (d := x) by (rewrite rev_length; exact Hi). f_equal. rewrite rev_nth by exact Hi.
          apply nth_error_nth. replace (length l - Datatypes.S i) with (length l - 1 - i) by lia. exact Ex.
        * apply nth_error_None in Ex. lia.
      + apply nth_error_None. rewrite rev_length. destruct (le_lt_dec (length l) i) as [H|H]; [exact H|].
        assert (E' : pos0 l !! i = Some (length l - 1 - i)) by (apply pos0_spec; auto). congruence.
    - intros i e E. apply pos0_spec in E. rewrite Hh. lia.
    - intros i j e E1 E2. apply pos0_spec in E1, E2. lia.
    - intros _. unfold total. simpl. change (size (∅ : gset nat)) with 0. rewrite Hh. split; [|split].
      + intros x y a b E1 E2 Hxy. apply pos0_spec in E1, E2. lia.
      + intros x e E. apply pos0_spec in E. lia.
      + intros e He _. exists (length l - 1 - e). apply pos0_spec. lia.
    - intros t. rewrite written_hist0. exists [], (full t). split; [reflexivity|left; reflexivity].
    - apply before_hist0.
    - rewrite Hh. lia.
  Qed.

  Lemma lines_ok i : i < n -> by_lines -> List.Forall (fun bt => length bt <= 1) (batches i).
  Proof.
    intros Hi Ho. destruct (nth_error css i) as [cs|] eqn:E; [|apply nth_error_None in E; lia].
    apply (Ho i cs E _ (line_end i)). pose proof (all_adds_spec (nth i css []) (v i) (css_log i)) as H.
    rewrite (nth_error_nth css i [] E) in H at 1. exact H.
  Qed.

  Lemma size_flag (X : gset nat) (xs : list nat) : (forall u, u ∈ X -> In u xs) -> size X <= length xs.
  Proof.
    intros H. transitivity (size (list_to_set xs : gset nat)).
    - apply subseteq_size. intros u Hu. apply elem_of_list_to_set, elem_of_list_In, H, Hu.
    - clear H. induction xs as [|x xs IH]; [reflexivity|]. cbn [list_to_set length].
      rewrite size_union_alt, size_singleton.
      assert (size ((list_to_set xs : gset nat) ∖ {[x]}) <= size (list_to_set xs : gset nat)) by (apply subseteq_size; set_solver). lia.
  Qed.

  Theorem killed_log s0 evs ps s' dead :
    lks s0 = ∅ -> records name (files (dat s0)) l -> length l <= m ->
    (forall i, i < n -> is_open (bs i) (dat s0) /\ unfinished name (b_tmp (bs i)) (files (dat s0)) = v i /\
               no_break (v i) /\ utf8 (v i)) ->
    krun (fun _ => false) evs ((fb_pool bs css, s0), []) = Some ((ps, s'), dead) ->
    exists (h : history) (pos : nat -> option nat),
      from_before h = l /\
      (forall i cs, nth_error css i = Some cs -> exists all v', writes m cs (v i) all v' /\ cut_short (written_by i h) all) /\
      (forall i s, In (Some i, s) h -> i < n) /\
      kept name m (files (dat s')) h pos /\
      (forall i cs p, nth_error css i = Some cs -> nth_error ps i = Some p -> finished p = true ->
         exists rs, p = Ret rs /\ answered_all m by_lines h cs (v i) rs /\
           writes m cs (v i) (written_by i h) (unfinished name (b_tmp (bs i)) (files (dat s')))) /\
      (by_lines -> in_order pos /\
        (forall e, e < length h -> length h + length dead < e + m -> exists x, pos x = Some e) /\
        ((forall i p, nth_error ps i = Some p -> In i dead \/ finished p = true) ->
         forall e, e < length h -> length h + length dead <= e + m -> exists x, pos x = Some e)).
  Proof.
    intros Hk Hr Hl Hown Hrun.
    set (Rr := R n name fl bs m full by_lines l). set (Ss := KillFile.S n name fl bs m full by_lines l).
    set (Q := fun (t : nat) (r : outcome (list (outcome fres))) (x : st fdir * ghost) =>
      holding t [] (kk x) /\ idle name bs m full by_lines l t (full t) (line_end t) (dd x) (snd x) /\
      exists rs, r = Good rs /\ answered_all m by_lines (frozen_hist (snd x)) (nth t css []) (v t) rs).
    pose proof (wp_krun (fun _ => false) Rr Ss (R_refl n name fl bs m full by_lines l) (R_trans n name fl bs m full by_lines l)
      (S_R n name fl bs m full by_lines l) (kill_R n name fl bs m full by_lines l (fun _ => false)) Q
      (J n name fl m full by_lines l) (J_step n name fl bs m full by_lines l) (J_kill n name fl m full by_lines l (fun _ => false))
      evs (fb_pool bs css) s0 (mkG (hist0 l) (pos0 l) (length l) ∅) [] ps s' dead) as Hw.
    pose proof (inv0 (dat s0) Hr Hl) as I0.
    destruct Hw as (g & [I HF] & Hw); [| |exact Hrun|].
    { split; [exact I0|]. intros u Hu. simpl in Hu. set_solver. }
    { intros j p _ Hp. unfold fb_pool in Hp. rewrite list_lookup_imap in Hp. destruct (css !! j) as [cs|] eqn:Hcs; [|discriminate].
      injection Hp as <-. pose proof (lookup_lt_Some _ _ _ Hcs) as Hj. rewrite Hlen in Hj.
      assert (En : nth j css [] = cs) by (apply nth_error_nth; rewrite lookup_nth_error; exact Hcs).
      destruct (Hown j Hj) as (A1 & A2 & A3 & A4). unfold thread.
      pose proof (T_thread n name fl bs m full by_lines l Hsh Hmax j Hj cs [] (v j) [] [] (v j) (batches j) (line_end j)) as HT.
      unfold batches, line_end in HT. rewrite En in HT. specialize (HT A3 A4). cbn [app rev] in HT.
      unfold Q. rewrite En. unfold T in HT. eapply wp_mono; [|apply HT].
      - intros r x (B1 & B2 & B3). split; [exact B1|]. split; [|exact B3]. unfold line_end. rewrite En. exact B2.
      - rewrite <- En. apply css_log.
      - apply all_adds_spec. rewrite <- En. apply css_log.
      - unfold full, batches. rewrite En. reflexivity.
      - intros Ho. pose proof (lines_ok j Hj Ho) as Hx. unfold batches in Hx. rewrite En in Hx. exact Hx.
      - unfold kk. simpl. rewrite Hk. apply holding_none.
      - split; [|constructor]. split; [|simpl; set_solver]. split; auto. simpl. apply written_hist0. }
    unfold dd in I. simpl in I. exists (hist g), (fun i => pos g !! i).
    split; [apply (j_before _ _ _ _ _ _ _ I)|]. split.
    { intros i cs Hcs. exists (full i), (line_end i). split; [|apply (j_short _ _ _ _ _ _ _ I)].
      rewrite <- (nth_error_nth css i [] Hcs). apply full_writes. }
    split.
    { intros i s Hin. destruct (le_lt_dec n i) as [Hi|Hi]; [|exact Hi]. exfalso.
      pose proof (j_short _ _ _ _ _ _ _ I i) as Hc.
      assert (Hf : full i = []). { unfold full, batches. rewrite nth_overflow by lia. reflexivity. }
      assert (Hx : In s (written_by i (hist g))).
      { unfold written_by. apply in_map_iff. exists (Some i, s). split; [reflexivity|]. apply filter_In. split; [exact Hin|]. simpl. apply Nat.eqb_refl. }
      rewrite Hf in Hc. destruct Hc as (pre & post & E & Hc). symmetry in E. apply app_eq_nil in E. destruct E as [-> ->].
      destruct Hc as [Hc|(x & post' & p & Hc & _)]; [|discriminate]. rewrite Hc in Hx. contradiction. }
    split.
    { split; [|split].
      - intros x s Hs. rewrite (j_files _ _ _ _ _ _ _ I x) in Hs. destruct (pos g !! x) as [e|] eqn:E; [|discriminate].
        destruct (j_pos _ _ _ _ _ _ _ I x e E) as [H1 _]. split; [exact H1|]. destruct (nth_error (hist g) e) as [[o s1]|] eqn:E1; [|discriminate].
        simpl in Hs. injection Hs as ->. eauto.
      - intros x Hs. apply (pos_content name m full by_lines l (dat s') g x I). exact Hs.
      - intros x y e. apply (j_inj _ _ _ _ _ _ _ I). }
    assert (Hend : forall i p, ~ In i dead -> nth_error ps i = Some p -> finished p = true -> exists rs, p = Ret rs /\ Q i (Good rs) (s', g)).
    { intros i p Hd Hp Hf. rewrite lookup_nth_error in Hp. specialize (Hw i p Hd Hp).
      destruct p as [rs|e|X c k h]; [| |discriminate].
      - exists rs. split; [reflexivity|]. apply (Hw _ (R_refl n name fl bs m full by_lines l i _)).
      - destruct (Hw _ (R_refl n name fl bs m full by_lines l i _)) as (_ & _ & rs & E & _). discriminate. }
    assert (Hdead := dead_unfinished (fun _ => false) evs (fb_pool bs css) s0 [] ps s' dead Hrun ltac:(intros ? []) ltac:(constructor)).
    destruct Hdead as (Hd1 & Hd2 & _ & Hd4).
    split.
    { intros i cs p Hcs Hp Hf.
      assert (Hnd : ~ In i dead).
      { intros Hin. destruct (Hd1 i Hin) as (q & Hq & Hqf). rewrite lookup_nth_error in Hp. congruence. }
      destruct (Hend i p Hnd Hp Hf) as (rs & -> & (_ & [O Hfl] & rs' & E & Ha)). injection E as <-. exists rs. split; [reflexivity|].
      rewrite (nth_error_nth css i [] Hcs) in Ha. split.
      - simpl in Ha. clear -Ha. assert (Hmono : forall e x, nth_error (frozen_hist g) e = Some x -> nth_error (hist g) e = Some x).
        { intros e x E. unfold frozen_hist in E. rewrite <- (firstn_skipn (frozen g) (hist g)).
          rewrite nth_error_app1; [exact E|]. apply nth_error_Some. congruence. }
        induction Ha; econstructor; eauto. eapply answered_mono; eauto.
      - pose proof (ow_mine _ _ _ _ _ _ _ _ _ _ _ O) as O1. pose proof (ow_last _ _ _ _ _ _ _ _ _ _ _ O) as O2. unfold dd in O2. simpl in O1, O2.
        rewrite O1, O2, <- (nth_error_nth css i [] Hcs). apply full_writes. }
    intros Ho. destruct (j_ord _ _ _ _ _ _ _ I Ho) as (O1 & O2 & O3). split; [exact O1|].
    unfold total in O3.
    assert (Hs1 : size (flag g) <= Datatypes.S (length dead)).
    { destruct (set_choose_or_empty (flag g ∖ list_to_set dead)) as [[u Hu0]|Hno].
      - apply elem_of_difference in Hu0. destruct Hu0 as [Hu Hnd0].
        assert (Hnd : ~ In u dead) by (intros Hin; apply Hnd0, elem_of_list_to_set, elem_of_list_In, Hin).
        apply (size_flag (flag g) (u :: dead)). intros w Hwf. destruct (HF w Hwf) as [_ [H|H]]; [right; exact H|].
        left. destruct (HF u Hu) as [_ [Hu'|Hu']]; [contradiction|]. destruct (decide (u = w)) as [E|Hne]; [exact E|].
        destruct (only_one _ _ _ w (not_eq_sym Hne) Hu'). lia.
      - transitivity (length dead); [|lia]. apply size_flag. intros w Hwf. apply elem_of_list_In, (elem_of_list_to_set (C := gset nat)).
        set_solver. }
    split.
    - intros e He Hle. apply O3; [exact He|lia].
    - intros Hfin e He Hle. apply O3; [exact He|].
      assert (size (flag g) <= length dead); [|lia]. apply size_flag. intros u Hu. destruct (HF u Hu) as [Hn [H|H]]; [exact H|].
      destruct (in_dec Nat.eq_dec u dead) as [Hin|Hin]; [exact Hin|]. exfalso.
      pose proof Hd4 as Hpl. unfold fb_pool in Hpl. rewrite imap_length in Hpl.
      destruct (nth_error ps u) as [p|] eqn:Ep; [|apply nth_error_None in Ep; lia].
      destruct (Hfin u p Ep) as [H1|H1]; [contradiction|]. destruct (Hend u p Hin Ep H1) as (rs & _ & (_ & [_ Hnf] & _)). contradiction.
  Qed.

  Theorem killed_progress d0 evs ps s' dead :
    krun (fun _ => false) evs ((fb_pool bs css, mkst d0 ∅), []) = Some ((ps, s'), dead) ->
    ((forall i p, nth_error ps i = Some p -> In i dead \/ finished p = true) /\ lks s' = ∅) \/
    (exists i c', ~ In i dead /\ cstep i (ps, s') = Some c').
  Proof.
    intros Hr. destruct (kill_progress fexec_nb (fb_pool bs css) d0 evs ps s' dead) as [[H1 H2]|H]; [|exact Hr| |right; exact H].
    - apply Forall_lookup. intros i p Hp. unfold fb_pool in Hp. rewrite list_lookup_imap in Hp.
      destruct (css !! i) as [cs|] eqn:Hcs; [|discriminate]. injection Hp as <-.
      apply wlk_thread, List.Forall_map, List.Forall_forall. intros c _. apply (wlk_call n name fl bs Hsh).
      apply lookup_lt_Some in Hcs. lia.
    - left. split; [|exact H2]. intros i p Hp. apply H1. rewrite <- lookup_nth_error. exact Hp.
  Qed.
End End.
