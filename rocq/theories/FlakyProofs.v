(** * FlakyProofs: C88, C89 *)
From stdpp Require Import gmap.
From Coq Require Import List NArith ZArith Bool Arith Lia.
From Verif Require Import PyStr Prog ProgFacts PyIO Base Spec SpecFacts LineBuf LineBufFacts LineBufProofs LineBufConc LineBufConcProofs Locks Atomic Crash Proc ProcSpec CountSpec FileBuf FileFacts FileSpec FileStmt FileProofs FileTmpSpec FileConc CrashSpec FileCrash Flaky FlakySpec FlakyFacts FlakyCalls FlakyBuf FlakyInv.
Import ListNotations.
Local Open Scope prog_scope.
Local Open Scope nat_scope.

(** ** C88 *)
Lemma c88_buffer c t d fs k : wfk k ->
  let o := run t (flaky_call (lb_call c)) (mkst (d, fs) k) in cut t (lb_call c) d k k fs (fst o) (snd o).
Proof. intros H. apply run_flaky_call; [apply fr_any, fr_lb_call|exact H]. Qed.
Lemma c88_file b c t d fs k : wfk k ->
  let o := run t (flaky_call (fb_call b c)) (mkst (d, fs) k) in cut t (fb_call b c) d k k fs (fst o) (snd o).
Proof. intros H. apply run_flaky_call; [apply uw_fb_any|exact H]. Qed.
Lemma c88_system c t d fs k : wfk k ->
  let o := run t (flaky_call (s_call c)) (mkst (d, fs) k) in cut t (s_call c) d k k fs (fst o) (snd o).
Proof. intros H. apply run_flaky_call; [apply fr_any, fr_s_call|exact H]. Qed.

Lemma c88_buffer_hit c t d k j e a s1 : wfk k -> run t (lb_call c) (mkst d k) = (Good a, s1) ->
  exists n, run t (flaky_call (lb_call c)) (mkst (d, repeat None n ++ [Some e]) k) = (Fail e, mkst (dat (prefix_run t j (lb_call c) (mkst d k)), []) k).
Proof. intros H. apply hit_call; [apply fr_any, fr_lb_call|exact H]. Qed.
Lemma c88_file_hit b c t d k j e a s1 : wfk k -> run t (fb_call b c) (mkst d k) = (Good a, s1) ->
  exists n, run t (flaky_call (fb_call b c)) (mkst (d, repeat None n ++ [Some e]) k) = (Fail e, mkst (dat (prefix_run t j (fb_call b c) (mkst d k)), []) k).
Proof. intros H. apply hit_call; [apply uw_fb_any|exact H]. Qed.
Lemma c88_system_hit c t d k j e a s1 : wfk k -> run t (s_call c) (mkst d k) = (Good a, s1) ->
  exists n, run t (flaky_call (s_call c)) (mkst (d, repeat None n ++ [Some e]) k) = (Fail e, mkst (dat (prefix_run t j (s_call c) (mkst d k)), []) k).
Proof. intros H. apply hit_call; [apply fr_any, fr_s_call|exact H]. Qed.

Lemma may_LL_nil : may_acq [] LL Ex.
Proof. split; [discriminate|left; constructor]. Qed.
Lemma c88_buffer_progress css d sch ps' s' : sched_run sch (fl_pool (map (map lb_call) css), mkst d ∅) = Some (ps', s') ->
  (Forall (fun p => finished p = true) ps' /\ lks s' = ∅) \/ exists i c', cstep i (ps', s') = Some c'.
Proof.
  apply no_deadlock; [apply bexec_nb|]. apply List.Forall_map, List.Forall_forall. intros cs _. apply List.Forall_map, List.Forall_forall. intros c _.
  apply uw_lb_call, may_LL_nil.
Qed.
Lemma c88_file_progress n name fl bs css d sch ps' s' : one_log n name fl bs -> length css = n ->
  sched_run sch (fl_pool (imap (fun i cs => map (fb_call (bs i)) cs) css), mkst d ∅) = Some (ps', s') ->
  (Forall (fun p => finished p = true) ps' /\ lks s' = ∅) \/ exists i c', cstep i (ps', s') = Some c'.
Proof.
  intros Hol Hlen. apply no_deadlock; [apply fexec_nb|]. apply Forall_lookup. intros i ps Hp. rewrite list_lookup_imap in Hp.
  destruct (css !! i) as [cs|] eqn:Hcs; [|discriminate]. injection Hp as <-. apply lookup_lt_Some in Hcs.
  destruct (ol_one _ _ _ _ Hol i) as (_ & Efl & _ & Hlt & Hev); [lia|]. pose proof (ol_fl _ _ _ _ Hol) as Hfl.
  apply List.Forall_map, List.Forall_forall. intros c _.
  assert (Htl : reent (b_tl (bs i)) = false) by (unfold reent; rewrite <- Nat.negb_even, Hev; reflexivity).
  assert (Hfr : reent (b_fl (bs i)) = false) by (rewrite Efl; unfold reent; rewrite <- Nat.negb_even, Hfl; reflexivity).
  apply uw_fb_call; intros m; (split; [auto|left; repeat constructor]). rewrite Efl. exact Hlt.
Qed.

(** A write of LineFileBuffer *)
Lemma c88_file_write b t k fs cl l data ls r flt : wf_fbuf b -> unlocked b k -> wfk k ->
  length l <= b_max b -> FileSpec.records (b_name b) fs l ->
  utf8 data -> utf8 (unfinished (b_name b) (b_tmp b) fs) -> no_cr (unfinished (b_name b) (b_tmp b) fs) ->
  segments data ls r ->
  let v := unfinished (b_name b) (b_tmp b) fs in
  let lines := match ls with [] => [] | l1 :: ls' => (v ++ l1) :: ls' end in
  let o := run t (flaky_call (fb_call b (XWrite data))) (mkst (mkfdir fs cl, flt) k) in
  let fs' := files (fst (dat (snd o))) in
    lks (snd o) = k /\ fclosed (fst (dat (snd o))) = cl /\
    intact (b_name b) (b_max b) fs' l lines /\
    (forall y, y <> temp_file (b_name b) (b_tmp b) -> (forall i, y <> record_file (b_name b) i) -> fs' !! y = fs !! y) /\
    (fs' !! temp_file (b_name b) (b_tmp b) = fs !! temp_file (b_name b) (b_tmp b) \/
     (lines = [] /\ exists p, prefix_of p r /\ unfinished (b_name b) (b_tmp b) fs' = v ++ p) \/
     (FileSpec.records (b_name b) fs' (last_items (b_max b) (l ++ lines)) /\
      prefix_of (unfinished (b_name b) (b_tmp b) fs') r)).
Proof.
  intros Hwf Hk Hkw Hl Hr Hu Hv1 Hv2 Hs v lines o.
  pose proof (c88_file b (XWrite data) t (mkfdir fs cl) flt k Hkw) as Hc. cbv zeta in Hc. fold o in Hc.
  assert (Hal : alw (during b fs cl l lines r) t (fb_call b (XWrite data)) (mkst (mkfdir fs cl) k)).
  { pose proof (write_alw b fs cl l t k data ls r Hwf Hk Hl Hr Hu Hv1 Hv2 Hs) as Ha. cbv zeta in Ha. fold v in Ha. fold lines in Ha.
    cbn [fb_call]. unfold as_fres. apply alw_bind; [exact Ha|]. intros a s' E. apply alw_ret.
    pose proof (alw_end _ t _ _ Ha) as He. rewrite E in He. apply He. discriminate. }
  assert (Hrun : exists x, run t (fb_call b (XWrite data)) (mkst (mkfdir fs cl) k) = (x, mkst (snd (srun (fb_call b (XWrite data)) (mkfdir fs cl))) k) /\ x <> Block).
  { rewrite (FileProofs.run_bal b t _ _ k Hk (FileMore.bal_call b (proj2 Hwf) _)). eexists. split; [reflexivity|]. apply fb_nb. }
  destruct Hrun as (x & Hrun & Hx).
  assert (Hlk : lks (snd o) = k).
  { destruct Hc as (pre & _ & [[_ H]|(pre0 & e & j & _ & _ & _ & H & _)]); [|exact H]. rewrite Hrun in H. injection H as _ _ H. symmetry. exact H. }
  assert (Hb : fst o <> Block).
  { destruct Hc as (pre & _ & [[_ H]|(pre0 & e & j & _ & _ & H & _)]); [|rewrite H; discriminate]. rewrite Hrun in H. injection H as <- _. exact Hx. }
  destruct (cut_prefix t _ _ _ _ _ _ Hc Hb) as [j Hj]. destruct (Hal j) as (H1 & H2 & H3 & H4). rewrite <- Hj in H1, H2, H3, H4.
  split; [exact Hlk|]. split; [exact H1|]. split; [exact H3|]. split; [exact H2|exact H4].
Qed.

(** ** C89 *)
Lemma fl_ends {A} t (p : prog bcmd A) d fs : uw may_acq [] [] p ->
  let o := run t (flaky_call p) (mkst (d, fs) ∅) in fst o <> Block /\ lks (snd o) = ∅.
Proof.
  intros H. destruct (run t (flaky_call p) (mkst (d, fs) ∅)) as [r s'] eqn:E.
  refine (wlk_run (flexec_nb (D := lbuf) _) t [] (flaky_call p) (fun _ => []) (mkst (d, fs) ∅) r s' _ _ _ _ E); auto.
  - apply bexec_nb.
  - apply wlk_flaky_call, H.
  - intros l. cbn [lks]. rewrite lookup_empty. reflexivity.
Qed.
Lemma lb_ends t c d fs : let o := run t (flaky_call (lb_call c)) (mkst (d, fs) ∅) in fst o <> Block /\ lks (snd o) = ∅.
Proof. apply fl_ends, uw_lb_call, may_LL_nil. Qed.
Lemma lb_cut (P : lbuf -> Prop) t c d fs : alw P t (lb_call c) (mkst d ∅) ->
  let o := run t (flaky_call (lb_call c)) (mkst (d, fs) ∅) in lks (snd o) = ∅ /\ P (fst (dat (snd o))).
Proof.
  intros Ha o. destruct (lb_ends t c d fs) as [Hb Hk]. split; [exact Hk|].
  destruct (cut_prefix t _ _ _ _ _ _ (c88_buffer c t d fs ∅ wfk_empty) Hb) as [j Hj]. change (fst (dat (snd o))) with (fst (dat (snd (run t (flaky_call (lb_call c)) (mkst (d, fs) ∅))))). rewrite Hj. apply Ha.
Qed.
Lemma open_holds m s : 1 <= m -> reachable m s -> sclosed (last_line (dat s)) = false ->
  dat s = holds m (dq (storage (dat s))) (sval (last_line (dat s))) (length (sval (last_line (dat s)))) /\ length (dq (storage (dat s))) <= m.
Proof.
  intros Hm Hr Ho. destruct (reachable_inv m s Hm Hr) as ([q v cl] & -> & (_ & Hq & _)). cbn in Ho, Hq. subst cl. split; [reflexivity|exact Hq].
Qed.
Section Contents.
  Variables (m : nat) (s : st lbuf) (t : nat) (fs : faults).
  Hypothesis (Hm : 1 <= m) (Hr : reachable m s) (Ho : sclosed (last_line (dat s)) = false).
  Notation q := (dq (storage (dat s))).
  Notation v := (sval (last_line (dat s))).
  Ltac gen := destruct (open_holds m s Hm Hr Ho) as [E Hq];
    let q0 := fresh "q0" in let v0 := fresh "v0" in set (q0 := q) in *; set (v0 := v) in *; clearbody q0 v0; rewrite E.
  Lemma c89_write data : let o := run t (flaky_call (lb_call (Write data))) (mkst (dat s, fs) ∅) in
    lks (snd o) = ∅ /\ write_cut m q v data (fst (dat (snd o))).
  Proof. gen. apply lb_cut. apply alw_write; assumption. Qed.
  Lemma c89_new_line : let o := run t (flaky_call (lb_call NewLine)) (mkst (dat s, fs) ∅) in
    lks (snd o) = ∅ /\ (fst (dat (snd o)) = dat s \/ (v <> [] /\ write_cut m q v [10%N] (fst (dat (snd o))))).
  Proof.
    gen. apply (lb_cut (fun d => d = holds m q0 v0 (length v0) \/ (v0 <> [] /\ write_cut m q0 v0 [10%N] d))). apply alw_new_line; assumption.
  Qed.
  Lemma c89_read size : let o := run t (flaky_call (lb_call (Read size))) (mkst (dat s, fs) ∅) in
    lks (snd o) = ∅ /\ read_cut m q v (fst (dat (snd o))).
  Proof. gen. apply lb_cut. apply alw_read; assumption. Qed.
  Lemma c89_clear : let o := run t (flaky_call (lb_call Clear)) (mkst (dat s, fs) ∅) in
    lks (snd o) = ∅ /\ clear_cut m q v (fst (dat (snd o))).
  Proof. gen. apply lb_cut. apply alw_clear_call. Qed.
  Lemma c89_close : let o := run t (flaky_call (lb_call Close)) (mkst (dat s, fs) ∅) in
    lks (snd o) = ∅ /\ (clear_cut m q v (fst (dat (snd o))) \/ fst (dat (snd o)) = mklbuf (mkdeque [] m) (mksio [] 0 true)).
  Proof.
    gen. apply (lb_cut (fun d => clear_cut m q0 v0 d \/ d = mklbuf (mkdeque [] m) (mksio [] 0 true))). apply alw_close.
  Qed.
End Contents.

(** What a completed read returns at any time: the unfinished text is seen only if the
    position in it is not 0. *)
Section ReadPos.
  Variables (m : nat) (v : text) (pos : nat).
  Hypothesis Hm : 1 <= m.
  Notation H q := (holds m q v pos).
  Definition seenp : list item := if 0 <? pos then [IStr v] else [].
  Lemma drun_step {X A} (c : bcmd X) (k : X -> prog bcmd A) d x d' : bexec c d = (Good x, d') -> drun (bind (bop c) k) d = drun (k x) d'.
  Proof. intros E. rewrite drun_bind. change (drun (bop c) d) with (let (r, d1) := bexec c d in match r with Good x => (Good x, d1) | Fail e => (Fail e, d1) | Block => (Block, d1) end). rewrite E. reflexivity. Qed.
  Lemma p_pop q x : bexec DPopleft (H (x :: q)) = (Good x, H q). Proof. reflexivity. Qed.
  Lemma p_len q : bexec DLen (H q) = (Good (length q), H q). Proof. reflexivity. Qed.
  Lemma p_max q : bexec DMaxlen (H q) = (Good m, H q). Proof. reflexivity. Qed.
  Lemma p_items q : bexec DItems (H q) = (Good q, H q). Proof. reflexivity. Qed.
  Lemma p_append q x : length q < m -> bexec (DAppend x) (H q) = (Good tt, H (q ++ [x])).
  Proof.
    intros Hl. cbn. unfold on_dq, dq_append, trim_left. cbn [storage holds dq dmax]. rewrite (proj2 (Nat.ltb_ge _ _)); [reflexivity|]. rewrite app_length. simpl. lia.
  Qed.
  Lemma p_appendleft q x : length q < m -> bexec (DAppendleft x) (H q) = (Good tt, H (x :: q)).
  Proof. intros Hl. cbn. unfold on_dq, dq_appendleft, trim_right. cbn [storage holds dq dmax]. rewrite (proj2 (Nat.ltb_ge _ _)); [reflexivity|]. simpl. lia. Qed.
  Lemma p_loop : forall n acc a b, length a = n -> length (a ++ b) <= m ->
    drun (lb_read_loop n acc) (H (a ++ b)) = (Good (acc ++ a), H (b ++ a)).
  Proof.
    induction n as [|n IH]; intros acc a b Ha Hl.
    - destruct a; [|discriminate]. simpl. rewrite !app_nil_r. reflexivity.
    - destruct a as [|x a]; [discriminate|]. cbn [lb_read_loop]. simpl in Ha, Hl. injection Ha as Ha.
      erewrite drun_step; [|first [apply p_pop|apply p_len|apply p_max|apply p_items]]. erewrite drun_step; [|apply p_append; rewrite ?app_length in *; lia].
      rewrite <- app_assoc. rewrite IH by (rewrite ?app_length in *; simpl; lia). rewrite <- !app_assoc. reflexivity.
  Qed.
  Lemma p_rotate q n : 0 < n -> n <= length q -> bexec (DRotate n) (H q) = (Good tt, H (last_items n q ++ firstn (length q - n) q)).
  Proof.
    intros H0 Hn. cbn [bexec]. unfold on_dq. cbn [storage holds]. rewrite dq_rotate_spec by lia. reflexivity.
  Qed.
  Lemma p_middle {A} q n (k : list item -> prog bcmd A) : n <= length q -> length q <= m ->
    drun (bind (if 0 <? n then bop (DRotate n) else Ret tt) (fun _ => bind (lb_read_loop n []) k)) (H q) = drun (k (last_items n q)) (H q).
  Proof.
    intros Hn Hq. destruct (Nat.ltb_spec 0 n) as [H0|H0].
    - erewrite drun_step; [|apply p_rotate; assumption]. rewrite drun_bind, p_loop.
      + simpl. unfold last_items. rewrite firstn_skipn. reflexivity.
      + rewrite last_items_length. lia.
      + rewrite app_length, firstn_length, last_items_length. lia.
    - replace n with 0 by lia. cbn [bind lb_read_loop]. rewrite last_items_0. reflexivity.
  Qed.
  Lemma p_read_all q : length q <= m -> drun lb_read_all (H q) = (Good (last_items m (q ++ seenp)), H q).
  Proof.
    intros Hq. unfold lb_read_all, seenp. erewrite drun_step; [|apply h_tell]. erewrite drun_step; [|first [apply p_pop|apply p_len|apply p_max|apply p_items]]. cbv zeta.
    destruct (0 <? pos).
    - erewrite drun_step; [|first [apply p_pop|apply p_len|apply p_max|apply p_items]]. replace (m =? 0) with false by (symmetry; apply Nat.eqb_neq; lia). cbn [negb andb].
      destruct (Nat.eqb_spec (length q) m) as [Hf|Hf].
      + destruct q as [|x q]; [simpl in Hf; lia|]. simpl in Hf. erewrite drun_step; [|first [apply p_pop|apply p_len|apply p_max|apply p_items]]. erewrite drun_step; [|first [apply p_pop|apply p_len|apply p_max|apply p_items]].
        erewrite drun_step; [|apply h_getvalue]. erewrite drun_step; [|apply p_appendleft; lia]. rewrite last_items_drop1 by assumption. reflexivity.
      + rewrite last_items_all by (rewrite app_length; simpl; lia). destruct (Nat.ltb_spec 0 (length q)) as [H0|H0]; [reflexivity|].
        destruct q; [|simpl in H0; lia]. reflexivity.
    - rewrite app_nil_r, last_items_all by exact Hq. reflexivity.
  Qed.
  Lemma p_read_n q n : length q <= m -> 1 <= n -> drun (lb_read_n n) (H q) = (Good (last_items n (last_items m (q ++ seenp))), H q).
  Proof.
    intros Hq Hn. unfold lb_read_n, seenp. erewrite drun_step; [|apply h_tell]. erewrite drun_step; [|first [apply p_pop|apply p_len|apply p_max|apply p_items]]. erewrite drun_step; [|first [apply p_pop|apply p_len|apply p_max|apply p_items]].
    replace (m =? 0) with false by (symmetry; apply Nat.eqb_neq; lia). cbv zeta. destruct (0 <? pos); cbn [negb andb].
    - destruct (Nat.eqb_spec (length q) m) as [Hf|Hf].
      + destruct q as [|x q]; [simpl in Hf; lia|]. simpl in Hf. rewrite drun_bind. erewrite drun_step; [|first [apply p_pop|apply p_len|apply p_max|apply p_items]]. cbn [drun]. cbv beta iota.
        replace (length (x :: q) - 1) with (length q) by (simpl; lia). rewrite p_middle by lia.
        erewrite drun_step; [|apply h_getvalue]. erewrite drun_step; [|apply p_appendleft; lia]. cbn [drun].
        rewrite last_items_drop1 by assumption. rewrite last_items_min. rewrite last_items_app_ge by (simpl; lia). reflexivity.
      + cbn [bind]. rewrite p_middle by lia. erewrite drun_step; [|apply h_getvalue]. cbn [bind drun].
        rewrite (last_items_all m) by (rewrite app_length; simpl; lia). rewrite last_items_app_ge by (simpl; lia). rewrite last_items_min. reflexivity.
    - cbn [bind]. rewrite p_middle by lia. cbn [drun]. rewrite app_nil_r, (last_items_all m) by exact Hq. rewrite last_items_min. reflexivity.
  Qed.
  Lemma p_read t size q : length q <= m -> run t (lb_read size) (mkst (H q) ∅) =
    (Good (match size with
           | None => last_items m (q ++ seenp)
           | Some z => if (0 <? z)%Z then last_items (Z.to_nat z) (last_items m (q ++ seenp)) else []
           end), mkst (H q) ∅).
  Proof.
    intros Hq. unfold lb_read, lb_readable. rewrite run_bind. erewrite with_LL_run; [|apply lookup_empty|nolock_tac|reflexivity|discriminate]. cbn [negb].
    destruct size as [z|].
    - destruct (Z.ltb_spec 0 z).
      + eapply with_LL_run; [apply lookup_empty|apply nolock_read_n| |discriminate]. apply p_read_n; [exact Hq|lia].
      + eapply with_LL_run; [apply lookup_empty|constructor|reflexivity|discriminate].
    - eapply with_LL_run; [apply lookup_empty|apply nolock_read_all| |discriminate]. apply p_read_all, Hq.
  Qed.
End ReadPos.
Lemma no_break_items m q v pos : Forall line_item q -> no_break v -> Forall line_item (last_items m (q ++ seenp v pos)).
Proof.
  intros Hq Hv. assert (Ha : Forall line_item (q ++ seenp v pos)).
  { apply List.Forall_app. split; [exact Hq|]. unfold seenp. destruct (0 <? pos); repeat constructor. exists v; auto. }
  unfold last_items. rewrite <- (firstn_skipn (length (q ++ seenp v pos) - m) (q ++ seenp v pos)) in Ha. apply List.Forall_app in Ha. apply Ha.
Qed.
Lemma last_items_forall {A} (P : A -> Prop) n l : Forall P l -> Forall P (last_items n l).
Proof. intros H. unfold last_items. rewrite <- (firstn_skipn (length l - n) l) in H. apply List.Forall_app in H. apply H. Qed.
Lemma sound_usable m d : 1 <= m -> sound m d -> usable m d.
Proof.
  intros Hm (H1 & H2 & H3 & H4). destruct d as [[q mm] [v pos cl]]. cbn in H1, H2, H3, H4. subst mm. unfold usable. cbn [last_line sclosed]. destruct cl; intros t.
  - split; intros x.
    + unfold lb_read, lb_readable. rewrite run_bind. erewrite with_LL_run; [|apply lookup_empty|nolock_tac|reflexivity|discriminate]. reflexivity.
    + unfold lb_write, lb_write_with, lb_write_gen, lb_writable. rewrite run_bind. erewrite with_LL_run; [|apply lookup_empty|nolock_tac|reflexivity|discriminate]. reflexivity.
  - split; [apply run_clear_holds|]. intros size. eexists. split; [apply (p_read m v pos Hm t size q H2)|].
    pose proof (no_break_items m q v pos H3 H4) as Hi.
    assert (Hl : length (last_items m (q ++ seenp v pos)) <= m) by (rewrite last_items_length; lia).
    destruct size as [z|]; [|auto]. destruct (0 <? z)%Z; [|split; [simpl; lia|constructor]]. split; [rewrite last_items_length; lia|]. apply last_items_forall, Hi.
Qed.
Lemma c89_always m fs : 1 <= m -> forall h, let o := fl_hist h (mkst (dat (fresh m), fs) ∅) in
  Forall (fun r => r <> Block) (fst o) /\ lks (snd o) = ∅ /\ sound m (fst (dat (snd o))) /\ usable m (fst (dat (snd o))).
Proof.
  intros Hm h. assert (Hgen : forall h d fs, sound m d -> let o := fl_hist h (mkst (d, fs) ∅) in
    Forall (fun r => r <> Block) (fst o) /\ lks (snd o) = ∅ /\ sound m (fst (dat (snd o)))).
  { clear h fs. induction h as [|[t c] h IH]; intros d fs Hd; cbn [fl_hist].
    - cbv zeta. split; [constructor|]. split; [reflexivity|exact Hd].
    - destruct (lb_ends t c d fs) as [Hb Hk]. pose proof (safe_run _ t _ (safe_flaky_call _ _ (safe_call line_item (fun _ H => H) m c)) (mkst (d, fs) ∅) Hd) as Hs.
      destruct (run t (flaky_call (lb_call c)) (mkst (d, fs) ∅)) as [r [[d1 fs1] k1]]. cbn [fst snd dat lks] in *. subst k1.
      specialize (IH d1 fs1 Hs). destruct (fl_hist h (mkst (d1, fs1) ∅)) as [rs s2]. cbv zeta in *. cbn [fst snd] in *. destruct IH as (I1 & I2 & I3). auto. }
  destruct (Hgen h (dat (fresh m)) fs (sound_fresh m)) as (H1 & H2 & H3). split; [exact H1|]. split; [exact H2|]. split; [exact H3|apply sound_usable; assumption].
Qed.
Lemma c89_concurrent m fs css sch ps' s' : 1 <= m ->
  sched_run sch (fl_pool (map (map lb_call) css), mkst (dat (fresh m), fs) ∅) = Some (ps', s') ->
  sound m (fst (dat s')) /\ usable m (fst (dat s')).
Proof.
  intros Hm H. assert (Hs : sound m (fst (dat s'))); [|split; [exact Hs|apply sound_usable; assumption]].
  apply (safe_sched (fun w : lbuf * faults => sound m (fst w)) sch _ _ _ _) in H; [exact H| |apply sound_fresh].
  unfold fl_pool. apply List.Forall_map, List.Forall_map, List.Forall_forall. intros cs _. apply safe_thread, List.Forall_map, List.Forall_map, List.Forall_forall.
  intros c _. apply safe_flaky_call. exact (safe_call line_item (fun _ H => H) m c).
Qed.
