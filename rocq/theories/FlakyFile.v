(** * FlakyFile: LineFileBuffer methods that are left in the middle *)
From stdpp Require Import gmap.
From Coq Require Import String.
From Coq Require Import List NArith ZArith Bool Arith Lia.
From Verif Require Import PyStr Prog ProgFacts PyIO Base Spec LineBuf SpecFacts FileBuf FileFacts FileMore FileSpec FileStmt FileProofs
  Atomic Crash CrashSpec FileCrash Flaky FlakySpec FlakyFacts FlakyCalls FlakyProofs FlakyFileSpec.
Import ListNotations.
Local Open Scope nat_scope.

Lemma alw_bind_inv {C D} `{!Sem C D} {A B} (P : D -> Prop) t (p : prog C A) (f : A -> prog C B) : forall s a s',
  alw P t (bind p f) s -> run t p s = (Good a, s') -> alw P t (f a) s'.
Proof.
  induction p as [x|e|X c k IHk h IHh]; intros s a s' Ha Hr; cbn [run] in Hr.
  - injection Hr as <- <-. exact Ha.
  - discriminate.
  - cbn [bind] in Ha. apply alw_inv in Ha. destruct (exec t c s) as [[x|e|] s1] eqn:E; [|..]; eauto. discriminate.
Qed.

Section File.
  Variables (b : fbuf) (t : nat) (k : locks).
  Hypotheses (Hwf : wf_fbuf b) (Hk : unlocked b k) (Hkw : wfk k).

  Lemma left_alw c d P : alw P t (fb_call b c) (mkst d k) -> file_left b t c d k P.
  Proof.
    intros Hal. split; [exact Hal|]. intros flt o.
    pose proof (c88_file b c t d flt k Hkw) as Hc. cbv zeta in Hc. fold o in Hc.
    assert (Hrun : exists x, run t (fb_call b c) (mkst d k) = (x, mkst (snd (srun (fb_call b c) d)) k) /\ x <> Block).
    { rewrite (FileProofs.run_bal b t _ _ k Hk (FileMore.bal_call b (proj2 Hwf) _)). eexists. split; [reflexivity|]. apply fb_nb. }
    destruct Hrun as (x & Hrun & Hx).
    assert (Hlk : lks (snd o) = k).
    { destruct Hc as (pre & _ & [[_ H]|(pre0 & e & j & _ & _ & _ & H & _)]); [|exact H]. rewrite Hrun in H. injection H as _ _ H. symmetry. exact H. }
    assert (Hb : fst o <> Block).
    { destruct Hc as (pre & _ & [[_ H]|(pre0 & e & j & _ & _ & H & _)]); [|rewrite H; discriminate]. rewrite Hrun in H. injection H as <- _. exact Hx. }
    split; [exact Hb|]. split; [exact Hlk|].
    destruct (cut_prefix t _ _ _ _ _ _ Hc Hb) as [j Hj]. rewrite Hj. apply Hal.
  Qed.
  Lemma alw_as {A} (g : A -> fres) (p : prog fcmd A) s P : alw P t p s -> alw P t (as_fres g p) s.
  Proof.
    intros Ha. unfold as_fres. apply alw_bind; [exact Ha|]. intros a s' E. apply alw_ret.
    pose proof (alw_end _ t _ _ Ha) as He. rewrite E in He. apply He. discriminate.
  Qed.

  (** ** Calls that change nothing *)
  Definition still {A} (p : prog fcmd A) : Prop := forall s j, dat (prefix_run t j p s) = dat s.
  Lemma still_alw {A} (p : prog fcmd A) d : still p -> alw (eq d) t p (mkst d k).
  Proof. intros H j. rewrite H. reflexivity. Qed.
  Lemma alw_still {A} (p : prog fcmd A) : (forall d k', alw (eq d) t p (mkst d k')) -> still p.
  Proof. intros H [d k'] j. symmetry. apply (H d k' j). Qed.
  Lemma still_bind {A B} (p : prog fcmd A) (f : A -> prog fcmd B) : still p -> (forall a, still (f a)) -> still (bind p f).
  Proof.
    intros Hp Hf. apply alw_still. intros d k'. apply alw_bind; [intros j; rewrite Hp; reflexivity|].
    intros a s' E j. rewrite Hf. assert (Ha : alw (eq d) t p (mkst d k')) by (intros i; rewrite Hp; reflexivity).
    pose proof (alw_end _ t _ _ Ha) as He. rewrite E in He. cbn [snd] in He. rewrite <- He by discriminate. reflexivity.
  Qed.
  Lemma still_ret {A} (a : A) : still (Ret a).
  Proof. intros s j. destruct j; reflexivity. Qed.
  Lemma still_raise {A} e : still (Raise e : prog fcmd A).
  Proof. intros s j. destruct j; reflexivity. Qed.
  Lemma still_with {A} l m (p : prog fcmd A) : still p -> still (with_lock l m p).
  Proof. intros H. apply alw_still. intros d k'. apply alw_with. intros k2 j. rewrite H. reflexivity. Qed.
  Lemma still_op {X} (c : fcmd X) : (forall d, snd (cexec c d) = d) -> still (op c).
  Proof. intros H. apply alw_still. intros d k'. apply alw_op; [reflexivity|]. symmetry. apply H. Qed.
  Ltac st := repeat first
    [ apply still_ret | apply still_raise | apply still_with
    | apply still_op; intros; reflexivity
    | apply still_bind; [|intros ?]
    | progress cbv zeta
    | match goal with |- still (if ?x then _ else _) => destruct x end
    | match goal with |- still (match ?x with _ => _ end) => destruct x end ].
  Lemma still_get_last : still (fb_get_last_line b).
  Proof. unfold fb_get_last_line. st. Qed.
  Lemma still_count n : still (fb_count b n).
  Proof. unfold fb_count. st. Qed.
  Lemma still_read_files n : still (fb_read_files b n).
  Proof. induction n as [|n IH]; cbn [fb_read_files]; [st|]. st. exact IH. Qed.
  Lemma still_read size : still (fb_read b size).
  Proof.
    unfold fb_read, fb_readable, fb_closed. pose proof still_get_last. pose proof still_count. pose proof still_read_files. st; auto.
  Qed.
  Lemma c109_looks c d : looks c -> file_left b t c d k (eq d).
  Proof.
    intros Hc. apply left_alw, still_alw. pose proof still_get_last. pose proof still_count.
    destruct c; try destruct Hc; cbn [fb_call]; unfold as_fres; (apply still_bind; [|intros; apply still_ret]);
      try apply still_read; unfold fb_flush, fb_len, fb_closed, fb_readable, fb_writable, fb_maxlen, fb_fileno, fb_seek, fb_isatty, fb_seekable, fb_closed;
      st; auto.
  Qed.

  (** ** A closed buffer *)
  Lemma closed_again d : is_closed b d -> snd (cexec (FSetClosed (b_id b)) d) = d.
  Proof.
    intros H. destruct d as [fs cl]. cbn [cexec fsem fexec snd files fclosed]. unfold is_closed in H. cbn [fclosed] in H.
    f_equal. apply insert_id, H.
  Qed.
  Lemma write_closed d data kk : is_closed b d -> unlocked b kk -> alw (eq d) t (fb_write b data) (mkst d kk).
  Proof.
    intros H Hkk. pose proof Hwf as [_ Hlk]. unfold fb_write. apply (alw_bind_bal _ t [b_tl b; b_fl b]).
    - apply bal_both; [exact Hlk|]; apply bal_bind; intros; [apply bal_op|apply bal_ret].
    - apply unlocked_in, Hkk.
    - rewrite writable_run. discriminate.
    - intros j. assert (Hs : still (fb_writable b)) by (unfold fb_writable, fb_closed; st). rewrite Hs. reflexivity.
    - intros w d'. rewrite writable_run, (is_closed_flag b d H). intros [= <- <-]. apply alw_raise. reflexivity.
  Qed.
  Lemma new_line_closed_alw d kk : is_closed b d -> alw (eq d) t (fb_new_line b) (mkst d kk).
  Proof.
    intros H. unfold fb_new_line, fb_closed. apply alw_bind_nl; [apply nolock_op|apply alw_op; reflexivity|].
    intros a d'. rewrite srun_op. intros [= <- <-]. unfold is_closed in H. rewrite H. apply alw_ret. reflexivity.
  Qed.
  Lemma send_exc_closed_alw d e kk : is_closed b d -> alw (eq d) t (fb_send_exc b e) (mkst d kk).
  Proof.
    intros H. unfold fb_send_exc, fb_closed. apply alw_bind_nl; [apply nolock_op|apply alw_op; reflexivity|].
    intros a d'. rewrite srun_op. intros [= <- <-]. unfold is_closed in H. rewrite H. apply alw_ret. reflexivity.
  Qed.
  Lemma c109_closed c d : is_closed b d -> c <> XClear -> file_left b t c d k (eq d).
  Proof.
    intros H Hc. assert (Hl : looks c \/ ~ looks c) by (destruct c; cbn; tauto). destruct Hl as [Hl|Hl]; [apply c109_looks, Hl|].
    apply left_alw. destruct c as [data| | | |exc|e| | | | | | | | | |]; try (exfalso; apply Hl; exact I); cbn [fb_call]; apply alw_as.
    - apply write_closed; assumption.
    - apply new_line_closed_alw, H.
    - congruence.
    - unfold fb_close. apply alw_bind; [destruct exc; [apply send_exc_closed_alw, H|apply new_line_closed_alw, H]|].
      intros [] s' E. assert (Ed : dat s' = d).
      { assert (Ha : alw (eq d) t (match exc with Some e => fb_send_exc b e | None => fb_new_line b end) (mkst d k))
          by (destruct exc; [apply send_exc_closed_alw, H|apply new_line_closed_alw, H]).
        pose proof (alw_end _ t _ _ Ha) as He. assert (E' : run t (match exc with Some e => fb_send_exc b e | None => fb_new_line b end) (mkst d k) = (Good tt, s')) by (destruct exc; exact E).
        rewrite E' in He. symmetry. apply He. discriminate. }
      destruct s' as [d' k']. cbn [dat] in Ed. subst d'. apply alw_op; [reflexivity|]. symmetry. apply closed_again, H.
    - apply send_exc_closed_alw, H.
  Qed.

  (** ** new_line() *)
  Section Log.
    Variables (d : fdir) (l : list text) (v : text).
    Hypotheses (Ho : is_open b d) (Hh : log_holds b l v d).
    Notation nl_left := (fun d' => fclosed d' = fclosed d /\ new_line_left b l v d d').

    Lemma lf_segments : segments [LF] [[]] [].
    Proof. exact (seg_segments [LF]). Qed.
    Lemma body_alw : alw (during b (files d) (fclosed d) l [v] []) t (fb_write_body b [LF]) (mkst d k).
    Proof.
      destruct Hh as (Hl & Hr & Hv & Hu & Hcr). destruct d as [fs cl]. cbn [files fclosed] in *. pose proof Hwf as [_ Hlk].
      assert (Hlf : utf8 [LF]) by (constructor; [unfold LF; lia|constructor]).
      assert (Hv1 := Hu). assert (Hv2 := Hcr). rewrite <- Hv in Hv1, Hv2.
      pose proof (write_alw b fs cl l t k [LF] [[]] [] Hwf Hk Hl Hr Hlf Hv1 Hv2 lf_segments) as Ha. cbv zeta in Ha.
      rewrite Hv, app_nil_r in Ha. unfold fb_write in Ha.
      assert (Hrun : run t (fb_writable b) (mkst (mkfdir fs cl) k) = (Good true, mkst (mkfdir fs cl) k)).
      { assert (Hb : bal [b_tl b; b_fl b] (fb_writable b)) by (apply bal_both; [exact Hlk|]; apply bal_bind; intros; [apply bal_op|apply bal_ret]).
        rewrite (Hb t (mkfdir fs cl) k); [|apply unlocked_in, Hk|rewrite writable_run; discriminate].
        rewrite writable_run, (is_open_flag b (mkfdir fs cl) Ho). reflexivity. }
      apply (alw_bind_inv _ t _ _ _ true _ Ha Hrun).
    Qed.
    Lemma lastl_v : lastl b (files d) = v.
    Proof. destruct Hh as (_ & _ & Hv & _ & Hcr). rewrite lastl_unf, Hv. apply uni_no_cr, Hcr. Qed.
    Lemma during_nl d' : v <> [] -> during b (files d) (fclosed d) l [v] [] d' -> fclosed d' = fclosed d /\ new_line_left b l v d d'.
    Proof.
      intros Hv (H1 & H2 & H3 & H4). split; [exact H1|]. unfold new_line_left. destruct v as [|c s]; [congruence|].
      split; [exact H2|]. split; [exact H3|]. destruct H4 as [H4|[[H4 _]|[H4 [x H5]]]]; [left; exact H4|discriminate|right].
      split; [exact H4|]. symmetry in H5. apply app_eq_nil in H5. apply H5.
    Qed.
    Lemma nl_start : fclosed d = fclosed d /\ new_line_left b l v d d.
    Proof.
      split; [reflexivity|]. unfold new_line_left. destruct v as [|c s] eqn:Ev; [reflexivity|]. rewrite <- Ev. rewrite <- Ev in Hh.
      destruct Hh as (Hl & Hr & _). split; [intros y _ _; reflexivity|]. split; [|left; reflexivity].
      apply intact_same; assumption.
    Qed.
    Lemma new_line_alw : alw nl_left t (fb_new_line b) (mkst d k).
    Proof.
      unfold fb_new_line, fb_closed. apply alw_bind_nl; [apply nolock_op|apply alw_op; apply nl_start|].
      intros a d'. rewrite srun_op. intros [= <- <-]. unfold is_open in Ho. rewrite Ho.
      apply (alw_bind_bal _ t [b_tl b; b_fl b]).
      - apply bal_get_last.
      - apply unlocked_in, Hk.
      - rewrite get_last_run. discriminate.
      - intros j. rewrite still_get_last. apply nl_start.
      - intros x d'. rewrite get_last_run, lastl_v. intros [= <- <-].
        assert (Hx : forall x, x = v -> alw nl_left t match x with [] => Ret tt | _ => fb_write_body b [LF] ;; Ret tt end (mkst d k)); [|apply Hx; reflexivity].
        intros x Ex. destruct x as [|c s]; [apply alw_ret, nl_start|]. assert (Hd : v <> []) by (rewrite <- Ex; discriminate). clear Ex.
        assert (Hb : alw nl_left t (fb_write_body b [LF]) (mkst d k)) by (eapply alw_weaken; [|apply body_alw]; intros d'; apply during_nl, Hd).
        apply alw_bind; [exact Hb|]. intros a s' E. apply alw_ret. pose proof (alw_end _ t _ _ Hb) as He. rewrite E in He. apply He. discriminate.
    Qed.
    Lemma c109_new_line : file_left b t XNewLine d k nl_left.
    Proof. apply left_alw, alw_as, new_line_alw. Qed.

    (** ** send_exc() *)
    Variables (e : excobj) (r : text).
    Hypotheses (Hu : utf8 (ex_text e)) (He : exc_record e r).
    Notation ex_left := (fun d' => fclosed d' = fclosed d /\ exc_left b l r d d').
    Lemma exc_alw : alw ex_left t (fb_send_exc b e) (mkst d k).
    Proof.
      destruct Hh as (Hl & Hr & _). destruct d as [fs cl]. cbn [files fclosed] in *.
      eapply alw_weaken; [|apply (send_exc_alw b fs cl l t k e r Hwf Hk Hl Hr Hu He)].
      intros d' [H Hc]. split; [exact Hc|]. pose proof Hwf as [Hm _].
      assert (EL : lastn (b_max b) [r] = [r]).
      { unfold lastn. replace (length [r] - b_max b) with 0 by (simpl; lia). reflexivity. }
      split.
      - destruct H as [(n & _ & _ & H)|[(n & _ & _ & H)|[(n & _ & _ & H)|(n & p & x & _ & [_ H] & _)]]]; exact H.
      - apply (phase_intact b fs l [r] Hm ltac:(discriminate) Hl). rewrite EL. exact H.
    Qed.
    Lemma c109_send_exc : file_left b t (XSendExc e) d k ex_left.
    Proof. apply left_alw, alw_as, exc_alw. Qed.

    (** ** close() *)
    Lemma run_srun {A} (p : prog fcmd A) : bal [b_tl b; b_fl b] p -> fst (srun p d) <> Block ->
      run t p (mkst d k) = (fst (srun p d), mkst (snd (srun p d)) k).
    Proof. intros H1 H2. apply H1; [apply unlocked_in, Hk|exact H2]. Qed.
    Lemma c109_close : file_left b t (XClose None) d k (fun d' => new_line_left b l v d d' /\
      (fclosed d' = fclosed d \/ (fclosed d' = <[b_id b := tt]> (fclosed d) /\ (v <> [] -> line_done b l v d')))).
    Proof.
      apply left_alw, alw_as. unfold fb_close. apply alw_bind.
      - eapply alw_weaken; [|apply new_line_alw]. intros d' [H1 H2]. auto.
      - intros [] s' E. pose proof (alw_end _ t _ _ new_line_alw) as Hend. rewrite E in Hend. destruct (Hend ltac:(discriminate)) as [H1 H2]. clear Hend. cbn [snd] in *.
        destruct s' as [d' k']. cbn [dat] in *. pose proof (proj2 Hwf) as Hlk. pose proof Hh as (Hl & Hr & Hv & Hvu & _). pose proof (proj1 Hwf) as Hm.
        assert (Ed : d' = mkfdir (match v with [] => files d | _ => clean_tmp b (upd b [v] (files d)) end) (fclosed d)).
        { assert (Ei : enc (lastl b (files d))) by (rewrite lastl_v; apply utf8_enc, Hvu).
          pose proof (new_line_run b (files d) (fclosed d) Hm Ei (is_open_flag b d Ho)) as Er. rewrite lastl_v in Er.
          assert (Ed : mkfdir (files d) (fclosed d) = d) by (destruct d; reflexivity). rewrite Ed in Er.
          rewrite run_srun in E; [|apply bal_new_line|rewrite Er; discriminate].
          rewrite Er in E. cbn [fst snd] in E. injection E as E _. symmetry. exact E. }
        apply alw_op; [auto|]. cbn [cexec fsem fexec snd]. rewrite H1. cbn [fclosed files]. split; [exact H2|]. right. split; [reflexivity|].
        intros Hne. rewrite Ed. unfold line_done. cbn [files]. destruct v as [|c s]; [congruence|]. unfold clean_tmp. split.
        + apply records_tmp, records_upd_max; assumption.
        + apply unf_insert.
    Qed.
    Lemma c109_close_exc : file_left b t (XClose (Some e)) d k (fun d' => exc_left b l r d d' /\
      (fclosed d' = fclosed d \/
       (fclosed d' = <[b_id b := tt]> (fclosed d) /\ records (b_name b) (files d') (last_items (b_max b) (l ++ [r]))))).
    Proof.
      apply left_alw, alw_as. unfold fb_close. apply alw_bind.
      - eapply alw_weaken; [|apply exc_alw]. intros d' [H1 H2]. auto.
      - intros [] s' E. pose proof (alw_end _ t _ _ exc_alw) as Hend. rewrite E in Hend. destruct (Hend ltac:(discriminate)) as [H1 H2]. clear Hend. cbn [snd] in *.
        destruct s' as [d' k']. cbn [dat] in *. pose proof Hh as (Hl & Hr & _). pose proof (proj1 Hwf) as Hm.
        pose proof He as He'. apply exc_record_eq in He'.
        assert (Ed : d' = mkfdir (upd b [r] (files d)) (fclosed d)).
        { pose proof (send_exc_run b e (files d) (fclosed d) Hm ltac:(apply utf8_enc, exc_text_utf8, Hu) (is_open_flag b d Ho)) as Er.
          assert (Ed : mkfdir (files d) (fclosed d) = d) by (destruct d; reflexivity). rewrite Ed in Er.
          rewrite run_srun in E; [|apply bal_send_exc|rewrite Er; discriminate].
          rewrite Er in E. cbn [fst snd] in E. injection E as E _. rewrite He'. symmetry. exact E. }
        apply alw_op; [auto|]. cbn [cexec fsem fexec snd]. rewrite H1. cbn [fclosed files]. split; [exact H2|]. right. split; [reflexivity|].
        rewrite Ed. cbn [files]. apply records_upd_max; assumption.
    Qed.
  End Log.

  (** ** clear() *)
  Lemma c109_clear d : plain (b_name b) -> file_left b t XClear d k (clear_left b d).
  Proof.
    intros Hp. apply left_alw, alw_as. destruct d as [fs cl]. set (d := mkfdir fs cl).
    assert (Hll : forall y, log_like b y <-> glob_match (log_pat b) y = true) by (intros y; symmetry; apply (glob_log _ _ Hp)).
    assert (Hnt : ~ log_like b (tmp_of b)).
    { intros H. apply Hll in H. unfold log_pat, tmp_of in H. change (temp_file _ _) with (tmp_name b) in H. rewrite glob_not_tmp in H. discriminate. }
    assert (H1 : forall ns fs1 kk, (forall y, In y ns -> log_like b y) -> clear_left b d (mkfdir fs1 cl) ->
              alw (clear_left b d) t (fb_remove_all ns) (mkst (mkfdir fs1 cl) kk)).
    { induction ns as [|n ns IH]; intros fs1 kk Hns Hd; cbn [fb_remove_all]; [apply alw_ret, Hd|].
      assert (Hdel : clear_left b d (mkfdir (delete n fs1) cl)).
      { destruct Hd as (D1 & D2 & D3). cbn [files fclosed] in *. split; [exact D1|]. cbn [files]. split.
        - intros y. destruct (text_eq_dec y n) as [->|Hy].
          + right. split; [apply lookup_delete|]. right. apply Hns. left. reflexivity.
          + rewrite lookup_delete_ne by auto. apply D2.
        - destruct D3 as [D3|D3].
          + left. rewrite lookup_delete_ne; [exact D3|]. intros ->. apply Hnt, Hns. left. reflexivity.
          + right. intros y Hy. destruct (text_eq_dec y n) as [->|Hyn]; [apply lookup_delete|]. rewrite lookup_delete_ne by auto. apply D3, Hy. }
      apply alw_bind_nl; [apply nolock_op|apply alw_op; [exact Hd|]|].
      - cbn [cexec fsem fexec files fclosed]. destruct (fs1 !! n); [exact Hdel|exact Hd].
      - intros [] d'. rewrite srun_op. cbn [cexec fsem fexec files fclosed]. destruct (fs1 !! n); [|discriminate]. intros [= <-].
        apply IH; [intros y Hy; apply Hns; right; exact Hy|exact Hdel]. }
    assert (H0 : clear_left b d d) by (split; [reflexivity|]; split; [auto|left; reflexivity]).
    unfold fb_clear. apply (alw_bind_bal _ t [b_tl b; b_fl b]).
    - apply bal_fl. apply bal_bind; [apply bal_op|]. intros ns. induction ns as [|n ns IH]; cbn [fb_remove_all]; [apply bal_ret|]. apply bal_bind; [apply bal_op|intros _; exact IH].
    - apply unlocked_in, Hk.
    - unfold d. rewrite srun_with, srun_bind, srun_op. cbn [cexec fsem fexec files]. fold (log_pat b). fold (globbed b fs).
      rewrite remove_all_run; [discriminate|apply globbed_nodup|intros x Hx; apply globbed_in in Hx; tauto].
    - apply alw_with. intros k1. apply alw_bind_nl; [apply nolock_op|apply alw_op; exact H0|].
      intros ns d'. rewrite srun_op. cbn [cexec fsem fexec files]. intros [= <- <-]. apply H1; [|exact H0].
      intros y Hy. apply Hll. apply (globbed_in b fs) in Hy. apply Hy.
    - intros [] d'. unfold d at 1. rewrite srun_with, srun_bind, srun_op. cbn [cexec fsem fexec files]. fold (log_pat b). fold (globbed b fs).
      rewrite remove_all_run; [|apply globbed_nodup|intros x Hx; apply globbed_in in Hx; tauto]. intros [= <-].
      assert (Hd1 : clear_left b d (mkfdir (dels (globbed b fs) fs) cl) /\ forall y, log_like b y -> dels (globbed b fs) fs !! y = None).
      { assert (Hg : forall y, log_like b y -> dels (globbed b fs) fs !! y = None).
        { intros y Hy. rewrite dels_lookup. destruct (in_dec text_eq_dec y (globbed b fs)) as [|Hi]; [reflexivity|].
          destruct (fs !! y) eqn:Ey; [|reflexivity]. exfalso. apply Hi, globbed_in. split; [congruence|apply Hll, Hy]. }
        split; [|exact Hg]. split; [reflexivity|]. cbn [files]. split; [|right; exact Hg].
        intros y. rewrite dels_lookup. destruct (in_dec text_eq_dec y (globbed b fs)) as [Hi|]; [|left; reflexivity].
        right. split; [reflexivity|]. right. apply Hll. apply globbed_in in Hi. apply Hi. }
      destruct Hd1 as [Hd1 Hg].
      apply alw_with. intros k1. apply alw_bind_nl; [apply nolock_op|apply alw_op; exact Hd1|].
      intros x d'. rewrite srun_op. cbn [cexec fsem fexec files]. intros [= <- <-].
      match goal with |- alw _ _ (if ?x then _ else _) _ => destruct x end; [|apply alw_ret; exact Hd1].
      apply alw_op; [exact Hd1|]. cbn [cexec fsem fexec files fclosed].
      destruct (dels (globbed b fs) fs !! tmp_name b); [|exact Hd1]. split; [reflexivity|]. cbn [snd files]. split.
      + intros y. destruct (text_eq_dec y (tmp_name b)) as [->|Hy]; [right; split; [apply lookup_delete|left; reflexivity]|].
        rewrite lookup_delete_ne by auto. apply (proj1 (proj2 Hd1)).
      + right. intros y Hy. destruct (text_eq_dec y (tmp_name b)) as [->|Hyn]; [apply lookup_delete|]. rewrite lookup_delete_ne by auto. apply Hg, Hy.
  Qed.
End File.
