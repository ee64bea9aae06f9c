(** * FlakyProcAlways: LineProcBuffer and its mirrors at any time, with exceptions from outside (C106) *)
From stdpp Require Import gmap relations.
From Coq Require Import List NArith ZArith Bool Arith Lia.
From Verif Require Import PyStr Prog ProgFacts PyIO Base Spec SpecFacts LineBuf LineBufFacts Locks Crash Proc ProcSpec ProcFacts CountSpec
  Held ProcMain ProcSeq LineBufConcProofs Flaky FlakySpec FlakyFacts FlakyCalls FlakyBuf FlakyInv FlakyProofs FlakyProcGen FlakyProcSpec FlakyProcMir FlakyProcMain.
Import ListNotations.
Local Open Scope prog_scope.
Local Open Scope nat_scope.

Lemma ok_proc i : line_item i -> proc_item i.
Proof. intros (x & -> & H). exact H. Qed.
Section Always.
  Variable m : nat.
  Notation Inv := (proc_sound m).
  Lemma keep_sm i {X} (c : mcmd X) d : Inv d -> Inv (snd (cexec (SM i c) d)).
  Proof.
    intros (H1 & H2 & H3 & H4). cbn. destruct (mexec_keeps c (get_menv i d)) as (K1 & _). destruct (mexec c (get_menv i d)) as [r e] eqn:Ee. cbn [snd] in *.
    split; [exact H1|]. split; [exact H2|]. cbn [put_menv s_cur s_mirs s_qs]. rewrite !set_nth_length. split; [exact H3|].
    apply List.Forall_forall. intros x Hx. apply (In_nth _ _ mir0) in Hx. destruct Hx as (n & Hn & <-). rewrite set_nth_length in Hn.
    rewrite List.Forall_forall in H4. destruct (Nat.eq_dec n i) as [->|Hne].
    - rewrite nth_set_nth by exact Hn. rewrite K1. apply H4. apply nth_In, Hn.
    - rewrite nth_set_nth_ne by exact Hne. apply H4. apply nth_In, Hn.
  Qed.
  Lemma safe_sm i {A} (p : prog mcmd A) : safe Inv (sys_m i p).
  Proof.
    unfold sys_m. induction p as [a|e|X c k IHk h IHh]; cbn [lift]; try (constructor; fail).
    destruct c as [l n|l|X c]; cbn [lift_cmd]; constructor; auto. intros d. apply keep_sm.
  Qed.
  Lemma keep_buf {X} (c : bcmd X) d : stores proc_item c -> Inv d -> Inv (snd (cexec (PB c) d)).
  Proof.
    intros Hs (H1 & H2). pose proof (keeps proc_item m c (s_main d) Hs H1) as Hk. cbn in *. destruct (bexec c (s_main d)) as [r b]. exact (conj Hk H2).
  Qed.
  Lemma safe_main {A} (p : prog bcmd A) : safe (sound_of proc_item m) p -> safe Inv (on_main p).
  Proof.
    unfold on_main. induction 1 as [a|e|X c k h Hc Hk' IHk Hh IHh|l n k h Hk' IHk Hh IHh|l k h Hk' IHk Hh IHh]; cbn [lift lift_cmd]; try (constructor; auto; fail).
    constructor; [| |exact IHh].
    - intros d (H1 & H2). specialize (Hc _ H1). cbn in *. destruct (bexec c (s_main d)) as [r b]. exact (conj Hc H2).
    - intros d x (H1 & H2) Ex. apply (IHk (s_main d) x H1). cbn in *. destruct (bexec c (s_main d)) as [r b]. exact Ex.
  Qed.
  Definition small {X} (c : pcmd X) : Prop := match c with PB c => stores proc_item c | _ => True end.
  Lemma keep_p {X} (c : pcmd X) d : small c -> Inv d -> Inv (snd (cexec c d)).
  Proof.
    intros Hs H. destruct c; try (apply keep_buf; assumption); destruct H as (H1 & H2 & H3 & H4); cbn [cexec psem pexec snd]; try exact (conj H1 (conj H2 (conj H3 H4))).
    - destruct (nth (cur_q d) (s_qs d) []); [exact (conj H1 (conj H2 (conj H3 H4)))|]. cbn [snd].
      split; [exact H1|]. split; [exact H2|]. split; [exact H3|]. cbn [s_qs s_mirs]. rewrite set_nth_length. exact H4.
    - split; [exact H1|]. split; [exact H2|]. split; [exact H3|]. cbn [s_qs s_mirs]. rewrite set_nth_length. exact H4.
    - split; [exact H1|]. split; [exact H2|]. cbn [s_cur s_mirs s_qs]. rewrite !app_length. cbn [length]. split; [lia|].
      apply List.Forall_app. split; [eapply List.Forall_impl; [|exact H4]; cbv beta; intros; lia|]. constructor; [cbn; lia|constructor].
  Qed.
  Lemma safe_p {X} (c : pcmd X) : small c -> safe Inv (op c).
  Proof. intros H. apply safe_one. intros d. apply keep_p, H. Qed.
  Ltac sp := repeat first [ apply safe_ret | apply safe_raise | apply safe_p; cbn; solve [exact I|auto] | apply safe_with | apply safe_bind; [|intros ?]
    | match goal with |- safe _ (if ?b then _ else _) => destruct b end ].
  Lemma safe_receive : safe Inv lp_receive.
  Proof.
    unfold lp_receive. apply safe_with. apply safe_bind; [sp|]. intros [s|g|g| | |]; unfold lp_check_close; try solve [sp].
    apply safe_bind; [apply safe_main, safe_lb_write, ok_proc|intros; sp].
  Qed.
  Lemma safe_lp_call c : safe Inv (lp_call c).
  Proof.
    pose proof safe_receive as Hr. destruct c as [c| | | | | |fuel]; cbn [lp_call].
    - destruct c; try (apply safe_main, safe_call, ok_proc); unfold pret, lp_write, lp_len, lp_maxlen; sp.
    - unfold pret, lp_mirror. sp.
    - unfold pret, lp_stop_all. sp.
    - unfold pret, lp_reset. sp.
    - unfold pret, lp_force_stop. sp.
    - apply safe_bind; [exact Hr|intros; constructor].
    - apply safe_bind; [|intros; constructor]. induction fuel as [|n IH]; cbn [lp_wait]; [constructor|]. apply safe_bind; [exact Hr|]. intros [|]; [exact IH|constructor].
  Qed.
  Lemma safe_sp {A} (p : prog pcmd A) : safe Inv p -> safe Inv (sys_p p).
  Proof.
    unfold sys_p. induction 1 as [a|e|X c k h Hc Hk' IHk Hh IHh|l n k h Hk' IHk Hh IHh|l k h Hk' IHk Hh IHh]; cbn [lift lift_cmd]; try (constructor; auto; fail).
  Qed.
  Lemma safe_sys c : safe Inv (s_call c).
  Proof. destruct c as [c|i c]; cbn [s_call]; [|apply safe_sm]. apply safe_sp, safe_bind; [apply safe_lp_call|intros; constructor]. Qed.
End Always.

Lemma proc_fresh m : proc_sound m (lp_fresh m).
Proof.
  split; [|split; [reflexivity|split; [cbn; lia|]]].
  - split; [reflexivity|]. cbn. split; [lia|]. split; constructor.
  - repeat constructor.
Qed.
(** ** What can still be done *)
Lemma run_main t c d r d' : run t (lp_call c) (mkst d ∅) = (r, mkst d' ∅) ->
  run t (s_call (ToMain c)) (mkst d ∅) = (match r with Good x => Good (FromMain x) | Fail e => Fail e | Block => Block end, mkst d' ∅).
Proof. intros H. cbn [s_call]. rewrite run_sys_p, run_bind, H. destruct r; reflexivity. Qed.
Lemma run_on_main {A} t (p : prog bcmd A) d k r b k' : run t p (mkst (s_main d) k) = (r, mkst b k') -> run t (on_main p) (mkst d k) = (r, mkst (set_main b d) k').
Proof.
  unfold on_main. revert d k. induction p as [a|e|X c kk IHk h IHh]; intros d k; cbn [run lift].
  - intros [= <- <- <-]. destruct d. reflexivity.
  - intros [= <- <- <-]. destruct d. reflexivity.
  - destruct c as [l n|l|X c]; cbn [lift_cmd exec dat lks].
    + destruct (lock_acq (reent l) t l n k) as [[x|e|] k1]; [apply IHk|apply IHh|]. intros [= <- <- <-]. destruct d. reflexivity.
    + destruct (lock_rel t l k) as [[x|e|] k1]; [apply IHk|apply IHh|]. intros [= <- <- <-]. destruct d. reflexivity.
    + cbn [cexec psem pexec e_pb bsem]. destruct (bexec c (s_main d)) as [[x|e|] b1]; intros H; [apply (IHk x (set_main b1 d) k) in H|apply (IHh e (set_main b1 d) k) in H|injection H as <- <- <-; reflexivity]; exact H.
Qed.
Definition reached (e e' : menv) : Prop := exists r n, e' = mkmenv (mkmir (m_buf (e_mir e)) r (m_aggr (e_mir e)) (m_timeout (e_mir e)) (m_has (e_mir e)) (m_q (e_mir e)) (m_id (e_mir e)) n) (e_q e) (e_qmax e) (e_state e).
Lemma hok_with_any {A} (body : prog mcmd A) e r (G : menv -> Prop) :
  (forall e' l, reached e e' -> exists e2, hok body e' [l] r e2 /\ G e2) -> exists e2, hok (with_m body) e [] r e2 /\ G e2.
Proof.
  intros H. destruct e as [[b ref ag to has mq id cnt] q qm sta]. destruct ref as [n|].
  - destruct (H (mkmenv (mkmir b (Some n) ag to has mq id cnt) q qm sta) (mlock n)) as (e2 & H1 & H2); [exists (Some n), cnt; reflexivity|].
    exists e2. split; [|exact H2]. unfold with_m. eapply hok_bind; [|apply hok_with; [reflexivity|exact H1]].
    unfold lm_lock. eapply hok_bind; [eapply hok_op; reflexivity|]. eapply hok_bind; [apply hok_ret|]. eapply hok_bind; [eapply hok_op; reflexivity|]. apply hok_ret.
  - set (n := lock_no id cnt). destruct (H (mkmenv (mkmir b (Some n) ag to has mq id (S cnt)) q qm sta) (mlock n)) as (e2 & H1 & H2); [exists (Some n), (S cnt); reflexivity|].
    exists e2. split; [|exact H2]. unfold with_m. eapply hok_bind; [|apply hok_with; [reflexivity|exact H1]].
    unfold lm_lock. eapply hok_bind; [eapply hok_op; reflexivity|]. eapply hok_bind; [eapply hok_op; reflexivity|]. eapply hok_bind; [eapply hok_op; reflexivity|]. apply hok_ret.
Qed.
Lemma hok_clear_any e : sclosed (m_buf (e_mir e)) = false -> exists e2, hok lm_clear e [] (Good tt) e2 /\
  exists r n, e2 = mkmenv (mkmir (at_end []) r (m_aggr (e_mir e)) (m_timeout (e_mir e)) (m_has (e_mir e)) (m_q (e_mir e)) (m_id (e_mir e)) n) (e_q e) (e_qmax e) (e_state e).
Proof.
  intros Hc. apply hok_with_any. intros e' l (r & n & ->). destruct e as [[[v pos cl] ref ag to has mq id cnt] q qm sta]. cbn in Hc. subst cl. cbn [e_mir e_q e_qmax e_state m_buf m_aggr m_timeout m_has m_q m_id].
  eexists. split; [eapply hok_bind; eapply hok_op; reflexivity|]. exists r, n. reflexivity.
Qed.
Lemma hok_write_closed e data : sclosed (m_buf (e_mir e)) = true -> exists e2, hok (lm_write data) e [] (Fail OSError) e2.
Proof.
  intros Hc. assert (H : exists e2, hok lm_writable e [] (Good false) e2 /\ True).
  { apply hok_with_any. intros e' l (r & n & ->). destruct e as [[[v pos cl] ref ag to has mq id cnt] q qm sta]. cbn in Hc. subst cl. cbn [e_mir e_q e_qmax e_state m_buf m_aggr m_timeout m_has m_q m_id].
    eexists. split; [eapply hok_bind; [eapply hok_op; reflexivity|apply hok_ret]|exact I]. }
  destruct H as (e2 & H & _). exists e2. unfold lm_write. eapply hok_bind; [exact H|]. cbn [negb]. apply hok_raise.
Qed.
Lemma proc_usable_of m d : 1 <= m -> proc_sound m d -> proc_usable m d.
Proof.
  intros Hm ((H1 & H2 & H3 & H4) & H5 & H6 & H7). split.
  - destruct (s_main d) as [[q mm] [v pos cl]] eqn:Em. cbn [storage dmax dq last_line sval sclosed] in *. subst mm. destruct cl.
    + intros t size. rewrite (run_main t _ d (Fail OSError) d); [reflexivity|]. cbn [lp_call].
      rewrite (run_on_main t (lb_call (Read size)) d ∅ (Fail OSError) (s_main d) ∅); [destruct d; reflexivity|]. rewrite Em.
      cbn [lb_call]. unfold ret_as. rewrite run_bind. unfold lb_read, lb_readable. rewrite run_bind. erewrite with_LL_run; [|apply lookup_empty|nolock_tac|reflexivity|discriminate]. reflexivity.
    + intros t. split.
      * apply (run_main t _ d (Good RUnit)). cbn [lp_call]. apply run_on_main. rewrite Em. cbn [lb_call]. unfold ret_as. rewrite run_bind.
        change (mklbuf _ _) with (FlakySpec.holds m q v pos). rewrite run_clear_holds. reflexivity.
      * intros size. pose proof (p_read m v pos Hm t size q H2) as Hp. change (mklbuf (mkdeque q m) (mksio v pos false)) with (FlakySpec.holds m q v pos) in Em.
        eexists. split.
        -- erewrite (run_main t _ d (Good (RItems _))); [reflexivity|]. cbn [lp_call].
           rewrite (run_on_main t (lb_call (Read size)) d ∅ (Good (RItems (match size with
             | None => last_items m (q ++ seenp v pos)
             | Some z => if (0 <? z)%Z then last_items (Z.to_nat z) (last_items m (q ++ seenp v pos)) else [] end))) (s_main d) ∅).
           ++ destruct d; reflexivity.
           ++ rewrite Em. cbn [lb_call]. unfold ret_as. rewrite run_bind, Hp. reflexivity.
        -- destruct size as [z|]; [destruct (0 <? z)%Z|]; rewrite ?last_items_length; cbn; lia.
  - intros i Hi t. assert (Hv : vmir i d).
    { split; [exact Hi|]. rewrite List.Forall_forall in H7. apply H7, nth_In, Hi. }
    unfold is_closed. destruct (sclosed (m_buf (mir_at d i))) eqn:Ec.
    + intros data. destruct (hok_write_closed (get_menv i d) data Ec) as (e2 & H).
      assert (Hk : hok (sys_m i (bind (lm_call (CWrite data)) (fun r => Ret (FromMirror r)))) d [] (Fail OSError) (put_menv i e2 d)).
      { apply hok_sys_m; [exact Hv|]. eapply hok_bind_fail. cbn [lm_call]. eapply hok_bind_fail. exact H. }
      cbn [s_call]. destruct (hok_run t _ _ _ _ Hk) as (k & E & _). cbn [lm_call] in E |- *. rewrite E. reflexivity.
    + destruct (hok_clear_any (get_menv i d) Ec) as (e2 & H & r & n & He2).
      assert (Hk : hok (sys_m i (bind (lm_call CClear) (fun r => Ret (FromMirror r)))) d [] (Good (FromMirror MUnit)) (put_menv i e2 d)).
      { apply hok_sys_m; [exact Hv|]. eapply hok_bind; [|apply hok_ret]. cbn [lm_call]. eapply hok_bind; [exact H|]. apply hok_ret. }
      exists (put_menv i e2 d). split; [apply (hok_runs t _ _ _ _ Hk); discriminate|]. subst e2. exists r, n. reflexivity.
Qed.
Lemma c106_always m fs : 1 <= m -> forall h, let o := sys_hist h (mkst (lp_fresh m, fs) ∅) in
  Forall (fun r => r <> Block) (fst o) -> lks (snd o) = ∅ /\ proc_sound m (fst (dat (snd o))) /\ proc_usable m (fst (dat (snd o))).
Proof.
  intros Hm h. assert (Hgen : forall h d fs, proc_sound m d -> let o := sys_hist h (mkst (d, fs) ∅) in
    Forall (fun r => r <> Block) (fst o) -> lks (snd o) = ∅ /\ proc_sound m (fst (dat (snd o)))).
  { clear h fs. induction h as [|[t c] h IH]; intros d fs Hd; cbn [sys_hist].
    - cbv zeta. intros _. split; [reflexivity|exact Hd].
    - destruct (ends (s_call c) t d fs (uw_sys c)) as [_ Hk]. pose proof (safe_run _ t _ (safe_flaky_call _ _ (safe_sys m c)) (mkst (d, fs) ∅) Hd) as Hs.
      destruct (run t (flaky_call (s_call c)) (mkst (d, fs) ∅)) as [r [[d1 fs1] k1]]. cbn [fst snd dat lks] in *.
      destruct (sys_hist h (mkst (d1, fs1) k1)) as [rs s2] eqn:E2. cbv zeta. cbn [fst snd]. intros Hr. apply Forall_cons_1 in Hr. destruct Hr as [Hr1 Hr2].
      specialize (Hk Hr1). subst k1. specialize (IH d1 fs1 Hs). cbv zeta in IH. rewrite E2 in IH. apply IH, Hr2. }
  intros o Hr. destruct (Hgen h (lp_fresh m) fs (proc_fresh m) Hr) as [H1 H2]. split; [exact H1|]. split; [exact H2|]. apply proc_usable_of; assumption.
Qed.
Lemma c106_concurrent m fs css sch ps' s' : 1 <= m ->
  sched_run sch (fl_pool (map (map s_call) css), mkst (lp_fresh m, fs) ∅) = Some (ps', s') ->
  proc_sound m (fst (dat s')) /\ proc_usable m (fst (dat s')).
Proof.
  intros Hm H. assert (Hs : proc_sound m (fst (dat s'))); [|split; [exact Hs|apply proc_usable_of; assumption]].
  apply (safe_sched (fun w : psys * faults => proc_sound m (fst w)) sch _ _ _ _) in H; [exact H| |apply proc_fresh].
  unfold fl_pool. apply List.Forall_map, List.Forall_map, List.Forall_forall. intros cs _. apply safe_thread, List.Forall_map, List.Forall_map, List.Forall_forall.
  intros c _. apply safe_flaky_call, safe_sys.
Qed.
