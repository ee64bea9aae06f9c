(** * FlakyProcMain: what an exception from outside leaves of LineProcBuffer (C106) *)
From stdpp Require Import gmap relations.
From Coq Require Import List NArith ZArith Bool Arith Lia.
From Verif Require Import PyStr Prog ProgFacts PyIO Base Spec SpecFacts LineBuf LineBufFacts Locks Crash Proc ProcSpec ProcFacts CountSpec
  Held ProcMain ProcSeq LineBufConcProofs Flaky FlakySpec FlakyFacts FlakyCalls FlakyBuf FlakyInv FlakyProofs FlakyProcGen FlakyProcSpec FlakyProcMir.
Import ListNotations.
Local Open Scope prog_scope.
Local Open Scope nat_scope.

(** ** Its locks *)
Lemma uw_lp_write (h : list nat) data : ~ In LL h -> uw okq h h (on_main (lb_write data)).
Proof. intros H. apply uw_lift, uw_lb_write. split; auto. Qed.
Lemma uw_check_close h : uw okq h h lp_check_close.
Proof. unfold lp_check_close. uwt. Qed.
Lemma uw_receive : uw okq [] [] lp_receive.
Proof.
  apply uw_with; [split; [reflexivity|right; intros []]|]. apply uw_bind; [apply uw_one|]. intros [s|g|g| | |].
  - apply uw_bind; [apply uw_lp_write; intros [E|[]]; discriminate|intros; constructor].
  - apply uw_bind; [apply uw_one|]. intros _. apply uw_check_close.
  - apply uw_bind; [apply uw_one|]. intros _. constructor.
  - apply uw_check_close.
  - apply uw_bind; [apply uw_one|]. intros _. constructor.
  - constructor.
Qed.
Lemma uw_wait fuel : uw okq [] [] (lp_wait fuel).
Proof. induction fuel as [|n IH]; cbn [lp_wait]; [constructor|]. apply uw_bind; [apply uw_receive|]. intros [|]; [exact IH|constructor]. Qed.
Lemma uw_lp_call c : uw okq [] [] (lp_call c).
Proof.
  assert (HL : okq [] LL Ex) by (split; [reflexivity|right; intros []]).
  assert (HS : okq [] STL Ex) by (split; [reflexivity|right; intros []]).
  destruct c as [c| | | | | |fuel]; cbn [lp_call].
  - destruct c; try (apply uw_lift, uw_lb_call, HL); (apply uw_bind; [|intros; constructor]); [constructor|..].
    + unfold lp_len, lp_maxlen. uwt.
    + unfold lp_maxlen. uwt.
  - apply uw_bind; [|intros; constructor]. unfold lp_mirror. uwt.
  - apply uw_bind; [|intros; constructor]. unfold lp_stop_all. uwt.
  - apply uw_bind; [|intros; constructor]. unfold lp_reset. uwt.
  - apply uw_bind; [|intros; constructor]. apply uw_one.
  - apply uw_bind; [|intros; constructor]. apply uw_receive.
  - apply uw_bind; [|intros; constructor]. apply uw_wait.
Qed.
Lemma uw_main c : uw okq [] [] (s_call (ToMain c)).
Proof. apply uw_lift, uw_bind; [apply uw_lp_call|intros; constructor]. Qed.
Lemma uw_sys c : uw okq [] [] (s_call c).
Proof. destruct c; [apply uw_main|apply uw_mirror]. Qed.

(** Calls that never wait for a message. *)
Definition waits (c : pcall) : bool := match c with PReceive | PWait _ => true | _ => false end.
Lemma nbs_lift_p {A} (p : prog pcmd A) : nbs p -> nbs (sys_p p).
Proof.
  unfold sys_p. induction p as [a|e|X c k IHk h IHh]; cbn [lift nbs]; auto. intros (H1 & H2 & H3). split; [|auto].
  destruct c as [l m|l|X c]; cbn in *; auto.
Qed.
Lemma nbs_on_main {A} (p : prog bcmd A) : nbs (on_main p).
Proof.
  unfold on_main. induction p as [a|e|X c k IHk h IHh]; cbn [lift nbs]; auto. split; [|auto]. destruct c as [l m|l|X c]; cbn; auto.
  intros d. pose proof (bexec_nb _ c (s_main d)) as H. destruct (bexec c (s_main d)). exact H.
Qed.
Lemma nbs_p {X} (c : pcmd X) : match c with PGet => False | _ => True end -> nbs (op c).
Proof.
  intros H. apply nbs_one. intros d. destruct c; cbn; try discriminate; try contradiction. pose proof (bexec_nb _ c (s_main d)) as Hb. destruct (bexec c (s_main d)). exact Hb.
Qed.
Ltac nbt := repeat first [ exact I | apply nbs_p; exact I | apply nbs_on_main | apply nbs_with | apply nbs_bind; [|intros ?]
  | match goal with |- nbs (if ?b then _ else _) => destruct b end ].
Lemma nbs_lp_call c : waits c = false -> nbs (lp_call c).
Proof.
  intros Hw. destruct c as [c| | | | | |fuel]; try discriminate; cbn [lp_call].
  - destruct c; try apply nbs_on_main; unfold pret, lp_write, lp_len, lp_maxlen; nbt.
  - unfold pret, lp_mirror. nbt.
  - unfold pret, lp_stop_all. nbt.
  - unfold pret, lp_reset. nbt.
  - unfold pret, lp_force_stop. nbt.
Qed.
Lemma nbs_main c : waits c = false -> nbs (s_call (ToMain c)).
Proof. intros H. cbn [s_call]. apply nbs_lift_p. nbt. apply nbs_lp_call, H. Qed.

(** ** From the buffer and the main process to the system *)
Lemma hal_sys_p (P : psys -> Prop) {A} (p : prog pcmd A) d (Q : A -> psys -> Prop) : hal P p d Q -> hal P (sys_p p) d Q.
Proof.
  intros H. pose proof (hal_lift (fun (X : Type) (c : pcmd X) => SP c) (fun d : psys => d) P) as Hl.
  assert (Hf : forall X (c : pcmd X) d, P d -> cexec (SP c) d = (fst (cexec c d), snd (cexec c d))) by (intros X c d1 _; cbn; destruct (pexec c d1); reflexivity).
  specialize (Hl Hf A p d Q H). eapply hal_weak; [|eapply hal_mono; [|exact Hl]]; cbv beta; [intros d1 (d2 & H2 & ->)|intros a d1 (d2 & H2 & ->)]; exact H2.
Qed.
Lemma hal_main (P : lbuf -> Prop) {A} (p : prog bcmd A) d (Q : A -> lbuf -> Prop) : hal P p (s_main d) Q ->
  hal (fun d' => exists b, P b /\ d' = set_main b d) (on_main p) d (fun a d' => exists b, Q a b /\ d' = set_main b d).
Proof.
  intros H. assert (Hd : set_main (s_main d) d = d) by (destruct d; reflexivity). 
  pose proof (hal_lift e_pb (fun b => set_main b d) P) as Hl. cbv beta in Hl.
  assert (Hf : forall X (c : bcmd X) b, P b -> cexec (e_pb X c) (set_main b d) = (fst (cexec c b), set_main (snd (cexec c b)) d)) by (intros X c b _; cbn; destruct (bexec c b); reflexivity).
  specialize (Hl Hf A p (s_main d) Q H). rewrite Hd in Hl. exact Hl.
Qed.

(** ** write *)
Lemma wdone m q v data : length q <= m -> write_done m q v data (bd m (last_items m (q ++ wlines v data)) (wtail v data) false).
Proof.
  intros Hq. unfold wlines, wtail. destruct (seg data) as [[|l ls] r] eqn:E; exists (fst (seg data)), (snd (seg data)); (split; [apply seg_segments|]); rewrite E; cbn [fst snd]; [|reflexivity].
  rewrite app_nil_r, last_items_all by exact Hq. reflexivity.
Qed.
Lemma hal_write m q v data : 1 <= m -> length q <= m ->
  hal (write_cut m q v data) (lb_write data) (FlakySpec.holds m q v (length v)) (fun _ b => write_done m q v data b).
Proof.
  intros Hm Hq. assert (H0 : write_cut m q v data (FlakySpec.holds m q v (length v))) by (apply wc_start).
  unfold lb_write, lb_write_with, lb_write_gen. apply hal_bind, hal_with.
  apply hal_bind. apply hal_op; [exact H0|exact H0|]. intros x d' [= <- <-]. apply hal_ret; [exact H0|]. cbn [negb].
  apply hal_with. intros t k. split; [apply alw_body; assumption|]. intros a s' E.
  rewrite (run_nolock t) in E by (apply (nolock_write_body _ data nolock_parse)).
  change (drun _ _) with (drun (lb_write_body lb_parse_lines data) (bd m q v false)) in E. rewrite write_body_run in E by assumption.
  injection E as <- <-. apply wdone, Hq.
Qed.

(** ** receive() *)
Section Receive.
  Variables (m : nat) (q : list item) (v : text) (d : psys).
  Hypothesis Hd : FlakyProcSpec.main_is m q v d.
  Lemma hal_check_close (P : psys -> Prop) d0 : P d0 -> P (set_count (s_n d0 - 1)%Z d0) ->
    hal P lp_check_close d0 (fun _ d' => d' = set_count (s_n d0 - 1)%Z d0).
  Proof.
    intros H0 H1. unfold lp_check_close. apply hal_bind, hal_op; [exact H0|exact H0|]. intros x d' [= <- <-].
    apply hal_bind, hal_op; [exact H0|exact H1|]. intros x d' [= <- <-]. apply hal_bind, hal_op; [exact H1|exact H1|].
    intros x d' [= <- <-]. apply hal_ret; [exact H1|reflexivity].
  Qed.
  Lemma hal_receive : hal (receive_left d) lp_receive d (fun _ d' => received d d').
  Proof.
    unfold lp_receive. apply hal_with. destruct (inbox d) as [|x rest] eqn:Ei.
    - unfold inbox in Ei. apply hal_bind, hal_op; [constructor|cbn; unfold cur_q; rewrite Ei; constructor|].
      intros x d'. cbn. unfold cur_q. rewrite Ei. discriminate.
    - set (at_ := fun b n => main_has b n rest d).
      assert (HP : forall b n, taken m q v (s_n d) x b n -> receive_left d (at_ b n)) by (intros b n Ht; eapply rl_taken; eassumption).
      assert (HQ : forall b n, handled m q v (s_n d) x b n -> received d (at_ b n)) by (intros b n Ht; eapply rcv; eassumption).
      destruct Hd as (Hm & Hb & Hq).
      assert (Hg : pexec PGet d = (Good x, at_ (s_main d) (s_n d))) by (unfold inbox in Ei; cbn; unfold cur_q; rewrite Ei; reflexivity).
      assert (Ha : forall g n, pexec (PB (DAppend (IMsg g))) (at_ (s_main d) n) = (Good tt, at_ (FlakySpec.holds m (last_items m (q ++ [IMsg g])) v (length v)) n)).
      { intros g n. unfold at_, main_has. cbn [pexec s_main s_mirs s_qs s_state s_n s_cur s_maxlen]. rewrite Hb. cbn [bexec]. unfold on_dq. cbn [storage FlakySpec.holds]. rewrite dq_append_spec by assumption. reflexivity. }
      assert (H0 : receive_left d (at_ (s_main d) (s_n d))).
      { apply HP. rewrite Hb. destruct x; cbn; auto. split; [apply wc_start|reflexivity]. }
      apply hal_bind, hal_op; [constructor|cbn [cexec psem]; rewrite Hg; exact H0|]. cbn [cexec psem]. rewrite Hg. intros x0 d' [= <- <-].
      destruct x as [s|g|g| | |].
      + apply hal_bind. eapply hal_weak; [|eapply hal_mono; [|apply (hal_main (write_cut m q v s)); cbn [at_ main_has s_main]; rewrite Hb; apply hal_write; assumption]]; cbv beta.
        * intros d1 (b & H1 & ->). apply (HP b (s_n d)). cbn. auto.
        * intros a d1 (b & H1 & ->). apply hal_ret; [apply (HP b (s_n d)); cbn; split; [|reflexivity]|apply (HQ b (s_n d)); cbn; auto].
          destruct H1 as (ls & r & H1 & H2). exists ls, r. split; [exact H1|]. destruct ls; auto.
      + apply hal_bind, hal_op; [exact H0|cbn [cexec psem]; rewrite Ha; apply HP; cbn; auto|]. cbn [cexec psem]. rewrite Ha. intros x d' [= <- <-].
        eapply hal_mono; [|apply hal_check_close; [apply HP; cbn; auto|]].
        * intros a d1 ->. apply (HQ _ (s_n d - 1)%Z). cbn. auto.
        * apply (HP _ (s_n d - 1)%Z). cbn. auto.
      + apply hal_bind, hal_op; [exact H0|cbn [cexec psem]; rewrite Ha; apply HP; cbn; auto|]. cbn [cexec psem]. rewrite Ha. intros x d' [= <- <-].
        apply hal_ret; [apply HP; cbn; auto|apply HQ; cbn; auto].
      + eapply hal_mono; [|apply hal_check_close; [exact H0|]].
        * intros a d1 ->. apply (HQ _ (s_n d - 1)%Z). cbn. auto.
        * apply (HP _ (s_n d - 1)%Z). cbn. auto.
      + apply hal_bind, hal_op; [exact H0|apply (HP _ 0%Z); cbn; auto|]. intros x d' [= <- <-].
        apply hal_ret; [apply (HP _ 0%Z); cbn; auto|apply (HQ _ 0%Z); cbn; auto].
      + apply hal_ret; [exact H0|apply HQ; cbn; auto].
  Qed.
End Receive.
Lemma received_main d d' : received d d' -> exists m q v, FlakyProcSpec.main_is m q v d'.
Proof.
  intros [m q v x rest b n (Hm & Hb & Hq) Hi Hh]. assert (Hl : forall l : list item, length (last_items m l) <= m) by (intros l; rewrite last_items_length; lia).
  assert (H0 : exists q' v', b = FlakySpec.holds m q' v' (length v') /\ length q' <= m).
  { destruct x; cbn in Hh; destruct Hh as [Hh _]; subst; eauto. destruct Hh as (ls & r & _ & Hh). destruct ls; subst; eauto. }
  destruct H0 as (q' & v' & -> & Hq'). exists m, q', v'. split; [exact Hm|]. split; [reflexivity|exact Hq'].
Qed.
Lemma hal_wait fuel : forall m q v d, FlakyProcSpec.main_is m q v d -> hal (wait_left d) (lp_wait fuel) d (fun _ _ => True).
Proof.
  assert (H0 : forall d, wait_left d d) by (intros d; exists d; split; constructor).
  induction fuel as [|n IH]; intros m q v d Hd; cbn [lp_wait]; [apply hal_raise, H0|].
  apply hal_bind. eapply hal_weak; [|eapply hal_mono; [|apply (hal_receive m q v d Hd)]]; cbv beta.
  - intros d1 H1. exists d. split; [constructor|exact H1].
  - intros a d1 H1. destruct (received_main d d1 H1) as (m' & q' & v' & Hd1).
    assert (Hn : forall d2, wait_left d1 d2 -> wait_left d d2) by (intros d2 (d3 & Hr & Hl); exists d3; split; [econstructor; eassumption|exact Hl]).
    destruct a; [|apply hal_ret; [apply Hn, H0|exact I]]. eapply hal_weak; [exact Hn|]. eapply IH, Hd1.
Qed.

(** ** The calls *)
Lemma main_left t c d fs P Q : hal P (lp_call c) d Q -> fst (sys_run t (ToMain c) d fs) <> Block -> sys_left t (ToMain c) d fs P.
Proof.
  intros H Hb. unfold sys_left. split; [exact Hb|].
  apply (left_of P (s_call (ToMain c)) (fun _ _ => True) t d fs (uw_main c)); [|exact Hb].
  cbn [s_call]. apply hal_sys_p. apply hal_then. eapply hal_mono; [|exact H]. auto.
Qed.
Lemma main_left' t c d fs P Q : waits c = false -> hal P (lp_call c) d Q -> sys_left t (ToMain c) d fs P.
Proof. intros Hw H. eapply main_left; [exact H|]. apply (ends _ t d fs (uw_main c)), nbs_main, Hw. Qed.
Lemma hal_pret (P : psys -> Prop) {X} (f : X -> res) (p : prog pcmd X) d (Q : X -> psys -> Prop) : hal P p d Q -> hal P (pret f p) d (fun _ _ => True).
Proof. intros H. apply hal_then. eapply hal_mono; [|exact H]. auto. Qed.
Ltac opn := apply hal_bind, hal_op.
Lemma c106_receive t d fs m q v : FlakyProcSpec.main_is m q v d -> fst (sys_run t (ToMain PReceive) d fs) <> Block ->
  sys_left t (ToMain PReceive) d fs (receive_left d).
Proof. intros Hd. eapply main_left. cbn [lp_call]. eapply hal_pret, hal_receive, Hd. Qed.
Lemma receive_ends t d fs m q v : FlakyProcSpec.main_is m q v d -> inbox d <> [] -> fst (sys_run t (ToMain PReceive) d fs) <> Block.
Proof.
  intros (Hm & Hb & Hq) Hi. destruct (inbox d) as [|x rest] eqn:Ei; [congruence|].
  pose proof (run_flaky_call (s_call (ToMain PReceive)) t d fs ∅ (uw_any _ _ _ _ (uw_main _)) wfk_empty) as Hc.
  unfold sys_run. remember (run t (flaky_call (s_call (ToMain PReceive))) (mkst (d, fs) ∅)) as o eqn:Eo. clear Eo.
  destruct Hc as (pre & _ & [[_ H]|(pre0 & e & j & _ & _ & H & _)]); [|rewrite H; discriminate].
  cbn [s_call] in H. rewrite run_sys_p, run_bind in H. cbn [lp_call] in H. unfold pret in H. rewrite run_bind in H.
  destruct (run t lp_receive (mkst d ∅)) as [r s1] eqn:Er.
  assert (Hr : hok lp_receive d [] (Good (fst (rstep m x (mkmain q v (s_n d))))) (main_set m false (snd (rstep m x (mkmain q v (s_n d)))) (set_queue rest d))).
  { apply hok_receive; [|exact Ei]. split; [exact Hb|]. split; [reflexivity|]. split; assumption. }
  destruct (hok_inv t _ _ _ _ _ _ Hr Er) as (-> & _). cbn [run] in H. apply (f_equal fst) in H. cbn [fst] in H. rewrite <- H. discriminate.
Qed.
Lemma c106_receive_some t d fs m q v : FlakyProcSpec.main_is m q v d -> inbox d <> [] -> sys_left t (ToMain PReceive) d fs (receive_left d).
Proof. intros Hd Hi. eapply c106_receive; [exact Hd|]. eapply receive_ends; eassumption. Qed.
Lemma c106_wait t d fs m q v fuel : FlakyProcSpec.main_is m q v d -> fst (sys_run t (ToMain (PWait fuel)) d fs) <> Block ->
  sys_left t (ToMain (PWait fuel)) d fs (wait_left d).
Proof. intros Hd. eapply main_left. cbn [lp_call]. eapply hal_pret, hal_wait, Hd. Qed.
Lemma c106_mirror t d fs : sys_left t (ToMain PGetMirror) d fs (fun d' => d' = d \/ d' = set_count (s_n d + 1)%Z d).
Proof.
  eapply main_left'; [reflexivity|]. cbn [lp_call]. apply hal_pret with (Q := fun _ _ => True). unfold lp_mirror.
  opn; [auto|auto|]. intros x d' [= <- <-]. opn; [auto|auto|]. intros x d' [= <- <-]. apply hal_op; auto.
Qed.
Lemma c106_stop_all t d fs : sys_left t (ToMain PStopAll) d fs (fun d' => d' = d \/ d' = set_flag (Some true) d).
Proof.
  eapply main_left'; [reflexivity|]. cbn [lp_call]. apply hal_pret with (Q := fun _ _ => True). unfold lp_stop_all. apply hal_with, hal_op; auto.
Qed.
Lemma c106_reset t d fs : sys_left t (ToMain PReset) d fs (fun d' => d' = d \/
  ((s_n d <= 0)%Z /\ (d' = set_flag None d \/ d' = set_flag (Some false) d \/ d' = renewed (set_flag (Some false) d)))).
Proof.
  eapply main_left'; [reflexivity|]. cbn [lp_call]. apply hal_pret with (Q := fun _ _ => True). unfold lp_reset.
  opn; [auto|auto|]. intros x d' [= <- <-]. destruct (Z.ltb_spec 0 (s_n d)) as [Hn|Hn]; [apply hal_raise; auto|].
  apply hal_bind, hal_with. opn; [auto|auto|]. intros x d' [= <- <-]. apply hal_op; [auto|auto|]. intros x d' [= <- <-].
  apply hal_op; [auto|auto 9|auto].
Qed.
Lemma c106_force_stop t d fs : sys_left t (ToMain PForceStop) d fs (fun d' => d' = d \/ d' = main_has (s_main d) (s_n d) (inbox d ++ [QStop]) d).
Proof.
  eapply main_left'; [reflexivity|]. cbn [lp_call]. apply hal_pret with (Q := fun _ _ => True). unfold lp_force_stop. apply hal_op; auto.
Qed.
Lemma c106_write_main t d fs data : sys_left t (ToMain (PBase (Write data))) d fs (fun d' => d' = d).
Proof.
  eapply main_left'; [reflexivity|]. cbn [lp_call]. apply hal_pret with (Q := fun _ _ => True). apply hal_raise. reflexivity.
Qed.
(** The methods of [_LineBuffer] *)
Lemma base_left t c d fs (P : lbuf -> Prop) : lp_call (PBase c) = on_main (lb_call c) -> alw P t (lb_call c) (mkst (s_main d) ∅) ->
  sys_left t (ToMain (PBase c)) d fs (fun d' => exists b, P b /\ d' = set_main b d).
Proof.
  intros Ec H. assert (Hb : fst (sys_run t (ToMain (PBase c)) d fs) <> Block) by (apply (ends _ t d fs (uw_main _)), nbs_main; reflexivity).
  split; [exact Hb|]. split; [apply (ends _ t d fs (uw_main _)), Hb|].
  destruct (cut_prefix t _ d ∅ fs _ _ (run_flaky_call _ t d fs ∅ (uw_any _ _ _ _ (uw_main (PBase c))) wfk_empty) Hb) as [j Hj].
  unfold sys_run. rewrite Hj. revert j Hj. 
  cut (alw (fun d' => exists b, P b /\ d' = set_main b d) t (s_call (ToMain (PBase c))) (mkst d ∅)); [intros Ha j _; apply Ha|].
  cbn [s_call]. rewrite Ec. unfold sys_p, on_main.
  assert (Hd : set_main (s_main d) d = d) by (destruct d; reflexivity).
  assert (Hf : forall X (c : bcmd X) b, P b -> cexec (e_pb X c) (set_main b d) = (fst (cexec c b), set_main (snd (cexec c b)) d)) by (intros X c0 b _; cbn; destruct (bexec c0 b); reflexivity).
  pose proof (proj1 (alw_lift e_pb (fun b => set_main b d) P Hf t (lb_call c) (s_main d) ∅ H)) as H1. cbv beta in H1. rewrite Hd in H1.
  set (P1 := fun d' => exists b, P b /\ d' = set_main b d) in *.
  assert (H2 : alw P1 t (bind (lift e_pb (lb_call c)) (fun r => Ret (FromMain r))) (mkst d ∅)).
  { apply alw_bind; [exact H1|]. intros a s' E. apply alw_ret. pose proof (alw_end P1 t _ _ H1) as He. rewrite E in He. apply He. discriminate. }
  assert (Hf2 : forall X (c : pcmd X) d1, P1 d1 -> cexec (SP c) d1 = (fst (cexec c d1), snd (cexec c d1))) by (intros X c0 d1 _; cbn; destruct (pexec c0 d1); reflexivity).
  pose proof (proj1 (alw_lift (fun (X : Type) (c : pcmd X) => SP c) (fun d : psys => d) P1 Hf2 t _ d ∅ H2)) as H3. cbv beta in H3.
  eapply alw_weaken; [|exact H3]. intros d1 (d2 & H4 & ->). exact H4.
Qed.
Section Base.
  Variables (m : nat) (q : list item) (v : text) (d : psys) (t : nat) (fs : faults).
  Hypothesis Hd : FlakyProcSpec.main_is m q v d.
  Lemma c106_read size : sys_left t (ToMain (PBase (Read size))) d fs (fun d' => exists b, read_cut m q v b /\ d' = set_main b d).
  Proof. destruct Hd as (Hm & Hb & Hq). apply base_left; [reflexivity|]. rewrite Hb. apply alw_read; assumption. Qed.
  Lemma c106_clear_main : sys_left t (ToMain (PBase Clear)) d fs (fun d' => exists b, clear_cut m q v b /\ d' = set_main b d).
  Proof. destruct Hd as (Hm & Hb & Hq). apply base_left; [reflexivity|]. rewrite Hb. apply alw_clear_call. Qed.
  Lemma c106_new_line_main : sys_left t (ToMain (PBase NewLine)) d fs
    (fun d' => exists b, (b = FlakySpec.holds m q v (length v) \/ (v <> [] /\ write_cut m q v [10%N] b)) /\ d' = set_main b d).
  Proof. destruct Hd as (Hm & Hb & Hq). apply base_left; [reflexivity|]. rewrite Hb. apply alw_new_line; assumption. Qed.
  Lemma c106_close_main : sys_left t (ToMain (PBase Close)) d fs
    (fun d' => exists b, (clear_cut m q v b \/ b = mklbuf (mkdeque [] m) (mksio [] 0 true)) /\ d' = set_main b d).
  Proof. destruct Hd as (Hm & Hb & Hq). apply base_left; [reflexivity|]. rewrite Hb. apply alw_close. Qed.
End Base.
