(** * ProcSysProofs: proofs of the sequential properties of the process-mode system *)
From stdpp Require Import gmap relations.
From Coq Require Import List NArith ZArith Bool Arith Lia.
From Verif Require Import PyStr Prog ProgFacts PyIO Base Spec SpecFacts LineBuf LineBufSpec LineBufFacts LineBufProofs Locks Held Proc ProcSpec ProcFacts ProcMain ProcSeq ProcHist ProcProofs.
Import ListNotations.
Local Open Scope nat_scope.

(** ** The log of received messages, as a function *)
Definition gmsg1 (x : msg) (p : slog * Z) : slog * Z :=
  let '(g, n) := p in
  match x with
  | QStr data => (gwrite data g, n)
  | QError e => (mkslog (done g ++ [IMsg e]) (pend g), (n - 1)%Z)
  | QWarning e => (mkslog (done g ++ [IMsg e]) (pend g), n)
  | QClose => (g, (n - 1)%Z)
  | QStop => (g, 0%Z)
  | QOther => (g, n)
  end.
Definition gmsgs (xs : list msg) (p : slog * Z) : slog * Z := fold_left (fun p x => gmsg1 x p) xs p.

Lemma log_msg_fun x p p' : log_msg x p p' <-> p' = gmsg1 x p.
Proof.
  split.
  - intros []; simpl; try reflexivity. apply log_write_fun in H. subst. reflexivity.
  - intros ->. destruct p as [[dn pn] n]. destruct x; simpl; constructor. apply log_write_fun. reflexivity.
Qed.
Lemma log_msgs_fun xs : forall p p', log_msgs xs p p' <-> p' = gmsgs xs p.
Proof.
  induction xs as [|x xs IH]; intros p p'; split.
  - inversion 1; reflexivity.
  - intros ->. constructor.
  - inversion 1 as [|? ? ? b ? H1 H2]; subst. apply log_msg_fun in H1. subst b. apply IH, H2.
  - intros ->. econstructor; [apply log_msg_fun; reflexivity|]. apply IH. reflexivity.
Qed.

Definition abs_main (m : nat) (p : slog * Z) : mainst :=
  mkmain (last_items m (done (fst p))) (pend (fst p)) (snd p).

Lemma rstep_gmsg m x p : snd (rstep m x (abs_main m p)) = abs_main m (gmsg1 x p).
Proof.
  destruct p as [g n]. destruct x; unfold abs_main; simpl; rewrite ?last_items_app_idem; reflexivity.
Qed.
Lemma rsteps_gmsgs m xs : forall p, rsteps m xs (abs_main m p) = abs_main m (gmsgs xs p).
Proof.
  induction xs as [|x xs IH]; intros p; [reflexivity|]. unfold rsteps in *. cbn [fold_left].
  rewrite rstep_gmsg, IH. reflexivity.
Qed.

(** ** wait() handles exactly the messages of [wait_cut] *)
Lemma rstep_go m x a : fst (rstep m x a) =
  if is_data x then true else if is_end x then (1 <? mn a)%Z else false.
Proof.
  destruct x; simpl; try reflexivity; destruct (Z.ltb_spec 1 (mn a)); destruct (Z.ltb_spec 0 (mn a - 1)); reflexivity || lia.
Qed.
Lemma rstep_n m x a : mn (snd (rstep m x a)) =
  if is_data x then mn a else if is_end x then (mn a - 1)%Z else match x with QStop => 0%Z | _ => mn a end.
Proof. destruct x; reflexivity. Qed.

Lemma wstep_cut m xs : forall a,
  match wait_cut xs (mn a) with
  | Some (h, r) => xs = h ++ r /\ wstep m xs a = Some (rsteps m h a, r)
  | None => wstep m xs a = None
  end.
Proof.
  induction xs as [|x xs IH]; intros a; [reflexivity|]. cbn [wait_cut wstep].
  pose proof (rstep_go m x a) as Hg. pose proof (rstep_n m x a) as Hn.
  destruct (rstep m x a) as [go a1] eqn:E. cbn [fst snd] in *. specialize (IH a1).
  assert (Hrs : forall h, rsteps m (x :: h) a = rsteps m h a1).
  { intros h. unfold rsteps. cbn [fold_left]. rewrite E. reflexivity. }
  destruct (is_data x).
  - subst go. rewrite Hn in IH. destruct (wait_cut xs (mn a)) as [[h r]|].
    + destruct IH as [-> IH]. rewrite Hrs. auto.
    + exact IH.
  - destruct (is_end x).
    + destruct (1 <? mn a)%Z; subst go.
      * rewrite Hn in IH. destruct (wait_cut xs (mn a - 1)%Z) as [[h r]|].
        -- destruct IH as [-> IH]. rewrite Hrs. auto.
        -- exact IH.
      * split; [reflexivity|]. rewrite Hrs. reflexivity.
    + subst go. split; [reflexivity|]. rewrite Hrs. reflexivity.
Qed.

Lemma main_is_open m d a c : main_is m c d a -> main_closed d = c.
Proof. intros (H & _). rewrite H. reflexivity. Qed.

Lemma pinv_abs m d : pinv m d -> main_closed d = false ->
  main_is m false d (abs_main m (mkslog (records d) (current d), s_n d)).
Proof.
  intros H Hc. destruct (pi_main m d H) as (a & c & Ha). pose proof (main_is_open _ _ _ _ Ha) as E. rewrite Hc in E. subst c.
  destruct Ha as (Hb & Hn & Hl & Hm). unfold abs_main, main_is. cbn [fst snd done pend mq mpend mn].
  rewrite Hb. cbn [bd storage dq last_line fl sval]. rewrite last_items_all by exact Hl. auto.
Qed.

Lemma received_intro m d q xs :
  received m d (main_set m false (abs_main m (gmsgs xs (mkslog (records d) (current d), s_n d))) (set_queue q d)) xs.
Proof.
  destruct (gmsgs xs (mkslog (records d) (current d), s_n d)) as [g n] eqn:E. exists g. repeat split.
  apply log_msgs_fun. rewrite E. reflexivity.
Qed.

Lemma wait_run m d t fuel : 1 <= m -> preach m d -> main_closed d = false -> length (inbox d) < fuel ->
  exists r s', run t (sys_p (lp_wait fuel)) (idle d) = (r, s') /\
  match wait_cut (inbox d) (s_n d) with
  | Some (h, rest) => r = Good tt /\ s' = idle (dat s') /\ inbox d = h ++ rest /\ inbox (dat s') = rest /\ received m d (dat s') h
  | None => r = Block /\ inbox (dat s') = [] /\ received m d (dat s') (inbox d)
  end.
Proof.
  intros Hm Hr Hc Hf. pose proof (preach_pinv m d Hm Hr) as Hp. pose proof (pinv_validq m d Hp) as Hv.
  pose proof (pinv_abs m d Hp Hc) as Ha. set (p := (mkslog (records d) (current d), s_n d)) in *.
  pose proof (wstep_cut m (inbox d) (abs_main m p)) as Hw. change (mn (abs_main m p)) with (s_n d) in Hw.
  rewrite run_sys_p. destruct (wait_cut (inbox d) (s_n d)) as [[h rest]|].
  - destruct Hw as [E Hw]. 
    pose proof (hok_wait_ok m (inbox d) fuel d _ _ _ Hv Ha eq_refl Hw ltac:(lia)) as Hok.
    eexists _, _. split; [apply (hok_runs t _ _ _ _ Hok); discriminate|]. split; [reflexivity|]. split; [reflexivity|].
    split; [exact E|]. split.
    + apply (queue_set_queue rest d Hv).
    + rewrite rsteps_gmsgs. apply received_intro.
  - pose proof (hok_wait_block m (inbox d) fuel d _ Hv Ha eq_refl Hw Hf) as Hok.
    destruct (hok_run t _ _ _ _ Hok) as (k' & Ek & _). eexists _, _. split; [exact Ek|]. split; [reflexivity|]. simpl dat. split.
    + apply (queue_set_queue [] d Hv).
    + rewrite rsteps_gmsgs. apply received_intro.
Qed.

(** ** C27 *)
Lemma hok_mret_inv {X} (f : X -> mres) (p : prog mcmd X) d r d' :
  hok (mret f p) d [] r d' ->
  exists r0, hok p d [] r0 d' /\ r = match r0 with Good x => Good (f x) | Fail e => Fail e | Block => Block end.
Proof.
  intros (hs & E & H). unfold mret in E. rewrite hrun_bind in E.
  destruct (hrun p d []) as [[[r1 d1] h1]|] eqn:Ep; [|discriminate].
  destruct r1 as [x|e|]; simpl in E; injection E as <- <- <-; eexists; (split; [exists h1; split; [exact Ep|]|reflexivity]).
  - intros _. apply H. discriminate.
  - intros _. apply H. discriminate.
  - congruence.
Qed.

Lemma stop_run t d : run t (sys_p lp_stop_all) (idle d) = (Good tt, idle (set_state (Some true) d)).
Proof. apply hok_runs; [apply hok_sys_p, hok_stop_all|discriminate]. Qed.

Lemma pinv_state m d o : pinv m d -> pinv m (set_state o d).
Proof. intros H. eapply pinv_main; eauto. destruct (pi_main m d H) as (a & c & Ha). exists a, c. exact Ha. Qed.

Lemma set_nth_id {A} i (l : list A) d : i < length l -> set_nth i (nth i l d) l = l.
Proof. apply set_nth_same. Qed.

Lemma c27 m d t xs d2 i data t' : 1 <= m -> preach m d ->
  shist xs (dat (snd (run t (sys_p lp_stop_all) (idle d)))) d2 -> no_reset xs ->
  i < length (s_mirs d2) -> is_closed (mir_at d2 i) = false ->
  exists d3, run t' (sys_m i (lm_write data)) (idle d2) = (Fail StopIteration, idle d3) /\
    s_qs d3 = s_qs d2 /\ held (mir_at d3 i) = held (mir_at d2 i) /\ s_main d3 = s_main d2 /\ s_n d3 = s_n d2.
Proof.
  intros Hm Hr Hs Hn Hi Hc. rewrite stop_run in Hs. simpl in Hs.
  pose proof (pinv_state m d (Some true) (preach_pinv m d Hm Hr)) as Hp1.
  pose proof (shist_pinv m xs _ _ Hp1 Hs) as Hp2.
  destruct (shist_noreset m xs _ _ Hp1 Hs Hn) as [_ Hst]. specialize (Hst eq_refl).
  destruct (pi_mir m d2 Hp2 i Hi) as (b & a & Em & Ha & Hh & Hq).
  rewrite Em in Hc. change (mc a = false) in Hc.
  assert (Hx : xwrite 0 (stopped_of (s_state d2) b) data a (nth (b_q b) (s_qs d2) []) = (Fail StopIteration, a, nth (b_q b) (s_qs d2) [])).
  { unfold xwrite, stopped_of. rewrite Hst, Hh, Hc. reflexivity. }
  pose proof (hok_write _ _ _ _ _ _ _ _ _ Hx) as Hok.
  assert (Hg : get_menv i d2 = mkmenv (mk b a) (nth (b_q b) (s_qs d2) []) 0 (s_state d2)).
  { unfold get_menv. rewrite Em. reflexivity. }
  rewrite <- Hg in Hok. apply (hok_sys_m i) in Hok; [|eapply pinv_vmir; eassumption].
  eexists. split; [apply (hok_runs t' _ _ _ _ Hok); discriminate|]. repeat split.
  - simpl. rewrite Em. apply set_nth_id, Hq.
  - rewrite mir_at_put by (eapply pinv_vmir; eassumption). rewrite Em. reflexivity.
Qed.

(** ** C28: the main side *)
Lemma cut_data xs n : Forall (fun x => is_data x = true) xs -> wait_cut xs n = None.
Proof.
  induction 1 as [|x xs Hx _ IH]; [reflexivity|]. simpl. rewrite Hx, IH. reflexivity.
Qed.

(** ** C30 *)
Lemma cut_stop xs n : exists h r, wait_cut (xs ++ [QStop]) n = Some (h, r).
Proof.
  revert n. induction xs as [|x xs IH]; intros n; [simpl; eauto|]. cbn [app wait_cut].
  destruct (is_data x).
  - destruct (IH n) as (h & r & ->). eauto.
  - destruct (is_end x); [|eauto]. destruct (1 <? n)%Z; [|eauto]. destruct (IH (n - 1)%Z) as (h & r & ->). eauto.
Qed.
Lemma cut_stop_none xs n : wait_cut xs n = None -> wait_cut (xs ++ [QStop]) n = Some (xs ++ [QStop], []).
Proof.
  revert n. induction xs as [|x xs IH]; intros n; [reflexivity|]. cbn [app wait_cut].
  destruct (is_data x).
  - destruct (wait_cut xs n) as [[h r]|] eqn:E; [discriminate|]. intros _. rewrite IH by exact E. reflexivity.
  - destruct (is_end x); [|discriminate]. destruct (1 <? n)%Z; [|discriminate].
    destruct (wait_cut xs (n - 1)%Z) as [[h r]|] eqn:E; [discriminate|]. intros _. rewrite IH by exact E. reflexivity.
Qed.
Lemma cut_app xs n h r ys : wait_cut xs n = Some (h, r) -> wait_cut (xs ++ ys) n = Some (h, r ++ ys).
Proof.
  revert n h r. induction xs as [|x xs IH]; intros n h r; [discriminate|]. cbn [app wait_cut].
  destruct (is_data x).
  - destruct (wait_cut xs n) as [[h' r']|] eqn:E; [|discriminate]. intros [= <- <-]. rewrite (IH _ _ _ E). reflexivity.
  - destruct (is_end x); [|intros [= <- <-]; reflexivity]. destruct (1 <? n)%Z; [|intros [= <- <-]; reflexivity].
    destruct (wait_cut xs (n - 1)%Z) as [[h' r']|] eqn:E; [|discriminate]. intros [= <- <-]. rewrite (IH _ _ _ E). reflexivity.
Qed.

Lemma force_run t d : run t (sys_p lp_force_stop) (idle d) = (Good tt, idle (set_queue (queue d ++ [QStop]) d)).
Proof. apply hok_runs; [apply hok_sys_p, hok_force|discriminate]. Qed.

Lemma preach_step m d t x d' : preach m d -> sstep t x d d' -> preach m d'.
Proof.
  intros [xs H] Hs. exists (xs ++ [(t, x)]). revert H. generalize (lp_fresh m). intros d0 H.
  induction H as [d|t0 x0 xs d d1 d2 H0 _ IH]; simpl.
  - econstructor; [exact Hs|constructor].
  - econstructor; [exact H0|]. apply IH, Hs.
Qed.

Lemma force_step m d (t : nat) : preach m d -> preach m (set_queue (queue d ++ [QStop]) d).
Proof.
  intros H. eapply preach_step; [exact H|]. apply (ss_main t PForceStop (Good RUnit)); [|discriminate].
  rewrite run_sys_p. cbn [lp_call]. unfold pret. rewrite run_bind. 
  pose proof (force_run t d) as Hf. rewrite run_sys_p in Hf. rewrite Hf. reflexivity.
Qed.

Lemma last_gmsgs xs p : gmsgs (xs ++ [QStop]) p = (fst (gmsgs xs p), 0%Z).
Proof. unfold gmsgs. rewrite fold_left_app. simpl. destruct (fold_left _ xs p) as [g n]. reflexivity. Qed.

Lemma c30 m d t t' fuel : 1 <= m -> preach m d -> main_closed d = false -> length (inbox d) + 1 < fuel ->
  let d1 := dat (snd (run t (sys_p lp_force_stop) (idle d))) in
  exists d2 handled rest,
    run t' (sys_p (lp_wait fuel)) (idle d1) = (Good tt, idle d2) /\
    inbox d ++ [QStop] = handled ++ rest /\ inbox d2 = rest /\ received m d d2 handled /\
    match wait_cut (inbox d) (s_n d) with
    | None => rest = [] /\ s_n d2 = 0%Z
    | Some (h, r) => handled = h /\ rest = r ++ [QStop]
    end.
Proof.
  intros Hm Hr Hc Hf d1. subst d1. rewrite force_run. cbn [dat snd].
  set (d1 := set_queue (queue d ++ [QStop]) d).
  assert (Hr1 : preach m d1) by (apply (force_step m d t Hr)).
  assert (Ei : inbox d1 = inbox d ++ [QStop]).
  { apply queue_set_queue. apply (pinv_validq m d (preach_pinv m d Hm Hr)). }
  destruct (wait_run m d1 t' fuel Hm Hr1 Hc) as (r & s' & E & Hx).
  { rewrite Ei, app_length. simpl. lia. }
  rewrite Ei in Hx. change (s_n d1) with (s_n d) in Hx.
  destruct (wait_cut (inbox d) (s_n d)) as [[h rr]|] eqn:Ew.
  - rewrite (cut_app _ _ _ _ [QStop] Ew) in Hx. destruct Hx as (-> & E2 & E3 & E4 & E5).
    exists (dat s'), h, (rr ++ [QStop]). rewrite E, <- E2. repeat split; auto.
  - rewrite (cut_stop_none _ _ Ew) in Hx. destruct Hx as (-> & E2 & E3 & E4 & E5).
    exists (dat s'), (inbox d ++ [QStop]), []. rewrite E, <- E2. repeat split; auto.
    destruct E5 as (g & Hl & _). apply log_msgs_fun in Hl. rewrite last_gmsgs in Hl. injection Hl as _ E5. exact E5.
Qed.

(** ** C31 *)
Lemma c31_guard d t : (0 < s_n d)%Z -> run t (sys_p lp_reset) (idle d) = (Fail TypeError, idle d).
Proof.
  intros H. pose proof (hok_reset d) as Hr. replace (0 <? s_n d)%Z with true in Hr by (symmetry; apply Z.ltb_lt; exact H).
  apply (hok_runs t _ _ _ _ (hok_sys_p _ _ _ _ _ Hr)). discriminate.
Qed.
Lemma reset_run d t : (s_n d <= 0)%Z -> run t (sys_p lp_reset) (idle d) = (Good tt, idle (reset_to d)).
Proof.
  intros H. pose proof (hok_reset d) as Hr. replace (0 <? s_n d)%Z with false in Hr by (symmetry; apply Z.ltb_ge; exact H).
  apply (hok_runs t _ _ _ _ (hok_sys_p _ _ _ _ _ Hr)). discriminate.
Qed.

Lemma c31_reset d t : (s_n d <= 0)%Z ->
  exists d', run t (sys_p lp_reset) (idle d) = (Good tt, idle d') /\
    s_state d' = Some false /\ is_closed (mir_at d' (s_cur d')) = false /\ held (mir_at d' (s_cur d')) = [] /\
    inbox d' = [] /\ s_main d' = s_main d /\ s_n d' = s_n d.
Proof.
  intros H. exists (reset_to d). split; [apply reset_run, H|]. unfold inbox.
  assert (E : mir_at (reset_to d) (s_cur (reset_to d)) = mir_new (length (s_mirs d)) (length (s_qs d)) false None true).
  { apply mir_at_last. }
  rewrite E. simpl. repeat split. rewrite app_nth2 by lia. rewrite Nat.sub_diag. reflexivity.
Qed.

Lemma reset_step m d t : preach m d -> (s_n d <= 0)%Z -> sstep t (OnMain PReset) d (reset_to d).
Proof.
  intros H Hn. apply (ss_main t PReset (Good RUnit)); [|discriminate].
  rewrite run_sys_p. cbn [lp_call]. unfold pret. rewrite run_bind.
  pose proof (reset_run d t Hn) as Hf. rewrite run_sys_p in Hf. rewrite Hf. reflexivity.
Qed.

Lemma c31_detached m d t xs d2 i j c t' d3 : 1 <= m -> preach m d -> (s_n d <= 0)%Z ->
  shist xs (dat (snd (run t (sys_p lp_reset) (idle d)))) d2 ->
  j < length (s_mirs d) -> m_q (mir_at d2 i) = m_q (mir_at d j) ->
  sstep t' (OnMirror i c) d2 d3 -> inbox d3 = inbox d2.
Proof.
  intros Hm Hr Hn Hs Hj Hq Hst. rewrite (reset_run d t Hn) in Hs. cbn [dat snd] in Hs.
  pose proof (preach_pinv m d Hm Hr) as Hp.
  destruct (sstep_good m t _ _ _ Hp (reset_step m d t Hr Hn)) as [Hp1 _].
  pose proof (shist_pinv m xs _ _ Hp1 Hs) as Hp2.
  assert (Hcur : length (s_qs d) <= cur_q d2).
  { apply (shist_cur m (length (s_qs d)) xs _ _ Hp1 Hs).
    - simpl. rewrite app_length. lia.
    - unfold cur_q. change (s_cur (reset_to d)) with (length (s_mirs d)). unfold reset_to at 1. rewrite mir_at_last. reflexivity. }
  destruct (pinv_vmir m d j Hp Hj) as [_ Hlt].
  inversion Hst as [i0 c0 r0 dd dd' Hi0 Hrun Hb| |]; subst.
  destruct (sys_mirror_run m d2 i c Hp2 Hi0) as (b & a & r1 & a' & q' & Em & Hh & Hqb & Ha & Hx & Hok).
  destruct (hok_inv _ _ _ _ _ _ _ Hok Hrun) as (_ & E3 & _). simpl in E3.
  unfold inbox. rewrite E3. change (s_cur (put_menv i _ d2)) with (s_cur d2).
  assert (Hne : m_q (mir_at d2 (s_cur d2)) <> m_q (mir_at d2 i)) by (unfold cur_q in Hcur; lia).
  assert (Eq : m_q (mir_at (put_menv i (mkmenv (mk (if uses_lock c then il b else b) a') q' 0 (s_state d2)) d2) (s_cur d2)) = m_q (mir_at d2 (s_cur d2))).
  { unfold mir_at at 1. simpl. rewrite nth_set_nth' by apply Hp2.
    destruct (Nat.eqb_spec (s_cur d2) i) as [E|]; [exfalso; apply Hne; rewrite E; reflexivity|reflexivity]. }
  rewrite Eq. unfold put_menv. cbn [s_qs e_q]. apply nth_set_nth_ne. exact Hne.
Qed.
