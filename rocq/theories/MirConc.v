(** * MirConc: threads that share a LineProcMirror whose lock exists already (C36) *)
From stdpp Require Import gmap.
From Coq Require Import List NArith ZArith Bool Arith Lia.
From Verif Require Import PyStr Prog ProgFacts PyIO Base Spec LineBuf Conc ReentConc LineBufSpec LineBufConcProofs Proc ProcSpec.
Import ListNotations.
Local Open Scope prog_scope.
Local Open Scope nat_scope.

Section Mir.
  Variables (n : nat) (b : bool).
  Notation L := (mlock n).
  Notation free := (stdpp.base.empty : locks).
  Definition St (d : menv) : bool := match m_ref (e_mir d) with Some k => k =? n | None => false end.
  Definition Inv (d : menv) : Prop :=
    St d = true /\ sclosed (m_buf (e_mir d)) = b /\ (e_qmax d = 0 \/ m_timeout (e_mir d) <> None).
  Lemma Inv_St d : Inv d -> St d = true.
  Proof. intros [H _]. exact H. Qed.
  Lemma St_ref d : St d = true -> m_ref (e_mir d) = Some n.
  Proof. unfold St. destruct (m_ref (e_mir d)) as [k|]; [|discriminate]. intros H. apply Nat.eqb_eq in H. congruence. Qed.
  Lemma ref_read d : St d = true -> cexec MRef d = (Good (Some n), d).
  Proof. intros H. simpl. rewrite (St_ref d H). reflexivity. Qed.
  Lemma L_reent : reent L = true.
  Proof. unfold reent, mlock. rewrite Nat.odd_add, Nat.odd_mul. reflexivity. Qed.
  Lemma STL_L : STL <> L.
  Proof. unfold STL, mlock. lia. Qed.

  Notation good := (good L St Inv).
  Notation G := (good [STL]).
  Lemma L_not : ~ In L [STL].
  Proof. intros [H|[]]. exact (STL_L H). Qed.

  (** Commands on the buffer that do not close it. *)
  Lemma good_buf {X} (c : mcmd X) (f : sio -> outcome X * sio) :
    (forall d, cexec c d = on_buf f d) -> (forall v, fst (f v) <> Block /\ sclosed (snd (f v)) = sclosed v) ->
    forall ls, good ls (op c).
  Proof.
    intros Hc Hf ls. apply good_op; [exact Inv_St|]. intros d (H1 & H2 & H3). rewrite Hc. unfold on_buf.
    destruct (Hf (m_buf (e_mir d))) as [Hb Hs]. destruct (f (m_buf (e_mir d))) as [r v]. simpl in *.
    split; [exact Hb|]. split; [exact H1|]. split; [cbn; congruence|exact H3].
  Qed.
  Lemma good_look {X} (c : mcmd X) (x : menv -> X) : (forall d, cexec c d = (Good (x d), d)) -> forall ls, good ls (op c).
  Proof.
    intros H ls. apply good_op; [exact Inv_St|]. intros d Hd. rewrite H. split; [discriminate|exact Hd].
  Qed.

  Ltac buf := intros v; destruct v as [w p cl]; cbn; destruct cl; cbn; split; try discriminate; try reflexivity.
  Lemma good_closed ls : good ls (mop MClosed).
  Proof. eapply good_buf; [reflexivity|buf]. Qed.
  Lemma good_tell ls : good ls (mop MTell).
  Proof. eapply good_buf; [reflexivity|buf]. Qed.
  Lemma good_getvalue ls : good ls (mop MGetvalue).
  Proof. eapply good_buf; [reflexivity|buf]. Qed.
  Lemma good_write s ls : good ls (mop (MWrite s)).
  Proof.
    eapply good_buf; [reflexivity|]. intros v. destruct v as [w p cl]. cbn. destruct cl, s; cbn; split; try discriminate; reflexivity.
  Qed.
  Lemma good_seek0 ls : good ls (mop MSeek0).
  Proof. eapply good_buf; [reflexivity|buf]. Qed.
  Lemma good_truncate0 ls : good ls (mop MTruncate0).
  Proof. eapply good_buf; [reflexivity|buf]. Qed.
  Lemma good_flush ls : good ls (mop MFlush).
  Proof. eapply good_buf; [reflexivity|buf]. Qed.
  Lemma good_rd z ls : good ls (mop (MRead z)).
  Proof. eapply good_buf; [reflexivity|buf]. Qed.

  Lemma good_with_m {A} (p : prog mcmd A) : G p -> G (with_m p).
  Proof. exact (good_with_lazy MRef MNew mlock n St Inv Inv_St ref_read L_reent [STL] L_not p). Qed.
  Lemma good_put m : G (lm_put m).
  Proof.
    intros t d k i Hk Hl (H1 & H2 & H3). unfold lm_put.
    destruct (q_full (e_qmax d) (e_q d)) eqn:Ef.
    - destruct (m_timeout (e_mir d)) as [z|] eqn:Et.
      2: { exfalso. destruct H3 as [H3|H3]; [|congruence]. unfold q_full in Ef. rewrite H3 in Ef. discriminate. }
      exists (Fail QueueFull), d. split; [discriminate|]. split; [split; [exact H1|split; [exact H2|right; congruence]]|].
      eapply h_step; [simpl; rewrite Et; reflexivity|exact H1|simpl; rewrite Hk; discriminate|].
      eapply h_step; [simpl; rewrite Ef; reflexivity|exact H1|simpl; rewrite Hk; discriminate|constructor].
    - exists (Good tt), (mkmenv (e_mir d) (e_q d ++ [m]) (e_qmax d) (e_state d)). split; [discriminate|].
      split; [split; [exact H1|split; [exact H2|exact H3]]|].
      eapply h_step; [simpl; reflexivity|exact H1|simpl; rewrite Hk; discriminate|].
      eapply h_step; [simpl; rewrite Ef; reflexivity|exact H1|simpl; rewrite Hk; discriminate|constructor].
  Qed.
  Lemma good_send_data data : G (lm_send_data data).
  Proof.
    unfold lm_send_data. apply good_bind; [apply good_with_m, good_closed|]. intros [|]; [apply good_ret|apply good_put].
  Qed.
  Lemma good_write_body data : G (lm_write_body data).
  Proof.
    unfold lm_write_body. apply good_bind; [eapply good_look; reflexivity|]. intros has.
    apply good_bind.
    { destruct has; [|apply good_ret].
      apply good_other; [exact Inv_St|exact STL_L|intros []|].
      apply good_bind; [eapply good_look; reflexivity|]. intros tr.
      apply good_bind; [destruct tr; [eapply good_look; reflexivity|apply good_ret]|]. intros [|]; [apply good_raise|apply good_ret]. }
    intros _. apply good_bind; [eapply good_look; reflexivity|]. intros [|].
    { apply good_bind; [apply good_send_data|]. intros _. apply good_ret. }
    destruct (_ || _).
    - apply good_bind; [apply good_write|]. intros res. apply good_bind; [apply good_getvalue|]. intros v.
      apply good_bind; [apply good_send_data|]. intros _. apply good_bind; [apply good_seek0|]. intros _.
      apply good_bind; [apply good_truncate0|]. intros _. apply good_ret.
    - destruct (_ =? 1); [apply good_write|apply good_ret].
  Qed.

  (** The check that the mirror is open. *)
  Lemma run_with_m {A} t (p : prog mcmd A) d : Inv d ->
    run t (with_m p) (mkst d free) = run t (try_finally p (release L)) (mkst d {[ L := Excl t 1 ]}).
  Proof. apply (run_with_lazy MRef MNew mlock n St Inv Inv_St ref_read). Qed.
  Lemma run_chk t d : Inv d -> run t (with_m (c <- mop MClosed ;; Ret (negb c))) (mkst d free) = (Good (negb b), mkst d free).
  Proof.
    intros Hd. rewrite run_with_m by exact Hd. destruct Hd as (H1 & H2 & H3).
    destruct d as [m q qm es], m as [[w p cl] rf ag ti ha qn id cn]. simpl in *. subst cl.
    unfold lock_rel. simpl. rewrite lookup_singleton. simpl. rewrite delete_singleton. reflexivity.
  Qed.
  Lemma good_chk : G (c <- mop MClosed ;; Ret (negb c)).
  Proof. apply good_bind; [apply good_closed|]. intros x. apply good_ret. Qed.

  Lemma new_line_body : G (i <- mop MTell ;; if 0 <? i then lm_write_body [LF] ;; Ret tt else Ret tt).
  Proof.
    apply good_bind; [apply good_tell|]. intros i.
    destruct (0 <? i); [|apply good_ret]. apply good_bind; [apply good_write_body|]. intros _. apply good_ret.
  Qed.
  Lemma clear_body : G (mop MSeek0 ;; mop MTruncate0).
  Proof. apply good_bind; [apply good_seek0|]. intros _. apply good_truncate0. Qed.

  Lemma lm_go {A} (body : prog mcmd A) : G body ->
    (exists body', (if negb (negb b) then Raise OSError else with_m body) = with_lazy MRef MNew mlock body' /\ G body') \/
    (exists e, (if negb (negb b) then Raise OSError else with_m body) = Raise e).
  Proof. intros H. destruct b; [right; eexists; reflexivity|left; exists body; split; [reflexivity|exact H]]. Qed.
  Lemma good_read_body size : G (match size with None => mop MGetvalue | Some z => mop (MRead z) end).
  Proof. destruct size; [apply good_rd|apply good_getvalue]. Qed.

  Lemma lm_bef c : one_section c = true -> bef lm_call L St Inv c (lm_call c).
  Proof.
    pose proof (fun c A body f => @bef_one _ _ _ MRef MNew mlock n St Inv Inv_St ref_read [STL] L_not _ _ lm_call c A body f) as H1.
    pose proof (fun c X A chk x go f => @bef_checked _ _ _ MRef MNew mlock n St Inv Inv_St ref_read [STL] L_not _ _ lm_call c X A chk x go f) as H2.
    intros Hc. destruct c; try discriminate Hc; cbn [lm_call].
    - exact (H2 (CWrite data) _ _ _ (negb b) _ MNat good_chk run_chk (lm_go _ (good_write_body data)) eq_refl).
    - exact (H2 (CRead size) _ _ _ (negb b) _ MText good_chk run_chk (lm_go _ (good_read_body size)) eq_refl).
    - exact (H1 CNewLine _ _ munit new_line_body (fun _ _ _ => eq_refl)).
    - exact (H1 CClear _ _ munit clear_body (fun _ _ _ => eq_refl)).
    - exact (H1 CFlush _ _ munit (good_flush [STL]) (fun _ _ _ => eq_refl)).
    - exact (H1 CClosed _ _ MBool (good_closed [STL]) (fun _ _ _ => eq_refl)).
    - exact (H1 CReadable _ _ MBool good_chk (fun _ _ _ => eq_refl)).
    - exact (H1 CWritable _ _ MBool good_chk (fun _ _ _ => eq_refl)).
  Qed.
  Lemma lm_inv t c d : one_section c = true -> Inv d ->
    exists r d', run t (lm_call c) (mkst d free) = (r, mkst d' free) /\ Inv d' /\ r <> Block.
  Proof.
    pose proof (fun A body f => @inv_one _ _ _ MRef MNew mlock n St Inv Inv_St ref_read [STL] L_not mres A t body f d) as H1.
    pose proof (fun X A chk x go f => @inv_checked _ _ _ MRef MNew mlock n St Inv Inv_St ref_read [STL] L_not mres X A t chk x go f d) as H2.
    intros Hc Hd. destruct c; try discriminate Hc; cbn [lm_call].
    - exact (H2 _ _ _ (negb b) _ MNat run_chk (lm_go _ (good_write_body data)) Hd).
    - exact (H2 _ _ _ (negb b) _ MText run_chk (lm_go _ (good_read_body size)) Hd).
    - exact (H1 _ _ munit new_line_body Hd).
    - exact (H1 _ _ munit clear_body Hd).
    - exact (H1 _ _ munit (good_flush [STL]) Hd).
    - exact (H1 _ _ MBool (good_closed [STL]) Hd).
    - exact (H1 _ _ MBool good_chk Hd).
    - exact (H1 _ _ MBool good_chk Hd).
  Qed.
End Mir.

(** ** C36 *)
Lemma seq_run_mir order : forall s,
  seq_run lm_call order s = (combine (map fst order) (fst (mir_hist order s)), snd (mir_hist order s)).
Proof.
  induction order as [|[t c] o IH]; intros s; [reflexivity|]. cbn [seq_run mir_hist].
  destruct (run t (lm_call c) s) as [r s1]. rewrite IH.
  destruct (mir_hist o s1) as [rs s2]. reflexivity.
Qed.

Lemma has_lock_inv d : has_lock d -> never_waits d -> exists n, Inv n (sclosed (m_buf (e_mir d))) d.
Proof.
  intros [n Hn] Hw. exists n. split; [|split; [reflexivity|exact Hw]]. unfold St. rewrite Hn. apply Nat.eqb_refl.
Qed.

Theorem c36 d0 css sch ps s' :
  has_lock d0 -> never_waits d0 -> Forall (Forall (fun c => one_section c = true)) css ->
  sched_run sch (mir_pool css, idle d0) = Some (ps, s') ->
  Forall (fun p => finished p = true) ps ->
  exists order,
    order_of css order /\
    snd (mir_hist order (idle d0)) = s' /\
    (forall i p, nth_error ps i = Some p ->
       p = Ret (events_of i (combine (map fst order) (fst (mir_hist order (idle d0)))))) /\
    (forall sch1 sch2 ps1 s1, sch = sch1 ++ sch2 ->
       sched_run sch1 (mir_pool css, idle d0) = Some (ps1, s1) ->
       exists o1 o2, order = o1 ++ o2 /\
       forall i cs, nth_error css i = Some cs -> exists p rest,
         nth_error ps1 i = Some p /\ cs = events_of i o1 ++ rest /\
         pending lm_call (rev (events_of i (combine (map fst o1) (fst (mir_hist o1 (idle d0)))))) rest p).
Proof.
  intros H1 H2 Hok Hr Hf. destruct (has_lock_inv d0 H1 H2) as [n Hd]. set (b := sclosed _) in Hd.
  destruct (reduction lm_call (mlock n) (St n) (Inv n b) (fun c => one_section c = true) (Inv_St n b)
              (lm_bef n b) (lm_inv n b) css d0 sch ps s' Hd Hok Hr Hf)
    as (order & G1 & G2 & G3 & G4 & G5).
  exists order. split; [split; [exact G1|]|split; [|split]].
  - intros i cs Hi. rewrite lookup_nth_error in Hi. auto.
  - rewrite seq_run_mir in G3. exact G3.
  - intros i p Hp. rewrite lookup_nth_error in Hp. rewrite (G4 i p Hp), seq_run_mir. reflexivity.
  - intros sch1 sch2 ps1 s1 Hsch Hr1. destruct (G5 sch1 sch2 ps1 s1 Hsch Hr1) as (o1 & o2 & Ho & H).
    exists o1, o2. split; [exact Ho|]. intros i cs Hi. rewrite lookup_nth_error in Hi.
    destruct (H i cs Hi) as (p & rest & J1 & J2 & J3). exists p, rest.
    rewrite lookup_nth_error. rewrite seq_run_mir in J3. auto.
Qed.

Theorem c36_progress d0 css sch ps s' :
  has_lock d0 -> never_waits d0 -> Forall (Forall (fun c => one_section c = true)) css ->
  sched_run sch (mir_pool css, idle d0) = Some (ps, s') ->
  Forall (fun p => finished p = true) ps \/ exists i, cstep i (ps, s') <> None.
Proof.
  intros H1 H2 Hok Hr. destruct (has_lock_inv d0 H1 H2) as [n Hd]. set (b := sclosed _) in Hd.
  exact (reduction_progress lm_call (mlock n) (St n) (Inv n b) (fun c => one_section c = true) (Inv_St n b)
              (lm_bef n b) (lm_inv n b) css d0 sch ps s' Hd Hok Hr).
Qed.

(** After one call that uses the lock, the lock exists. *)
Lemma first_use t c d : one_section c = true -> never_waits d -> m_ref (e_mir d) = None ->
  run t (lm_call c) (idle d) = run t (lm_call c) (idle (snd (cexec MNew d))).
Proof.
  intros Hc Hw Hr. destruct c; try discriminate Hc; simpl; rewrite Hr; reflexivity.
Qed.
Theorem c36_created t c d : one_section c = true -> never_waits d ->
  has_lock (dat (snd (run t (lm_call c) (idle d)))) /\ never_waits (dat (snd (run t (lm_call c) (idle d)))).
Proof.
  intros Hc Hw.
  assert (H : forall d1, has_lock d1 -> never_waits d1 ->
    has_lock (dat (snd (run t (lm_call c) (idle d1)))) /\ never_waits (dat (snd (run t (lm_call c) (idle d1))))).
  { intros d1 H1 H2. destruct (has_lock_inv d1 H1 H2) as [n Hd].
    destruct (lm_inv n _ t c d1 Hc Hd) as (r & d' & E & (I1 & I2 & I3) & _). rewrite E. simpl.
    split; [exists n; apply (St_ref n), I1|exact I3]. }
  destruct (m_ref (e_mir d)) as [n|] eqn:Er; [apply H; [exists n; exact Er|exact Hw]|].
  rewrite (first_use t c d Hc Hw Er). apply H; [eexists; reflexivity|exact Hw].
Qed.
