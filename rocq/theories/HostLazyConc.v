(** * HostLazyConc: threads that share a LineHostMirror, and its lazily created lock (C36) *)
From stdpp Require Import gmap.
From Coq Require Import String.
From Coq Require Import List NArith ZArith Bool Arith Lia.
From Verif Require Import PyStr Prog ProgFacts PyIO Base Spec LineBuf Conc ReentConc LineBufConcProofs Json Host HostCli HostCliFacts
  HostLazy HostLazySpec.
Import ListNotations.
Local Open Scope prog_scope.
Local Open Scope nat_scope.

Section HL.
  Variable E : henv.
  Local Instance lsemE : Sem lcmd lworld := lsem E.
  Variable M : lmir.
  Notation J := (lm_id M).
  Notation free := (stdpp.base.empty : locks).
  Notation lop := (fun X c => @op lcmd X (LC c)).
  Notation wl := (fun A => @hl_with (lm_id M) A).

  Section Lock.
  Variables (n : nat) (b : bool).
  Notation L := (rlock n).
  Definition St (w : lworld) : bool := match l_ref w !! J with Some k => k =? n | None => false end.
  Definition Inv (w : lworld) : Prop := St w = true /\ exists f, w_mir (l_w w) !! J = Some f /\ sclosed f = b.
  Lemma Inv_St w : Inv w -> St w = true.
  Proof. intros [H _]. exact H. Qed.
  Lemma St_ref w : St w = true -> l_ref w !! J = Some n.
  Proof. unfold St. destruct (l_ref w !! J) as [k|]; [|discriminate]. intros H. apply Nat.eqb_eq in H. congruence. Qed.
  Lemma ref_read w : St w = true -> cexec (LRef J) w = (Good (Some n), w).
  Proof. intros H. simpl. rewrite (St_ref w H). reflexivity. Qed.
  Lemma L_reent : reent L = true.
  Proof. unfold reent, rlock. rewrite Nat.odd_add, Nat.odd_mul. reflexivity. Qed.
  Lemma L_not : ~ In L [].
  Proof. intros []. Qed.
  Notation G := (good L St Inv []).

  Lemma good_cmd {X} (c : ccmd X) :
    (forall w, fst (cliexec E c w) <> Block) ->
    (forall w f, w_mir w !! J = Some f -> exists f', w_mir (snd (cliexec E c w)) !! J = Some f' /\ sclosed f' = sclosed f) -> G (op (LC c)).
  Proof.
    intros H1 H2. apply good_op; [exact Inv_St|]. intros w [I1 (f & I2 & I3)]. cbn. specialize (H1 (l_w w)).
    destruct (H2 (l_w w) f I2) as (f' & H3 & H4).
    destruct (cliexec E c (l_w w)) as [r w']. cbn in *. split; [exact H1|]. split; [exact I1|]. cbn. exists f'. split; [exact H3|congruence].
  Qed.
  Lemma good_mir {X} (c : ccmd X) (f : sio -> outcome X * sio) :
    (forall w, cliexec E c w = on_mir J f w) -> (forall v, fst (f v) <> Block /\ sclosed (snd (f v)) = sclosed v) -> G (op (LC c)).
  Proof.
    intros Hc Hf. apply good_cmd.
    - intros w. rewrite Hc. unfold on_mir. destruct (Hf (mget J w)) as [H1 H2]. destruct (f (mget J w)). exact H1.
    - intros w f0 Hw. rewrite Hc. unfold on_mir. destruct (Hf (mget J w)) as [H1 H2]. destruct (f (mget J w)) as [r v].
      cbn in *. exists v. rewrite lookup_insert. split; [reflexivity|]. rewrite H2. unfold mget. rewrite Hw. reflexivity.
  Qed.
  Ltac buf := intros v; destruct v as [w p cl]; cbn; destruct cl; cbn; split; try discriminate; try reflexivity.
  Lemma good_closed : G (op (LC (MClosed J))).
  Proof. eapply good_mir; [reflexivity|buf]. Qed.
  Lemma good_tell : G (op (LC (MTell J))).
  Proof. eapply good_mir; [reflexivity|buf]. Qed.
  Lemma good_getvalue : G (op (LC (MGetvalue J))).
  Proof. eapply good_mir; [reflexivity|buf]. Qed.
  Lemma good_put s : G (op (LC (MPut J s))).
  Proof.
    eapply good_mir; [reflexivity|]. intros v. destruct v as [w p cl]. cbn. destruct cl, s; cbn; split; try discriminate; reflexivity.
  Qed.
  Lemma good_seek0 : G (op (LC (MSeek0 J))).
  Proof. eapply good_mir; [reflexivity|buf]. Qed.
  Lemma good_truncate0 : G (op (LC (MTruncate0 J))).
  Proof. eapply good_mir; [reflexivity|buf]. Qed.
  Lemma good_flush : G (op (LC (MFlush J))).
  Proof. eapply good_mir; [reflexivity|buf]. Qed.
  Lemma good_req r : G (op (LC (CReq r))).
  Proof.
    apply good_cmd.
    - intros w. apply creq_nb.
    - intros w f Hw. exists f. split; [|reflexivity]. cbn. unfold creq.
      destruct (w_faults w) as [|[]]; try destruct (serve E r (w_srv w)); exact Hw.
  Qed.

  Lemma good_wl {A} (p : prog lcmd A) : G p -> G (hl_with J p).
  Proof. exact (good_with_lazy (LRef J) (LNew J) rlock n St Inv Inv_St ref_read L_reent [] L_not p). Qed.
  Lemma good_load v : G (g_load (C := lcmd) v).
  Proof. destruct v; [apply good_ret|apply good_raise]. Qed.
  Lemma good_dict v : G (g_dict (C := lcmd) v).
  Proof. destruct v; try apply good_raise. apply good_ret. Qed.
  Lemma good_request {A} r (f : option json -> prog lcmd A) : (forall a, G (f a)) -> G (g_request lop r f).
  Proof.
    intros Hf. unfold g_request. apply good_bind; [apply good_req|]. intros [code a]. cbn [fst snd].
    destruct (code <? 400); [apply Hf|]. unfold g_raise. apply good_bind; [apply good_load|]. intros v.
    apply good_bind; [apply good_dict|]. intros fs. apply good_raise.
  Qed.
  Lemma good_send_data data : G (g_send_data lop wl J data).
  Proof.
    unfold g_send_data. apply good_bind; [apply good_wl, good_closed|]. intros [|]; [apply good_ret|].
    apply good_request. intros a. apply good_ret.
  Qed.
  Lemma good_check : G (g_check_states lop wl J).
  Proof.
    unfold g_check_states. apply good_bind; [apply good_wl, good_closed|]. intros [|]; [apply good_ret|].
    apply good_bind.
    - apply good_request. intros a. apply good_bind; [apply good_load|]. intros v.
      apply good_bind; [apply good_dict|]. intros fs. apply good_ret.
    - intros v. destruct v as [|[]| | | |]; try apply good_ret. apply good_raise.
  Qed.
  Lemma good_write_body check data : G (g_write_body lop wl J (lm_aggr M) check data).
  Proof.
    unfold g_write_body. apply good_bind; [destruct check; [apply good_check|apply good_ret]|]. intros _.
    destruct (lm_aggr M).
    { apply good_bind; [apply good_send_data|]. intros _. apply good_ret. }
    destruct (_ || _).
    - apply good_bind; [apply good_put|]. intros res. apply good_bind; [apply good_getvalue|]. intros v.
      apply good_bind; [apply good_send_data|]. intros _. apply good_bind; [apply good_seek0|]. intros _.
      apply good_bind; [apply good_truncate0|]. intros _. apply good_ret.
    - destruct (_ =? 1); [apply good_put|apply good_ret].
  Qed.

  Lemma run_wl {A} t (p : prog lcmd A) d : Inv d ->
    run t (hl_with J p) (mkst d free) = run t (try_finally p (release L)) (mkst d {[ L := Excl t 1 ]}).
  Proof. apply (run_with_lazy (LRef J) (LNew J) rlock n St Inv Inv_St ref_read). Qed.

  (** The check that the mirror is open. *)
  Lemma run_chk t d : Inv d ->
    run t (hl_with J (c <- op (LC (MClosed J)) ;; Ret (negb c))) (mkst d free) = (Good (negb b), mkst d free).
  Proof.
    intros Hd. rewrite run_wl by exact Hd. destruct Hd as (_ & f & H2 & H3).
    destruct d as [[sv mi fa] rf cn]. simpl in *. unfold on_mir, mget. simpl. rewrite H2. simpl. rewrite H3.
    unfold lock_rel. simpl. rewrite lookup_singleton. simpl. rewrite delete_singleton, (insert_id mi J f H2). reflexivity.
  Qed.
  Lemma good_chk : G (c <- op (LC (MClosed J)) ;; Ret (negb c)).
  Proof. apply good_bind; [apply good_closed|]. intros x. apply good_ret. Qed.
  Lemma new_line_body check :
    G (i <- op (LC (MTell J)) ;; if 0 <? i then g_write_body lop wl J (lm_aggr M) check [LF] ;; Ret tt else Ret tt).
  Proof.
    apply good_bind; [apply good_tell|]. intros i.
    destruct (0 <? i); [|apply good_ret]. apply good_bind; [apply good_write_body|]. intros _. apply good_ret.
  Qed.
  Lemma clear_body : G (op (LC (MSeek0 J)) ;; op (LC (MTruncate0 J))).
  Proof. apply good_bind; [apply good_seek0|]. intros _. apply good_truncate0. Qed.
  Lemma hl_go {A} (body : prog lcmd A) : G body ->
    (exists body', (if negb (negb b) then Raise OSError else hl_with J body) = with_lazy (LRef J) (LNew J) rlock body' /\ G body') \/
    (exists e, (if negb (negb b) then Raise OSError else hl_with J body) = Raise e).
  Proof. intros H. destruct b; [right; eexists; reflexivity|left; exists body; split; [reflexivity|exact H]]. Qed.

  Notation call := (hl_call M).
  Lemma hl_bef c : h_one_section c = true -> bef call L St Inv c (call c).
  Proof.
    pose proof (fun c A body f => @bef_one _ _ _ (LRef J) (LNew J) rlock n St Inv Inv_St ref_read [] L_not _ _ call c A body f) as H1.
    pose proof (fun c X A chk x go f => @bef_checked _ _ _ (LRef J) (LNew J) rlock n St Inv Inv_St ref_read [] L_not _ _ call c X A chk x go f) as H2.
    intros Hc. destruct c; try discriminate Hc.
    - exact (H2 (HWrite data) _ _ _ (negb b) _ CNat good_chk run_chk (hl_go _ (good_write_body true data)) eq_refl).
    - exact (H1 (HNewLine check) _ _ unit_cres (new_line_body check) (fun _ _ _ => eq_refl)).
    - exact (H1 HClear _ _ unit_cres clear_body (fun _ _ _ => eq_refl)).
    - exact (H1 HFlush _ _ unit_cres good_flush (fun _ _ _ => eq_refl)).
    - exact (H2 HRead _ _ _ (negb b) _ CText good_chk run_chk (hl_go _ good_getvalue) eq_refl).
    - exact (H1 HClosed _ _ CBool good_closed (fun _ _ _ => eq_refl)).
    - exact (H1 HReadable _ _ CBool good_chk (fun _ _ _ => eq_refl)).
    - exact (H1 HWritable _ _ CBool good_chk (fun _ _ _ => eq_refl)).
  Qed.
  Lemma hl_inv t c d : h_one_section c = true -> Inv d ->
    exists r d', run t (call c) (mkst d free) = (r, mkst d' free) /\ Inv d' /\ r <> Block.
  Proof.
    pose proof (fun A body f => @inv_one _ _ _ (LRef J) (LNew J) rlock n St Inv Inv_St ref_read [] L_not cres A t body f d) as H1.
    pose proof (fun X A chk x go f => @inv_checked _ _ _ (LRef J) (LNew J) rlock n St Inv Inv_St ref_read [] L_not cres X A t chk x go f d) as H2.
    intros Hc Hd. destruct c; try discriminate Hc.
    - exact (H2 _ _ _ (negb b) _ CNat run_chk (hl_go _ (good_write_body true data)) Hd).
    - exact (H1 _ _ unit_cres (new_line_body check) Hd).
    - exact (H1 _ _ unit_cres clear_body Hd).
    - exact (H1 _ _ unit_cres good_flush Hd).
    - exact (H2 _ _ _ (negb b) _ CText run_chk (hl_go _ good_getvalue) Hd).
    - exact (H1 _ _ CBool good_closed Hd).
    - exact (H1 _ _ CBool good_chk Hd).
    - exact (H1 _ _ CBool good_chk Hd).
  Qed.
  End Lock.

  Lemma seq_run_hl order : forall s,
    seq_run (hl_call M) order s = (combine (map fst order) (fst (hl_hist E M order s)), snd (hl_hist E M order s)).
  Proof.
    induction order as [|[t c] o IH]; intros s; [reflexivity|]. cbn [seq_run hl_hist].
    assert (Hr : hl_run E t M c s = run t (hl_call M c) s) by reflexivity. rewrite Hr.
    destruct (run t (hl_call M c) s) as [r s1]. rewrite IH. destruct (hl_hist E M o s1) as [rs s2]. reflexivity.
  Qed.
  Lemma has_lock_inv w : hl_has_lock M w -> hl_there M w -> exists n b, Inv n b w.
  Proof.
    intros [n Hn] [f Hf]. exists n, (sclosed f). split; [|exists f; split; [exact Hf|reflexivity]]. unfold St. rewrite Hn. apply Nat.eqb_refl.
  Qed.

  Theorem hl_order w0 css sch ps s' :
    hl_has_lock M w0 -> hl_there M w0 -> Forall (Forall (fun c => h_one_section c = true)) css ->
    hl_sched E sch (hl_pool M css, mkst w0 free) = Some (ps, s') ->
    Forall (fun p => finished p = true) ps ->
    exists order,
      order_of css order /\
      snd (hl_hist E M order (mkst w0 free)) = s' /\
      (forall i p, nth_error ps i = Some p ->
         p = Ret (events_of i (combine (map fst order) (fst (hl_hist E M order (mkst w0 free)))))) /\
      (forall sch1 sch2 ps1 s1, sch = sch1 ++ sch2 ->
         hl_sched E sch1 (hl_pool M css, mkst w0 free) = Some (ps1, s1) ->
         exists o1 o2, order = o1 ++ o2 /\
         forall i cs, nth_error css i = Some cs -> exists p rest,
           nth_error ps1 i = Some p /\ cs = events_of i o1 ++ rest /\
           pending (hl_call M) (rev (events_of i (combine (map fst o1) (fst (hl_hist E M o1 (mkst w0 free)))))) rest p).
  Proof.
    intros H1 H2 Hok Hr Hf. destruct (has_lock_inv w0 H1 H2) as (n & b & Hd).
    destruct (reduction (hl_call M) (rlock n) (St n) (Inv n b) (fun c => h_one_section c = true) (Inv_St n b)
                (hl_bef n b) (hl_inv n b) css w0 sch ps s' Hd Hok Hr Hf)
      as (order & G1 & G2 & G3 & G4 & G5).
    exists order. split; [split; [exact G1|]|split; [|split]].
    - intros i cs Hi. rewrite lookup_nth_error in Hi. auto.
    - rewrite seq_run_hl in G3. exact G3.
    - intros i p Hp. rewrite lookup_nth_error in Hp. rewrite (G4 i p Hp), seq_run_hl. reflexivity.
    - intros sch1 sch2 ps1 s1 Hsch Hr1. destruct (G5 sch1 sch2 ps1 s1 Hsch Hr1) as (o1 & o2 & Ho & H).
      exists o1, o2. split; [exact Ho|]. intros i cs Hi. rewrite lookup_nth_error in Hi.
      destruct (H i cs Hi) as (p & rest & J1 & J2 & J3). exists p, rest.
      rewrite lookup_nth_error. rewrite seq_run_hl in J3. auto.
  Qed.

  Theorem hl_progress w0 css sch ps s' :
    hl_has_lock M w0 -> hl_there M w0 -> Forall (Forall (fun c => h_one_section c = true)) css ->
    hl_sched E sch (hl_pool M css, mkst w0 free) = Some (ps, s') ->
    Forall (fun p => finished p = true) ps \/ exists i, hl_sched E [i] (ps, s') <> None.
  Proof.
    intros H1 H2 Hok Hr. destruct (has_lock_inv w0 H1 H2) as (n & b & Hd).
    destruct (reduction_progress (hl_call M) (rlock n) (St n) (Inv n b) (fun c => h_one_section c = true) (Inv_St n b)
                (hl_bef n b) (hl_inv n b) css w0 sch ps s' Hd Hok Hr) as [H|[i H]]; [left; exact H|right].
    exists i. unfold hl_sched. cbn [sched_run]. change (@cstep lcmd lworld (lsem E)) with (@cstep lcmd lworld lsemE).
    destruct (cstep i (ps, s')); [discriminate|congruence].
  Qed.

  (** ** One thread at a time: the lazily created lock makes no difference *)
  Section Alone.
  Variable l : nat.
  Hypothesis l_reent : reent l = true.
  Local Instance csemE : Sem ccmd world := clisem E.
  Notation N := (with_given M l).
  (** The two states: the lock is free, or it is object [n], held [S c] times. *)
  Definition same (t : nat) (x : option (nat * nat)) (s1 : st lworld) (s2 : st world) : Prop :=
    l_w (dat s1) = dat s2 /\
    match x with
    | None => lks s1 = free /\ lks s2 = free
    | Some (n, c) => l_ref (dat s1) !! J = Some n /\ lks s1 = {[ rlock n := Excl t (S c) ]} /\ lks s2 = {[ l := Excl t (S c) ]}
    end.
  Definition rel {A} (p : prog lcmd A) (q : prog ccmd A) : Prop :=
    forall t x s1 s2, same t x s1 s2 ->
    fst (run t p s1) = fst (run t q s2) /\ fst (run t q s2) <> Block /\ same t x (snd (run t p s1)) (snd (run t q s2)).
  Lemma rel_ret {A} (a : A) : rel (Ret a) (Ret a).
  Proof. intros t c s1 s2 H. split; [reflexivity|]. split; [discriminate|exact H]. Qed.
  Lemma rel_raise {A} e : rel (Raise e : prog lcmd A) (Raise e).
  Proof. intros t c s1 s2 H. split; [reflexivity|]. split; [discriminate|exact H]. Qed.
  Lemma rel_op {X} (c : ccmd X) : rel (op (LC c)) (op c).
  Proof.
    intros t i s1 s2 [H1 H2]. rewrite !run_op. cbn. rewrite H1.
    pose proof (cli_nb E X c (dat s2)) as Hb. cbn in Hb. destruct (cliexec E c (dat s2)) as [r w]. cbn in *.
    split; [reflexivity|]. split; [exact Hb|]. split; [reflexivity|]. exact H2.
  Qed.
  Lemma rel_bind {A B} (p : prog lcmd A) q (f : A -> prog lcmd B) g : rel p q -> (forall a, rel (f a) (g a)) -> rel (bind p f) (bind q g).
  Proof.
    intros Hp Hf t c s1 s2 H. rewrite !run_bind. destruct (Hp t c s1 s2 H) as (H1 & H2 & H3).
    destruct (run t p s1) as [r1 s1'], (run t q s2) as [r2 s2']. cbn in H1, H2, H3. subst r1.
    destruct r2 as [a|e|]; [apply Hf, H3| |congruence]. split; [reflexivity|]. split; [discriminate|exact H3].
  Qed.
  Lemma rel_try {A} n (p : prog lcmd A) q t c s1 s2 :
    rel p q -> same t (Some (n, c)) s1 s2 ->
    fst (run t (try_finally p (release (rlock n))) s1) = fst (run t (try_finally q (release l)) s2) /\
    fst (run t (try_finally q (release l)) s2) <> Block /\
    same t (match c with O => None | S c' => Some (n, c') end)
      (snd (run t (try_finally p (release (rlock n))) s1)) (snd (run t (try_finally q (release l)) s2)).
  Proof.
    intros Hp H. rewrite !run_try_finally. destruct (Hp t _ s1 s2 H) as (H1 & H2 & H3).
    destruct (run t p s1) as [r1 [d1 k1]], (run t q s2) as [r2 [d2 k2]]. cbn [fst snd] in H1, H2, H3. subst r1.
    destruct H3 as (G1 & G2 & G3 & G4). cbn [dat lks] in *. subst d2 k1 k2.
    destruct r2 as [a|e|]; [| |congruence]; simpl; unfold lock_rel; simpl; rewrite !lookup_singleton;
      destruct c as [|c]; simpl; rewrite ?delete_singleton, ?insert_singleton;
        (split; [reflexivity|]; split; [discriminate|]; split; [reflexivity|]; repeat split; auto).
  Qed.
  Lemma rel_with {A} (p : prog lcmd A) q : rel p q -> rel (hl_with J p) (with_lock l Ex q).
  Proof.
    intros Hp t x [d1 k1] [d2 k2] [H1 H2]. cbn [dat lks] in *. subst d2. destruct x as [[n c]|].
    - destruct H2 as (Hn & -> & ->). simpl. rewrite Hn. simpl. rewrite Hn. simpl. unfold lock_acq.
      rewrite !lookup_singleton, (L_reent n), l_reent, Nat.eqb_refl. simpl. rewrite !insert_singleton.
      apply (rel_try n p q t (S c)); [exact Hp|]. split; [reflexivity|]. auto.
    - destruct H2 as (-> & ->). simpl. destruct (l_ref d1 !! J) as [n|] eqn:En; simpl.
      + rewrite En. simpl. unfold lock_acq. rewrite !lookup_empty, !insert_empty.
        apply (rel_try n p q t 0); [exact Hp|]. split; [reflexivity|]. auto.
      + rewrite lookup_insert. simpl. unfold lock_acq. rewrite !lookup_empty, !insert_empty.
        apply (rel_try (l_cnt d1) p q t 0); [exact Hp|]. split; [reflexivity|].
        split; [apply lookup_insert|]. auto.
  Qed.

  Notation gop := (fun X c => @op ccmd X c).
  Notation gw := (fun A => with_lock l Ex (A := A)).
  Lemma rel_load v : rel (g_load v) (g_load v).
  Proof. destruct v; [apply rel_ret|apply rel_raise]. Qed.
  Lemma rel_dict v : rel (g_dict v) (g_dict v).
  Proof. destruct v; try apply rel_raise. apply rel_ret. Qed.
  Lemma rel_request {A} r (f : option json -> prog lcmd A) g : (forall a, rel (f a) (g a)) -> rel (g_request lop r f) (g_request gop r g).
  Proof.
    intros Hf. unfold g_request. apply rel_bind; [apply rel_op|]. intros [code a]. cbn [fst snd].
    destruct (code <? 400); [apply Hf|]. unfold g_raise. apply rel_bind; [apply rel_load|]. intros v.
    apply rel_bind; [apply rel_dict|]. intros fs. apply rel_raise.
  Qed.
  Lemma rel_send_data data : rel (g_send_data lop wl J data) (g_send_data gop gw J data).
  Proof.
    unfold g_send_data. apply rel_bind; [apply rel_with, rel_op|]. intros [|]; [apply rel_ret|].
    apply rel_request. intros a. apply rel_ret.
  Qed.
  Lemma rel_check : rel (g_check_states lop wl J) (g_check_states gop gw J).
  Proof.
    unfold g_check_states. apply rel_bind; [apply rel_with, rel_op|]. intros [|]; [apply rel_ret|].
    apply rel_bind.
    - apply rel_request. intros a. apply rel_bind; [apply rel_load|]. intros v.
      apply rel_bind; [apply rel_dict|]. intros fs. apply rel_ret.
    - intros v. destruct v as [|[]| | | |]; try apply rel_ret. apply rel_raise.
  Qed.
  Lemma rel_write_body check data : rel (g_write_body lop wl J (lm_aggr M) check data) (g_write_body gop gw J (lm_aggr M) check data).
  Proof.
    unfold g_write_body. apply rel_bind; [destruct check; [apply rel_check|apply rel_ret]|]. intros _.
    destruct (lm_aggr M).
    { apply rel_bind; [apply rel_send_data|]. intros _. apply rel_ret. }
    destruct (_ || _).
    - apply rel_bind; [apply rel_op|]. intros res. apply rel_bind; [apply rel_op|]. intros v.
      apply rel_bind; [apply rel_send_data|]. intros _. apply rel_bind; [apply rel_op|]. intros _.
      apply rel_bind; [apply rel_op|]. intros _. apply rel_ret.
    - destruct (_ =? 1); [apply rel_op|apply rel_ret].
  Qed.
  Lemma rel_chk : rel (hl_with J (c <- op (LC (MClosed J)) ;; Ret (negb c))) (with_lock l Ex (c <- op (MClosed J) ;; Ret (negb c))).
  Proof. apply rel_with, rel_bind; [apply rel_op|]. intros c. apply rel_ret. Qed.
  Lemma rel_new_line check : rel (g_new_line lop wl J (lm_aggr M) check) (g_new_line gop gw J (lm_aggr M) check).
  Proof.
    apply rel_with, rel_bind; [apply rel_op|]. intros i. destruct (0 <? i); [|apply rel_ret].
    apply rel_bind; [apply rel_write_body|]. intros _. apply rel_ret.
  Qed.
  Lemma rel_clear : rel (g_clear lop wl J) (g_clear gop gw J).
  Proof. apply rel_with, rel_bind; [apply rel_op|]. intros _. apply rel_op. Qed.
  Lemma rel_as {X} (f : X -> cres) p q : rel p q -> rel (g_as f p) (g_as f q).
  Proof. intros H. apply rel_bind; [exact H|]. intros x. apply rel_ret. Qed.
  Lemma rel_post r : rel (g_request lop r (fun _ => Ret tt)) (g_request gop r (fun _ => Ret tt)).
  Proof. apply rel_request. intros _. apply rel_ret. Qed.
  Lemma rel_signal check r :
    rel (c <- hl_with J (op (LC (MClosed J)) : prog lcmd bool) ;; if c then Ret tt else g_new_line lop wl J (lm_aggr M) check ;; g_request lop r (fun _ => Ret tt))
        (c <- with_lock l Ex (op (MClosed J) : prog ccmd bool) ;; if c then Ret tt else g_new_line gop gw J (lm_aggr M) check ;; g_request gop r (fun _ => Ret tt)).
  Proof.
    apply rel_bind; [apply rel_with, rel_op|]. intros [|]; [apply rel_ret|].
    apply rel_bind; [apply rel_new_line|]. intros _. apply rel_post.
  Qed.
  Lemma rel_call c : rel (hl_call M c) (m_call N c).
  Proof.
    rewrite <- given_lock. destruct c; apply rel_as; try apply rel_raise; try apply rel_ret.
    - apply rel_bind; [apply rel_chk|]. intros [|]; [apply rel_with, rel_write_body|apply rel_raise].
    - apply rel_new_line.
    - apply rel_signal.
    - apply rel_signal.
    - apply rel_signal.
    - apply rel_send_data.
    - apply rel_check.
    - apply rel_clear.
    - apply rel_with, rel_op.
    - apply rel_bind; [apply rel_chk|]. intros [|]; [apply rel_with, rel_op|apply rel_raise].
    - apply rel_bind; [apply rel_with, rel_op|]. intros [|]; [apply rel_ret|].
      apply rel_bind; [destruct exc; apply rel_signal|]. intros _.
      apply rel_bind; [apply rel_clear|]. intros _. apply rel_with, rel_op.
    - apply rel_with, rel_op.
    - apply rel_chk.
    - apply rel_chk.
  Qed.

  (** A history of the mirror, one call after the other, any thread each time. *)
  Theorem hl_alone h w ref cnt :
    fst (hl_hist E M h (mkst (mklw w ref cnt) free)) = fst (ev_hist E (map (fun e => Cli (fst e) (OnMir N (snd e))) h) (mkst w free)) /\
    exists w' ref' cnt',
      snd (hl_hist E M h (mkst (mklw w ref cnt) free)) = mkst (mklw w' ref' cnt') free /\
      snd (ev_hist E (map (fun e => Cli (fst e) (OnMir N (snd e))) h) (mkst w free)) = mkst w' free.
  Proof.
    revert w ref cnt. induction h as [|[t c] h IH]; intros w ref cnt; cbn [map hl_hist ev_hist fst snd].
    { split; [reflexivity|]. exists w, ref, cnt. auto. }
    destruct (rel_call c t None (mkst (mklw w ref cnt) free) (mkst w free)) as (H1 & H2 & H3 & H4 & H5).
    { split; [reflexivity|]. auto. }
    assert (Hr : hl_run E t M c (mkst (mklw w ref cnt) free) = run t (hl_call M c) (mkst (mklw w ref cnt) free)) by reflexivity. rewrite Hr.
    assert (He : ev_run E (Cli t (OnMir N c)) (mkst w free) = run t (m_call N c) (mkst w free)) by reflexivity. rewrite He.
    destruct (run t (hl_call M c) _) as [r1 [[w1 ref1 cnt1] k1]], (run t (m_call N c) _) as [r2 [w2 k2]]. cbn in H1, H2, H3, H4, H5. subst.
    destruct (IH w2 ref1 cnt1) as [G1 G2].
    destruct (hl_hist E M h _) as [rs1 s1], (ev_hist E _ _) as [rs2 s2]. cbn [fst snd] in *. subst. split; [reflexivity|exact G2].
  Qed.
  End Alone.

  (** After one call that uses the lock, the lock exists. *)
  Lemma first_use t c w : h_one_section c = true -> l_ref w !! J = None ->
    hl_run E t M c (mkst w free) = hl_run E t M c (mkst (snd (lexec E (LNew J) w)) free).
  Proof.
    intros Hc Hr. unfold hl_run. destruct c; try discriminate Hc; simpl; rewrite Hr; simpl; rewrite !lookup_insert; simpl; rewrite !lookup_insert; reflexivity.
  Qed.
  Theorem hl_created t c w : h_one_section c = true -> hl_there M w ->
    hl_has_lock M (dat (snd (hl_run E t M c (mkst w free)))) /\ hl_there M (dat (snd (hl_run E t M c (mkst w free)))).
  Proof.
    intros Hc Hw.
    assert (H : forall w1, hl_has_lock M w1 -> hl_there M w1 ->
      hl_has_lock M (dat (snd (hl_run E t M c (mkst w1 free)))) /\ hl_there M (dat (snd (hl_run E t M c (mkst w1 free))))).
    { intros w1 H1 H2. destruct (has_lock_inv w1 H1 H2) as (n & b & Hd).
      destruct (hl_inv n b t c w1 Hc Hd) as (r & d' & Er & (I1 & f & I2 & I3) & _).
      assert (Hr : hl_run E t M c (mkst w1 free) = run t (hl_call M c) (mkst w1 free)) by reflexivity. rewrite Hr, Er. simpl.
      split; [exists n; apply (St_ref n), I1|exists f; exact I2]. }
    destruct (l_ref w !! J) as [n|] eqn:Er; [apply H; [exists n; exact Er|exact Hw]|].
    rewrite (first_use t c w Hc Er). apply H; [|exact Hw]. exists (l_cnt w). apply lookup_insert.
  Qed.
End HL.
