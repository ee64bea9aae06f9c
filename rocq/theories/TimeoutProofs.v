(** * TimeoutProofs: proofs for PropTimeout.v *)
From stdpp Require Import gmap.
From Coq Require Import List ZArith Bool Arith Lia.
From Verif Require Import Prog ProgFacts Rely Okp Timeout TimeoutSpec.
Import ListNotations.
Local Open Scope nat_scope.
Local Open Scope prog_scope.

(** ** One thread *)
Lemma t_call_run t c o k : run t (t_call c) (mkst (t_new o) k) = (Good (answer o c), mkst (t_new (now o [c])) k).
Proof. destruct c as [o'| |]; reflexivity. Qed.
Lemma c107_one_thread cs : forall t o k, runs t (map t_call cs) (mkst (t_new o) k) = (map Good (answers o cs), mkst (t_new (now o cs)) k).
Proof.
  induction cs as [|c cs IH]; intros t o k; [reflexivity|]. cbn [map runs]. rewrite t_call_run, IH. reflexivity.
Qed.

(** ** Any threads *)
Section Any.
  Variables (o0 : option Z) (css : list (list tcall)).
  Definition blk (b : bool) : Prop := exists o, was_set o0 css o /\ b = is_none o.
  Definition targ (X : Type) (c : tcmd X) : Prop :=
    match c with TStoreT o => was_set o0 css o | TStoreB b => blk b | _ => True end.
  Definition tresv (X : Type) (c : tcmd X) : X -> Prop :=
    match c in tcmd X return X -> Prop with TLoadT => was_set o0 css | TLoadB => blk | _ => fun _ => True end.
  Definition tinv (d : tattrs) : Prop := was_set o0 css (t_timeout d) /\ blk (t_block d).
  Definition tgood (r : tres) : Prop :=
    match r with RNothing => True | RTimeout o => was_set o0 css o | RArgs b o => blk b /\ was_set o0 css o end.
  Lemma tcmd_ok X (c : tcmd X) d r d' : targ X c -> tinv d -> cexec c d = (r, d') -> tinv d' /\ forall x, r = Good x -> tresv X c x.
  Proof.
    intros Ha [H1 H2]. destruct c as [| |o|b]; simpl; intros [= <- <-]; (split; [split; simpl; auto|]);
      intros x [= <-]; simpl; auto.
  Qed.
  Notation ok := (okp targ tresv).
  Lemma call_ok cs c : In cs css -> In c cs -> ok tgood (t_call c).
  Proof.
    intros Hc Hin. destruct c as [o| |]; cbn [t_call].
    - assert (Hw : was_set o0 css o) by (right; eauto). unfold t_set. eapply ok_bind; [eapply ok_bind|].
      + apply (ok_cmd targ tresv (TStoreT o)). exact Hw.
      + intros _ _. apply (ok_cmd targ tresv (TStoreB (is_none o))). exists o. auto.
      + intros _ _. constructor. exact I.
    - eapply ok_bind; [apply (ok_cmd targ tresv TLoadT); exact I|]. intros o Ho. constructor. exact Ho.
    - unfold t_put. eapply (ok_bind _ _ (fun x => blk (fst x) /\ was_set o0 css (snd x))).
      + eapply ok_bind; [apply (ok_cmd targ tresv TLoadB); exact I|]. intros b Hb.
        eapply ok_bind; [apply (ok_cmd targ tresv TLoadT); exact I|]. intros o Ho. constructor. split; [exact Hb|exact Ho].
      + intros x Hx. constructor. exact Hx.
  Qed.
  Lemma any_sched sch ps s : sched_run sch (t_pool css, t_start o0) = Some (ps, s) ->
    Forall (ok (all_ok tgood)) ps /\ tinv (dat s).
  Proof.
    apply (ok_sched targ tresv tinv tcmd_ok).
    - unfold t_pool. apply List.Forall_map, List.Forall_forall. intros cs Hcs. apply ok_thread.
      apply List.Forall_map, List.Forall_forall. intros c Hc. eapply call_ok; eauto.
    - split; [left; reflexivity|]. exists o0. split; [left; reflexivity|reflexivity].
  Qed.
  Lemma c107_values sch ps s : sched_run sch (t_pool css, t_start o0) = Some (ps, s) ->
    forall t rs, ended ps t rs ->
    (forall o, In (Good (RTimeout o)) rs -> was_set o0 css o) /\
    (forall b o, In (Good (RArgs b o)) rs -> was_set o0 css o /\ exists o', was_set o0 css o' /\ (b = true <-> o' = None)).
  Proof.
    intros Hs t rs Ht. destruct (any_sched sch ps s Hs) as [Hp _]. rewrite Forall_lookup in Hp. specialize (Hp _ _ Ht).
    apply ok_shape in Hp. simpl in Hp. unfold all_ok in Hp. rewrite List.Forall_forall in Hp. split.
    - intros o Ho. apply (Hp _ Ho _ eq_refl).
    - intros b o Ho. destruct (Hp _ Ho _ eq_refl) as [(o' & Hw & ->) H2]. split; [exact H2|]. exists o'. split; [exact Hw|].
      destruct o'; simpl; split; intros; congruence.
  Qed.
End Any.
Lemma c107_all_set o0 css sch ps s : o0 <> None -> (forall cs, In cs css -> ~ In (TSet None) cs) ->
  sched_run sch (t_pool css, t_start o0) = Some (ps, s) ->
  forall t rs b o, ended ps t rs -> In (Good (RArgs b o)) rs -> b = false /\ o <> None.
Proof.
  intros H0 Hc Hs t rs b o Ht Hin. destruct (c107_values o0 css sch ps s Hs t rs Ht) as [_ H]. destruct (H b o Hin) as (Hw & o' & Hw' & Hb).
  assert (G : forall o, was_set o0 css o -> o <> None).
  { intros o1 [->|(cs & H1 & H2)]; [exact H0|]. intros ->. apply (Hc cs H1 H2). }
  split; [|apply G, Hw]. destruct b; [|reflexivity]. destruct (G o' Hw'). apply Hb. reflexivity.
Qed.
Lemma c107_none_set css sch ps s : (forall cs z, In cs css -> ~ In (TSet (Some z)) cs) ->
  sched_run sch (t_pool css, t_start None) = Some (ps, s) ->
  forall t rs b o, ended ps t rs -> In (Good (RArgs b o)) rs -> b = true /\ o = None.
Proof.
  intros Hc Hs t rs b o Ht Hin. destruct (c107_values None css sch ps s Hs t rs Ht) as [_ H]. destruct (H b o Hin) as (Hw & o' & Hw' & Hb).
  assert (G : forall o, was_set None css o -> o = None).
  { intros [z|] [E|(cs & H1 & H2)]; [discriminate| |reflexivity|reflexivity]. destruct (Hc cs z H1 H2). }
  split; [apply Hb, G, Hw'|apply G, Hw].
Qed.

(** ** One thread sets *)
Section One.
  Variables (o0 : option Z) (css : list (list tcall)) (k : nat).
  Hypothesis Hk : forall t cs o, css !! t = Some cs -> In (TSet o) cs -> t = k.
  Definition only (u : nat) (s s' : st tattrs) : Prop := u = k -> dat s' = dat s.
  Lemma only_refl u s : only u s s. Proof. intros _. reflexivity. Qed.
  Lemma only_trans u s1 s2 s3 : only u s1 s2 -> only u s2 s3 -> only u s1 s3.
  Proof. intros H1 H2 E. rewrite H2, H1; auto. Qed.
  Notation wp := (wp only).
  Lemma one_k c o s : dat s = t_new o -> wp k (t_call c) (fun r s' => r = Good (answer o c) /\ dat s' = t_new (now o [c])) s.
  Proof.
    intros E. assert (G : forall s1 s2, guar only k s1 s2) by (intros s1 s2 u Hu Hu'; contradiction).
    destruct c as [o'| |]; cbn [t_call]; unfold t_set, t_get, t_put; cbn; intros s1 H1; specialize (H1 eq_refl);
      (split; [apply G|]); intros s2 H2; specialize (H2 eq_refl); cbn in H2; rewrite ?H1, ?E in H2; cbn in H2.
    - split; [apply G|]. intros s3 H3. specialize (H3 eq_refl). cbn in H3. rewrite H2 in H3. split; [reflexivity|exact H3].
    - rewrite ?H1, ?E. split; [reflexivity|exact H2].
    - split; [apply G|]. intros s3 H3. specialize (H3 eq_refl). cbn in H3. rewrite H2 in H3. rewrite ?H2, ?H1, ?E. split; [reflexivity|exact H3].
  Qed.
  Lemma one_other t c s : t <> k -> (forall o, c <> TSet o) -> wp t (t_call c) (fun _ _ => True) s.
  Proof.
    intros Ht Hc. assert (G : forall (d : tattrs) k1 k2, guar only t (mkst d k1) (mkst d k2)) by (intros d k1 k2 u _ _; reflexivity).
    destruct c as [o'| |]; [destruct (Hc o'); reflexivity|..]; cbn; intros [d1 k1] _; cbn; (split; [apply G|]); intros [d2 k2] _; cbn; auto.
  Qed.
  Lemma one_sched sch ps s : sched_run sch (t_pool css, t_start o0) = Some (ps, s) ->
    forall t p, ps !! t = Some p -> t = k -> wp t p (fun r s' => exists cs, css !! t = Some cs /\ r = Good (map Good (answers o0 cs)) /\ dat s' = t_new (now o0 cs)) s.
  Proof using Hk.
    intros Hs. destruct (wp_sched only only_refl only_trans
      (fun t r s' => t = k -> exists cs, css !! t = Some cs /\ r = Good (map Good (answers o0 cs)) /\ dat s' = t_new (now o0 cs))
      (fun _ => True) (fun _ _ _ _ _ => I) sch (t_pool css) (t_start o0) ps s I) as [_ H]; [|exact Hs|].
    - intros t p Hp. unfold t_pool in Hp. change (map (fun cs => thread (map t_call cs)) css) with ((fun cs => thread (map t_call cs)) <$> css) in Hp. rewrite list_lookup_fmap in Hp. destruct (css !! t) as [cs|] eqn:Et; [|discriminate]. injection Hp as <-.
      destruct (decide (t = k)) as [->|Hne].
      + assert (G : forall cs' rs o s, dat s = t_new o ->
          wp k (thread_from rs (map t_call cs')) (fun r s' => r = Good (rev rs ++ map Good (answers o cs')) /\ dat s' = t_new (now o cs')) s).
        { induction cs' as [|c cs' IH]; intros rs o s1 E; cbn [map thread_from].
          - intros s2 H2. specialize (H2 eq_refl). cbn. rewrite app_nil_r, H2. auto.
          - apply wp_bind; [exact only_refl|]. apply wp_attempt. eapply wp_mono; [|apply (one_k c o s1 E)]. intros r s2 [-> E2]. cbn [follows].
            eapply wp_mono; [|apply (IH (Good (answer o c) :: rs) (now o [c]) s2 E2)]. intros r' s3 [-> E3]. cbn [rev answers map]. rewrite <- app_assoc. auto. }
        eapply wp_mono; [|apply (G cs [] o0); reflexivity]. cbn [rev app]. intros r s' [-> E] _. exists cs. auto.
      + assert (G : forall cs' rs s, (forall c o, In c cs' -> c <> TSet o) -> wp t (thread_from rs (map t_call cs')) (fun _ _ => True) s).
        { induction cs' as [|c cs' IH]; intros rs s1 E; cbn [map thread_from]; [intros s2 H2; exact I|].
          apply wp_bind; [exact only_refl|]. apply wp_attempt. eapply wp_mono; [|apply (one_other t c s1 Hne (fun o => E c o (or_introl eq_refl)))].
          intros r s2 _. cbn [follows]. apply IH. intros c' o Hc'. apply E. right. exact Hc'. }
        eapply wp_mono; [|apply (G cs [])]; [intros r s' _ Ek; contradiction|]. intros c o Hc ->. destruct Hne. eapply Hk; eauto.
    - intros t p Hp Et. eapply wp_mono; [|apply (H t p Hp)]. cbv beta. auto.
  Qed.
  Lemma c107_one_setter sch ps s rs : sched_run sch (t_pool css, t_start o0) = Some (ps, s) -> ended ps k rs ->
    exists cs, css !! k = Some cs /\ rs = map Good (answers o0 cs) /\ dat s = t_new (now o0 cs).
  Proof using Hk.
    intros Hs He. pose proof (one_sched sch ps s Hs k _ He eq_refl s (only_refl k s)) as (cs & H1 & H2 & H3). exists cs. injection H2 as ->. auto.
  Qed.
End One.
