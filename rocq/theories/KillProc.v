(** * KillProc: killed processes that use mirrors (lemmas for C99) *)
From stdpp Require Import gmap.
From Coq Require Import List NArith ZArith Bool Arith Lia.
From Verif Require Import PyStr Prog ProgFacts PyIO Base Spec LineBuf Locks Blocks Proc ProcSpec ProcRun ProcPool ProcPoolProofs CountSpec StopProofs FlakyCalls Kill KillFacts KillProcSpec KillLock KillOwn.
Import ListNotations.
Local Open Scope prog_scope.
Local Open Scope nat_scope.

Notation stay := (fun _ : nat => true).

(** ** Killed processes make no step *)
Section Events.
  Context {C : Type -> Type} {D : Type} `{!Sem C D}.
  Lemma dead_still {A} stays es : forall (c : config (C:=C) (D:=D) A) dead c' dead' t,
    krun stays es (c, dead) = Some (c', dead') -> In t dead -> ~ In t (steps_of es).
  Proof.
    induction es as [|e es IH]; intros c dead c' dead' t H Ht; [auto|]. destruct c as [ps s].
    destruct e as [u|u]; simpl in H |- *.
    - destruct (is_dead dead u) eqn:Ed; [discriminate|]. apply is_dead_out in Ed.
      destruct (cstep u (ps, s)) as [c1|]; [|discriminate]. intros [->|Hin]; [contradiction|]. eapply IH; eauto.
    - destruct (ps !! u) as [p|]; [|discriminate]. destruct (finished p || is_dead dead u); [discriminate|].
      eapply IH; [exact H|right; exact Ht].
  Qed.
  (** Who does not hold a lock and makes no step goes on not holding it. *)
  Lemma free_step {A} i (ps : list (prog C A)) s ps' s' t L : cstep i (ps, s) = Some (ps', s') -> i <> t ->
    ~ holds t L (lks s) -> ~ holds t L (lks s').
  Proof.
    intros Hs Hne Ht. unfold cstep in Hs. simpl in Hs. destruct (ps !! i) as [p|]; [|discriminate].
    destruct (pstep i p s) as [[p1 s1]|] eqn:Es; [|discriminate]. injection Hs as <- <-.
    assert (Hins : forall l x, (l = L -> match x with Excl o _ => o <> t | Shared os => ~ In t os end) -> ~ holds t L (<[l:=x]> (lks s))).
    { intros l x Hx. unfold holds. destruct (decide (l = L)) as [->|Hl]; [rewrite lookup_insert; destruct x; exact (Hx eq_refl)|].
      rewrite lookup_insert_ne by auto. exact Ht. }
    assert (Hdel : forall l, ~ holds t L (delete l (lks s))).
    { intros l. unfold holds. destruct (decide (l = L)) as [->|Hl]; [rewrite lookup_delete; auto|].
      rewrite lookup_delete_ne by auto. exact Ht. }
    destruct p as [a|e|X c k h]; [discriminate|discriminate|]. simpl in Es. destruct c as [l m|l|X c]; simpl in Es.
    - unfold lock_acq in Es. assert (Hl : l = L -> ~ match lks s !! l with Some (Excl o _) => o = t | Some (Shared os) => In t os | None => False end).
      { intros ->. exact Ht. }
      destruct (lks s !! l) as [[o n|os]|]; destruct m; try discriminate.
      + destruct (reent l && (o =? i)); [|discriminate]. injection Es as <- <-. apply Hins. exact Hl.
      + injection Es as <- <-. apply Hins. intros E [->|H]; [congruence|exact (Hl E H)].
      + injection Es as <- <-. apply Hins. intros _. exact Hne.
      + injection Es as <- <-. apply Hins. intros _ [->|[]]. congruence.
    - unfold lock_rel in Es. assert (Hl : l = L -> ~ match lks s !! l with Some (Excl o _) => o = t | Some (Shared os) => In t os | None => False end).
      { intros ->. exact Ht. }
      assert (Hr : forall os, ~ In t os -> ~ In t (remove1 i os)).
      { induction os as [|x os IH]; simpl; [auto|]. intros H. destruct (x =? i); [auto|]. simpl. tauto. }
      destruct (lks s !! l) as [[o [|[|n]]|os]|].
      1,2,3: injection Es as <- <-; simpl; first [apply Hdel|apply Hins; exact Hl|exact Ht].
      + pose proof (fun E => Hr os (Hl E)) as Hr'. destruct (remove1 i os); injection Es as <- <-; simpl; first [apply Hdel|apply Hins; exact Hr'].
      + injection Es as <- <-. exact Ht.
    - destruct (cexec c (dat s)) as [[x|e|] d']; [..|discriminate]; injection Es as <- <-; exact Ht.
  Qed.
  Lemma free_sched {A} sch t L : forall (ps : list (prog C A)) s ps' s', sched_run sch (ps, s) = Some (ps', s') -> ~ In t sch ->
    ~ holds t L (lks s) -> ~ holds t L (lks s').
  Proof.
    induction sch as [|i sch IH]; intros ps s ps' s' Hr Hi Ht; simpl in Hr; [injection Hr as <- <-; exact Ht|].
    destruct (cstep i (ps, s)) as [[ps1 s1]|] eqn:E; [|discriminate].
    apply (IH ps1 s1 ps' s' Hr); [intros H; apply Hi; right; exact H|].
    eapply free_step; [exact E| |exact Ht]. intros ->. apply Hi. left. reflexivity.
  Qed.
End Events.

(** ** Messages *)
Section Messages.
  Variables (m : nat) (d : psys) (work : list (nat * list mcall)) (fuel : nat).
  Hypotheses (Hm : 1 <= m) (Hr : preach m d) (Hc : main_closed d = false)
             (Hw : work_ok d work) (Hf : fuel_ok d work fuel).
  Variables (evs : list event) (ps : list (prog scmd presult)) (s : st psys) (dead : list nat).
  Hypothesis Hk : krun stay evs ((processes work fuel, idle d), []) = Some ((ps, s), dead).

  Lemma killed_messages : exists lg taken, sent_so_far m d work ps s lg taken /\
    (~ In (length work) dead -> wait_cut (inbox d ++ map snd lg) (s_n d) <> None -> main_goes_on work ps s) /\
    forall evs' ps' s' dead', krun stay evs' ((ps, s), dead) = Some ((ps', s'), dead') ->
    exists more taken', sent_so_far m d work ps' s' (lg ++ more) taken' /\ forall k, In k dead -> events_of k more = [].
  Proof.
    destruct (c23_two m d work fuel Hm Hr Hc Hw Hf _ _ _ (killed_is_stopped _ _ _ _ _ Hk)) as (lg & taken & (H1 & H2 & H3) & H4).
    exists lg, taken. split; [exact H1|]. split; [auto|]. intros evs' ps' s' dead' Hk'.
    destruct (H4 _ _ _ (killed_is_stopped _ _ _ _ _ Hk')) as (more & taken' & (G1 & G2 & G3) & G4).
    exists more, taken'. split; [exact G1|]. intros k Hin. apply G4. exact (dead_still _ _ _ _ _ _ _ Hk' Hin).
  Qed.

  (** Only the state lock is used by more than one process. *)
  Lemma only_state sch ps' s' dd : sched_run sch (processes work fuel, idle d) = Some (ps', s') ->
    (forall t, In t dd -> ~ holds t STL (lks s')) ->
    forall k p l o, k < length work -> ~ In k dd -> ps' !! k = Some p -> top_acq p = S l -> holds o l (lks s') -> ~ In o dd.
  Proof.
    intros Hs Hd k p l o Hlt Hkd Hp Hl Ho Hod.
    set (F := fun k l => match work !! k with Some w => uses (fst w) l | None => main_lock l end).
    assert (H0 : owns F (processes work fuel) (idle d)).
    { split; [exact (preach_ids m d Hr)|]. split; [|intros l'; simpl; rewrite lookup_empty; exact I].
      intros i q Hq. unfold processes in Hq. apply lookup_app_Some in Hq as [Hq|[Hi Hq]].
      - rewrite list_lookup_fmap in Hq. unfold F. destruct (work !! i) as [w|]; [|discriminate]. injection Hq as <-. apply aq_producer.
      - rewrite map_length in Hi, Hq. apply list_lookup_singleton_Some in Hq as [Hi' <-]. unfold F.
        rewrite (lookup_ge_None_2 work i) by lia. apply aq_waiter. }
    destruct (owns_sched F _ _ _ _ _ H0 Hs) as (_ & Hq & Hlk). specialize (Hq k p Hp). specialize (Hlk l).
    apply lookup_lt_is_Some_2 in Hlt as [w Hwk].
    assert (Hkl : uses (fst w) l).
    { apply aq_shaped in Hq. unfold F in Hq. rewrite Hwk in Hq. destruct p as [a|e|X c kk hh]; [discriminate|discriminate|].
      destruct c; cbn in Hl; try discriminate. injection Hl as ->. cbn in Hq. apply Hq. }
    assert (Hol : F o l) by (unfold holds in Ho; destruct (lks s' !! l) as [[o' n|os]|]; [subst o'; exact Hlk|contradiction|contradiction]).
    destruct Hkl as [->|Hkl]; [exact (Hd o Hod Ho)|]. pose proof (rlock_ge _ _ Hkl) as Hge.
    unfold F in Hol. destruct (work !! o) as [w'|] eqn:Hwo; [|unfold main_lock, STL in Hol; lia].
    destruct Hol as [->|Hol]; [unfold STL in Hge; lia|].
    pose proof (rlock_inj _ _ _ Hkl Hol) as E. assert (k = o).
    { eapply (NoDup_lookup (map fst work)); [apply NoDup_ListNoDup, (proj1 Hw)|..]; rewrite list_lookup_fmap.
      - rewrite Hwk. reflexivity.
      - rewrite Hwo. simpl. congruence. }
    subst o. contradiction.
  Qed.

  (** If none of the dead holds the state lock, then those that live finish their work. *)
  Lemma killed_progress : (forall t, In t dead -> ~ holds t STL (lks s)) ->
    (forall k w, work !! k = Some w -> ~ In k dead -> exists x, ps !! k = Some (Ret x)) \/
    exists j c, ~ In j dead /\ cstep j (ps, s) = Some c.
  Proof.
    intros Hd0. pose proof (only_state _ _ _ dead (killed_is_stopped _ _ _ _ _ Hk) Hd0) as Hd. destruct (c23_two m d work fuel Hm Hr Hc Hw Hf _ _ _ (killed_is_stopped _ _ _ _ _ Hk)) as (lg & taken & (H1 & H2 & H3) & _).
    assert (G : forall n, n <= length work -> (forall k w, k < n -> work !! k = Some w -> ~ In k dead -> exists x, ps !! k = Some (Ret x)) \/
      exists j c, ~ In j dead /\ cstep j (ps, s) = Some c).
    { induction n as [|n IH]; intros Hn; [left; intros; lia|]. destruct (IH ltac:(lia)) as [Hall|H]; [|auto].
      destruct (in_dec Nat.eq_dec n dead) as [Hin|Hin].
      - left. intros k w Hlt Hwk Hkd. apply (Hall k w); auto. destruct (Nat.eq_dec k n); [congruence|lia].
      - destruct (lookup_lt_is_Some_2 work n ltac:(lia)) as [w Hwn]. destruct (H3 dead n w Hd Hwn Hin) as [Hx|H]; [|auto].
        left. intros k w' Hlt Hwk Hkd. destruct (Nat.eq_dec k n) as [->|]; [exact Hx|]. apply (Hall k w'); auto. lia. }
    destruct (G (length work) ltac:(lia)) as [H|H]; [left|auto]. intros k w Hwk. apply (H k w); [|exact Hwk].
    apply lookup_lt_is_Some_1. eauto.
  Qed.

  (** wait() *)
  Hypotheses (Hi : inbox d = []) (Hn : s_n d = Z.of_nat (length work)) (Hne : work <> [])
             (He : forall w, In w work -> ends_once (emitted d w)).
  Lemma killed_wait : exists lg taken, sent_so_far m d work ps s lg taken /\
    (forall k w, In k dead -> work !! k = Some w -> events_of k lg <> emitted d w ->
       forall evs' ps' s' dead' x, krun stay evs' ((ps, s), dead) = Some ((ps', s'), dead') -> ps' !! length work <> Some (Ret x)) /\
    ((forall k, In k dead -> ~ holds k STL (lks s) /\ exists w, work !! k = Some w /\ events_of k lg = emitted d w) ->
       forall sch ps' s', sched_run sch (ps, s) = Some (ps', s') -> (forall k, In k sch -> ~ In k dead) ->
       (forall j c, ~ In j dead -> cstep j (ps', s') <> Some c) ->
       ps' !! length work = Some (Ret (Waited (Good tt))) /\ s_n (dat s') = 0%Z /\ inbox (dat s') = []).
  Proof.
    destruct (c23_two m d work fuel Hm Hr Hc Hw Hf _ _ _ (killed_is_stopped _ _ _ _ _ Hk)) as (lg & taken & (H1 & H2 & H3) & H4).
    exists lg, taken. split; [exact H1|]. split.
    - intros k w Hin Hwk Hne' evs' ps' s' dead' x Hk' Hx.
      destruct (H4 _ _ _ (killed_is_stopped _ _ _ _ _ Hk')) as (more & taken' & (G1 & _ & _) & G4).
      destruct G1 as (F1 & F2 & F3 & F4 & F5). destruct (F5 x Hx) as (_ & Hcut & _).
      rewrite Hi in F3, Hcut. simpl in F3, Hcut.
      destruct (c25_all m d work fuel Hm Hw Hf Hn Hne He _ _ _ F1 F2 F3 Hcut) as [_ Hall].
      specialize (Hall k w Hwk). rewrite events_of_app, (G4 k) in Hall by (exact (dead_still _ _ _ _ _ _ _ Hk' Hin)).
      rewrite app_nil_r in Hall. congruence.
    - intros Hdead sch ps' s' Hs Hsch Hstuck.
      destruct (H4 _ _ _ Hs) as (more & taken' & (G1 & G2 & G3) & G4).
      destruct G1 as (F1 & F2 & F3 & F4 & F5).
      pose proof (sched_run_app _ _ _ _ _ (killed_is_stopped _ _ _ _ _ Hk) Hs) as Hs'.
      assert (Hhold : forall k p l o, k < length work -> ~ In k dead -> ps' !! k = Some p -> top_acq p = S l -> holds o l (lks s') -> ~ In o dead).
      { apply (only_state _ _ _ dead Hs'). intros t Ht. eapply free_sched; [exact Hs| |apply Hdead, Ht]. intros H. exact (Hsch t H Ht). }
      assert (Hall : forall k w, work !! k = Some w -> events_of k (lg ++ more) = emitted d w).
      { intros k w Hwk. destruct (in_dec Nat.eq_dec k dead) as [Hin|Hin].
        - destruct (Hdead k Hin) as (_ & w' & Hw' & E). rewrite Hwk in Hw'. injection Hw' as <-.
          destruct (F2 k w Hwk) as [more' E']. rewrite events_of_app in E'. rewrite E in E'.
          rewrite <- app_assoc in E'. rewrite <- (app_nil_r (emitted d w)) in E' at 1. apply app_inv_head in E'. symmetry in E'.
          apply app_eq_nil in E'. destruct E' as [E' _]. rewrite events_of_app, E, E'. apply app_nil_r.
        - destruct (G3 dead k w Hhold Hwk Hin) as [[x Hx]|(j & c & Hj & Ec)]; [|destruct (Hstuck j c Hj Ec)].
          apply (F4 k w x Hwk Hx). }
      assert (Hcut : wait_cut (inbox d ++ map snd (lg ++ more)) (s_n d) <> None).
      { rewrite Hi. apply (c25_cut m d work fuel Hm Hw Hf Hn Hne He (lg ++ more) F1 Hall). }
      assert (Hmain : ~ In (length work) dead).
      { intros H. destruct (Hdead _ H) as (_ & w & Hx & _). apply lookup_lt_Some in Hx. lia. }
      destruct (G2 Hcut) as [[x Hx]|[c Ec]]; [|destruct (Hstuck _ _ Hmain Ec)].
      destruct (c25_returned m d work fuel Hm Hr Hc Hw Hf Hi Hn Hne He (steps_of evs ++ sch) ps' s' x) as (-> & E1 & E2 & _); auto.
  Qed.
End Messages.

(** ** The state lock *)
(** What the commands return if every mirror looks at the state. *)
Definition m_res (X : Type) (c : mcmd X) : X -> Prop :=
  match c in mcmd X return X -> Prop with MHas => fun x => x = true | _ => fun _ => True end.
Definition s_res (X : Type) (c : scmd X) : X -> Prop :=
  match c in scmd X return X -> Prop with SM _ c => m_res _ c | SP _ => fun _ => True end.
Definition p_res (X : Type) (c : pcmd X) : X -> Prop := fun _ => True.

Lemma be_sys_m {A} i (R : A -> Prop) p : behind STL m_res R p -> behind STL s_res R (sys_m i p).
Proof. unfold sys_m. induction 1; cbn [lift lift_cmd]; constructor; auto. Qed.
Lemma be_sys_p {A} (R : A -> Prop) p : behind STL p_res R p -> behind STL s_res R (sys_p p).
Proof. unfold sys_p. induction 1 as [| | | |X c k h Hk IHk Hh IHh]; cbn [lift lift_cmd]; constructor; auto. Qed.

Lemma be_locked {C A B} (res : forall X, C X -> X -> Prop) (R : B -> Prop) (p : prog C A) (f : A -> prog C B) :
  behind STL res R (bind (with_lock STL Ex p) f).
Proof. eapply be_bind with (R := fun _ => False); [apply be_with; congruence|]. intros a []. Qed.
Lemma be_body data (R : nat -> Prop) : behind STL m_res R (lm_write_body data).
Proof.
  unfold lm_write_body. eapply be_bind; [apply be_cmd; intros x Hx; exact Hx|]. cbn [m_res]. intros has ->. apply be_locked.
Qed.
Lemma be_none {C A B} (res : forall X, C X -> X -> Prop) (R : B -> Prop) (p : prog C A) (f : A -> prog C B) :
  behind STL res (fun _ => False) p -> behind STL res R (bind p f).
Proof. intros H. eapply be_bind; [exact H|]. intros a []. Qed.
Lemma be_call c : behind STL s_res (fun _ => locks_state c = false) (s_call c).
Proof.
  assert (Hany : locks_state c = false -> behind STL s_res (fun _ => locks_state c = false) (s_call c)).
  { intros E. eapply be_more; [apply be_any|]. intros a _. exact E. }
  destruct c as [c|i c].
  - destruct c; try (apply Hany; reflexivity); cbn [s_call lp_call]; unfold pret; apply be_sys_p, be_none, be_none.
    + unfold lp_stop_all. apply be_with. congruence.
    + unfold lp_reset. apply be_then. intros n. destruct (0 <? n)%Z; [constructor|]. apply be_locked.
  - destruct c; try (apply Hany; reflexivity). cbn [s_call lm_call]. unfold mret. apply be_sys_m, be_none, be_none.
    unfold lm_write. apply be_then. intros w. destruct (negb w); [constructor|].
    unfold with_m. apply be_then. intros l. apply be_with. intros _. apply be_body.
Qed.

Lemma check_step {X} (c : scmd X) d r d' : all_check d -> cexec c d = (r, d') -> all_check d' /\ forall x, r = Good x -> s_res X c x.
Proof.
  intros Ha E. split.
  - destruct c as [i X c|X c]; simpl in E.
    + destruct (mexec c (get_menv i d)) as [r' e] eqn:Em. injection E as <- <-.
      destruct (mexec_keeps _ _ _ _ Em) as (H1 & _). intros m Hm. simpl in Hm. apply in_set_nth in Hm as [->|Hm]; [|apply Ha, Hm].
      rewrite H1. apply has_at, Ha.
    + destruct c; simpl in E; try (injection E as <- <-; exact Ha).
      * destruct (bexec c (s_main d)) as [r' b]. injection E as <- <-. exact Ha.
      * destruct (nth (cur_q d) (s_qs d) []) as [|m q]; injection E as <- <-; exact Ha.
      * injection E as <- <-. intros m Hm. simpl in Hm. apply in_app_iff in Hm as [Hm|[<-|[]]]; [apply Ha, Hm|reflexivity].
  - intros x ->. destruct c as [i X c|X c]; [|exact I]. destruct c; try exact I. simpl in E |- *. injection E as <- _. apply has_at, Ha.
Qed.

Lemma bal_sys css : Forall (bal [] []) (sys_pool css).
Proof.
  unfold sys_pool. apply Forall_map, Forall_forall. intros cs _. apply bal_thread. apply Forall_map, Forall_forall. intros c _.
  apply uw_bal, fr_s_call.
Qed.
Lemma check_sched {A} sch : forall (ps : list (prog scmd A)) s ps' s', all_check (dat s) -> sched_run sch (ps, s) = Some (ps', s') -> all_check (dat s').
Proof.
  induction sch as [|j sch IH]; intros ps s ps' s' Ha Hr; simpl in Hr; [injection Hr as <- <-; exact Ha|].
  destruct (cstep j (ps, s)) as [[ps1 s1]|] eqn:E; [|discriminate]. apply (IH ps1 s1 ps' s'); [|exact Hr]. clear IH Hr.
  unfold cstep in E. simpl in E. destruct (ps !! j) as [q|]; [|discriminate]. destruct (pstep j q s) as [[q1 s2]|] eqn:Es; [|discriminate].
  injection E as <- <-. destruct q as [a|e|X c k h]; [discriminate|discriminate|]. simpl in Es. destruct c as [l m|l|X c]; simpl in Es.
  - destruct (lock_acq _ _ _ _ _) as [[x|e|] k']; [..|discriminate]; injection Es as _ <-; exact Ha.
  - destruct (lock_rel _ _ _) as [[x|e|] k']; [..|discriminate]; injection Es as _ <-; exact Ha.
  - change (sexec c (dat s)) with (cexec c (dat s)) in Es. destruct (cexec c (dat s)) as [[x|e|] d'] eqn:Ec; [..|discriminate]; injection Es as _ <-; exact (proj1 (check_step _ _ _ _ Ha Ec)).
Qed.
Lemma bal_sched {A} sch : forall held (ps : list (prog scmd A)) s ps' s', pool_bal held ps s -> sched_run sch (ps, s) = Some (ps', s') ->
  exists held', pool_bal held' ps' s'.
Proof.
  induction sch as [|j sch IH]; intros held ps s ps' s' Hb Hr; simpl in Hr; [injection Hr as <- <-; eauto|].
  destruct (cstep j (ps, s)) as [[ps1 s1]|] eqn:E; [|discriminate]. destruct (bal_step _ _ _ _ _ _ Hb E) as [h1 Hb1]. eauto.
Qed.

Lemma state_lock css1 css2 d0 evs1 ps s dead k n evs2 ps' s' dead' :
  (forall m, In m (s_mirs d0) -> m_has m = true) ->
  krun stay evs1 ((sys_pool css1, mkst d0 ∅), []) = Some ((ps, s), dead) ->
  In k dead -> lks s !! STL = Some (Excl k n) ->
  krun stay evs2 ((ps ++ sys_pool css2, s), dead) = Some ((ps', s'), dead') ->
  lks s' !! STL = Some (Excl k n) /\
  forall i cs rs j c, css2 !! i = Some cs -> ps' !! (length css1 + i) = Some (Ret rs) ->
    cs !! j = Some c -> locks_state c = true -> exists e, rs !! j = Some (Fail e).
Proof.
  intros Ha Hk1 Hk HL Hk2.
  pose proof (killed_is_stopped _ _ _ _ _ Hk1) as Hs1. pose proof (killed_is_stopped _ _ _ _ _ Hk2) as Hs2.
  destruct (bal_sched _ _ _ _ _ _ (pool_bal_init _ d0 (bal_sys css1)) Hs1) as [held Hb].
  pose proof (check_sched _ _ _ _ _ (Ha : all_check (dat (mkst d0 (∅ : locks)))) Hs1) as Hc1.
  destruct (dead_unfinished _ _ _ _ _ _ _ _ Hk1) as (Hd & _ & _ & Hlen); [intros t []|constructor|].
  destruct (behind_sched STL s_res all_check (@check_step) k n _ _ _ _ _ _ (pool_bal_more _ _ _ _ Hb (bal_sys css2)) HL Hc1
    (dead_still _ _ _ _ _ _ _ Hk2 Hk) Hs2) as [H1 H2].
  split; [exact H1|]. intros i cs rs j c Hi Hrs Hj Hst.
  assert (Hl1 : length (sys_pool css1) = length css1) by (unfold sys_pool; apply map_length).
  destruct (H2 (length css1 + i) (thread (map s_call cs)) (fun rs => Forall2 (fun c o => stopped (fun _ : sres => locks_state c = false) o) cs rs)) as (p' & Hp' & Hbe).
  - destruct (Hd k Hk) as (p & Hp & _). apply lookup_lt_Some in Hp. rewrite Hlen, Hl1 in Hp. lia.
  - rewrite lookup_app_r by (rewrite Hlen, Hl1; lia). rewrite Hlen, Hl1. replace (length css1 + i - length css1) with i by lia.
    unfold sys_pool. rewrite list_lookup_fmap, Hi. reflexivity.
  - apply be_thread. apply be_call.
  - rewrite Hrs in Hp'. injection Hp' as <-. apply be_shaped in Hbe. cbn [be_shape] in Hbe.
    destruct (Forall2_lookup_l _ _ _ _ _ Hbe Hj) as (o & Ho & Hso). rewrite Ho. destruct o as [a|e|]; simpl in Hso; [congruence|eauto|contradiction].
Qed.
