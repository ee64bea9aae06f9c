From stdpp Require Import gmap.
From Coq Require Import List NArith ZArith Bool Arith Lia.
From Verif Require Import PyStr Prog ProgFacts PyIO Base Spec SpecFacts LineBuf LineBufFacts
  Conc Locks LineBufConc.
Import ListNotations.
Local Open Scope nat_scope.

Section Bef.
  Context {C : Type -> Type} {D : Type} `{!Sem C D} {K R : Type} (impl : K -> prog C R).
  Variables (L : nat) (Inv : D -> Prop).
  Notation free := (stdpp.base.empty : locks).

  Lemma bef_single c {A} (body : prog C A) (f : A -> R) :
    nolock body -> (forall d, Inv d -> nonblock body d) ->
    (forall t d, Inv d -> run t (impl c) (mkst d free) =
                          run t (bind (with_lock L Ex body) (fun x => Ret (f x))) (mkst d free)) ->
    bef impl L (fun _ => true) Inv c (bind (with_lock L Ex body) (fun x => Ret (f x))).
  Proof.
    intros Hn Hb Hrun. unfold with_lock. cbn [bind]. apply bef_acq. intros t d Hd.
    specialize (Hb d Hd). unfold nonblock in Hb. destruct (drun body d) as [r d'] eqn:E. simpl in Hb.
    eexists _, d'. split.
    - apply sec_bind. apply sec_body; [reflexivity|exact Hn|exact E|exact Hb].
    - right. rewrite Hrun by assumption. 
      assert (Hnb : nonblock body d) by (unfold nonblock; rewrite E; exact Hb).
      rewrite run_bind, (run_with_lock t L Ex body (mkst d free) (lookup_empty _) Hn Hnb).
      simpl. rewrite E. simpl. destruct r; simpl; auto.
  Qed.

  Lemma bef_check c {X A} (chk : prog C X) (g : X -> prog C A) (f : A -> R) :
    nolock chk ->
    (forall d, Inv d -> exists x, drun chk d = (Good x, d) /\ bef impl L (fun _ => true) Inv c (bind (g x) (fun a => Ret (f a)))) ->
    bef impl L (fun _ => true) Inv c (bind (bind (with_lock L Ex chk) g) (fun a => Ret (f a))).
  Proof.
    intros Hn Hb. unfold with_lock. cbn [bind]. apply bef_acq. intros t d Hd. destruct (Hb d Hd) as (x & E & Hbef).
    eexists _, d. split.
    - apply sec_bind, sec_bind. apply sec_body; [reflexivity|exact Hn|exact E|discriminate].
    - left. split; [reflexivity|]. exact Hbef.
  Qed.
End Bef.

Section LB.
  Variable m : nat.
  Hypothesis Hm : 1 <= m.
  Notation free := (stdpp.base.empty : locks).
  Definition binv (d : lbuf) : Prop := exists q v, d = bd m q v false /\ length q <= m.

  Lemma lb_call_inv t c d : locked_call c = true -> binv d ->
    exists r d', run t (lb_call c) (mkst d free) = (r, mkst d' free) /\ binv d' /\ r <> Block.
  Proof.
    intros Hc (q & v & -> & Hq).
    assert (Ha : aok m (mkabuf q v false)) by (repeat split; simpl; auto; discriminate).
    pose proof (lb_call_run m t free c (mkabuf q v false) (lookup_empty _) Ha) as H.
    unfold cst in H. cbn [aq av acl] in H. rewrite H. eexists _, _. split; [reflexivity|].
    destruct c; try discriminate Hc; cbn [astep].
    all: try (solve [split; [exists q, v; auto|discriminate]]).
    - split; [|discriminate]. eexists _, _. split; [reflexivity|]. cbn [aq snd]. rewrite last_items_length. lia.
    - destruct v; (split; [|discriminate]); eexists _, _; (split; [reflexivity|]); cbn [aq snd]; auto.
      rewrite last_items_length. lia.
  Qed.

  Lemma nonblock_body_write data d : binv d -> nonblock (lb_write_body lb_parse_lines data) d.
  Proof. intros (q & v & -> & Hq). unfold nonblock. rewrite write_body_run by assumption. discriminate. Qed.

  Lemma lb_call_bef c : locked_call c = true -> bef lb_call LL (fun _ => true) binv c (lb_call c).
  Proof.
    intros Hc. destruct c; try discriminate Hc; cbn [lb_call].
    - (* write *)
      unfold ret_as, lb_write, lb_write_with, lb_write_gen.
      apply (bef_check lb_call LL binv (Write data)).
      { nolock_tac. }
      intros d (q & v & -> & Hq). exists true. split; [reflexivity|]. simpl negb. cbv iota.
      apply (bef_single lb_call LL binv (Write data)).
      + apply nolock_write_body, nolock_parse.
      + apply nonblock_body_write.
      + intros t d (q' & v' & -> & Hq').
        change (bind (with_lock LL Ex (lb_write_body_gen (fun _ c => c) lb_parse_lines data)) (fun x => Ret (RNat x)))
          with (ret_as RNat (with_lock LL Ex (lb_write_body lb_parse_lines data))).
        cbn [lb_call]. 
        erewrite run_ret_as; [|apply run_write_open; auto using lookup_empty].
        symmetry.
        refine (run_ret_as _ _ _ _ (Good _) _ _).
        eapply with_LL_run; [apply lookup_empty|apply nolock_write_body, nolock_parse|apply write_body_run; assumption|discriminate].
    - (* read *)
      unfold ret_as, lb_read, lb_readable.
      apply (bef_check lb_call LL binv (Read size)).
      { nolock_tac. }
      intros d (q & v & -> & Hq). exists true. split; [reflexivity|]. simpl negb. cbv iota.
      apply (bef_single lb_call LL binv (Read size)).
      + destruct size as [z|]; [|apply nolock_read_all].
        destruct (0 <? z)%Z; [apply nolock_read_n|constructor].
      + intros d (q' & v' & -> & Hq'). unfold nonblock. destruct size as [z|].
        * destruct (Z.ltb_spec 0 z); [|discriminate]. rewrite read_n_run by (auto; lia). discriminate.
        * rewrite read_all_run by auto. discriminate.
      + intros t d (q' & v' & -> & Hq').
        match goal with |- _ = run _ (bind ?w _) _ => change (bind w (fun x => Ret (RItems x))) with (ret_as RItems w) end.
        cbn [lb_call].
        erewrite run_ret_as; [|apply run_read_open; auto using lookup_empty].
        symmetry.
        refine (run_ret_as _ _ _ _ (Good _) _ _).
        unfold aread. destruct size as [z|].
        * destruct (Z.ltb_spec 0 z).
          -- eapply with_LL_run; [apply lookup_empty|apply nolock_read_n| |discriminate].
             apply read_n_run; auto. lia.
          -- eapply with_LL_run; [apply lookup_empty|constructor|reflexivity|discriminate].
        * eapply with_LL_run; [apply lookup_empty|apply nolock_read_all| |discriminate].
          apply read_all_run; auto.
    - apply (bef_single lb_call LL binv NewLine).
      + apply nolock_new_line_body, nolock_parse.
      + intros d (q & v & -> & Hq). unfold nonblock. rewrite drun_bind, drun_op, be_tell.
        destruct (0 <? length v); [|discriminate]. rewrite drun_bind.
        fold (lb_write_body lb_parse_lines [LF]). rewrite write_body_run by assumption. discriminate.
      + reflexivity.
    - apply (bef_single lb_call LL binv Flush); [nolock_tac| |reflexivity].
      intros d (q & v & -> & Hq). discriminate.
    - apply (bef_single lb_call LL binv Closed); [nolock_tac| |reflexivity].
      intros d (q & v & -> & Hq). discriminate.
    - apply (bef_single lb_call LL binv Readable); [nolock_tac| |reflexivity].
      intros d (q & v & -> & Hq). discriminate.
    - apply (bef_single lb_call LL binv Writable); [nolock_tac| |reflexivity].
      intros d (q & v & -> & Hq). discriminate.
  Qed.
End LB.

(** ** C16 *)
Lemma lookup_nth_error {A} (l : list A) i : nth_error l i = l !! i.
Proof. revert i. induction l as [|x l IH]; intros [|i]; simpl; auto. Qed.

Lemma seq_run_hist order : forall s,
  seq_run lb_call order s =
  (combine (map fst order) (fst (run_hist order s)), snd (run_hist order s)).
Proof.
  induction order as [|[t c] o IH]; intros s; [reflexivity|]. cbn [seq_run run_hist].
  destruct (run t (lb_call c) s) as [r s1]. rewrite IH.
  destruct (run_hist o s1) as [rs s2]. reflexivity.
Qed.

Lemma open_state_binv m s : 1 <= m -> open_state m s ->
  exists d, s = mkst d stdpp.base.empty /\ binv m d.
Proof.
  intros Hm [Hr Hc]. destruct (reachable_inv m s Hm Hr) as ([q v cl] & -> & _ & Hq & _).
  simpl in *. subst cl. eexists. split; [reflexivity|]. exists q, v. auto.
Qed.

Theorem c16 m css s0 sch ps s' :
  1 <= m -> open_state m s0 -> Forall (Forall (fun c => locked_call c = true)) css ->
  sched_run sch (lb_pool css, s0) = Some (ps, s') ->
  Forall (fun p => finished p = true) ps ->
  exists order : hist,
    order_of css order /\
    snd (run_hist order s0) = s' /\
    (forall i p, nth_error ps i = Some p ->
       p = Ret (events_of i (combine (map fst order) (fst (run_hist order s0))))) /\
    (forall sch1 sch2 ps1 s1, sch = sch1 ++ sch2 ->
       sched_run sch1 (lb_pool css, s0) = Some (ps1, s1) ->
       exists o1 o2, order = o1 ++ o2 /\
       forall i cs, nth_error css i = Some cs -> exists p rest,
         nth_error ps1 i = Some p /\ cs = events_of i o1 ++ rest /\
         pending lb_call (rev (events_of i (combine (map fst o1) (fst (run_hist o1 s0))))) rest p).
Proof.
  intros Hm Hs Hok Hr Hf. destruct (open_state_binv m s0 Hm Hs) as (d & -> & Hd).
  destruct (reduction lb_call LL (fun _ => true) (binv m) (fun c => locked_call c = true) (fun _ _ => eq_refl)
              (lb_call_bef m Hm) (lb_call_inv m Hm) css d sch ps s' Hd Hok Hr Hf)
    as (order & H1 & H2 & H3 & H4 & H5).
  exists order. split; [split; [exact H1|]|split; [|split]].
  - intros i cs Hi. rewrite lookup_nth_error in Hi. auto.
  - rewrite seq_run_hist in H3. exact H3.
  - intros i p Hp. rewrite lookup_nth_error in Hp. rewrite (H4 i p Hp), seq_run_hist. reflexivity.
  - intros sch1 sch2 ps1 s1 Hsch Hr1. destruct (H5 sch1 sch2 ps1 s1 Hsch Hr1) as (o1 & o2 & Ho & H).
    exists o1, o2. split; [exact Ho|]. intros i cs Hi. rewrite lookup_nth_error in Hi.
    destruct (H i cs Hi) as (p & rest & G1 & G2 & G3). exists p, rest.
    rewrite lookup_nth_error. rewrite seq_run_hist in G3. auto.
Qed.

(** ** C17 *)
Lemma bexec_nb X (c : bcmd X) d : fst (bexec c d) <> Block.
Proof.
  destruct c, d as [[q mm] [v p cl]]; simpl; unfold on_file, on_dq; simpl;
    unfold sio_write, sio_getvalue, sio_tell, sio_seek0, sio_truncate0, sio_guard, dq_popleft; simpl;
    destruct cl; simpl; try discriminate; destruct q; discriminate.
Qed.

Lemma may_LL : may_acq [] LL Ex.
Proof. split; [discriminate|]. left. constructor. Qed.

Lemma wlk_withLL {A} (body : prog bcmd A) : nolock body -> wlk [] [] (with_lock LL Ex body).
Proof. intros H. apply wlk_with; [apply may_LL|]. apply wlk_nolock, H. Qed.

Lemma wlk_call c : wlk [] [] (lb_call c).
Proof.
  assert (Hret : forall X (f : X -> res) p, wlk [] [] p -> wlk [] [] (ret_as f p)).
  { intros X f p H. apply wlk_bind; [exact H|]. intros a. constructor. }
  assert (Hclear : wlk [] [] lb_clear).
  { apply wlk_bind; [apply wlk_withLL; nolock_tac|]. intros _. apply wlk_nolock; nolock_tac. }
  destruct c; cbn [lb_call]; apply Hret.
  - apply wlk_bind; [apply wlk_withLL; nolock_tac|]. intros [|]; simpl; [|constructor].
    apply wlk_withLL, nolock_write_body, nolock_parse.
  - apply wlk_bind; [apply wlk_withLL; nolock_tac|]. intros [|]; simpl; [|constructor].
    apply wlk_withLL. destruct size as [z|]; [|apply nolock_read_all].
    destruct (0 <? z)%Z; [apply nolock_read_n|constructor].
  - apply wlk_withLL, nolock_new_line_body, nolock_parse.
  - exact Hclear.
  - apply wlk_bind; [apply wlk_withLL; nolock_tac|]. intros [|]; [constructor|].
    apply wlk_bind; [exact Hclear|]. intros _. apply wlk_withLL; nolock_tac.
  - apply wlk_withLL; nolock_tac.
  - apply wlk_bind; [apply wlk_nolock; nolock_tac|]. intros n.
    apply wlk_bind; [apply wlk_nolock; nolock_tac|]. intros n'.
    apply wlk_bind; [apply wlk_withLL; nolock_tac|]. intros b. constructor.
  - apply wlk_withLL; nolock_tac.
  - apply wlk_withLL; nolock_tac.
  - apply wlk_withLL; nolock_tac.
  - apply wlk_nolock; nolock_tac.
  - constructor.
  - constructor.
  - constructor.
  - constructor.
Qed.

Lemma wlk_pool css : Forall (wlk [] []) (lb_pool css).
Proof.
  unfold lb_pool. induction css as [|cs css IH]; simpl; constructor; [|exact IH].
  apply wlk_thread. induction cs; simpl; constructor; auto. apply wlk_call.
Qed.

Theorem c17_release t c d r s' :
  run t (lb_call c) (mkst d stdpp.base.empty) = (r, s') ->
  r <> Block /\ lks s' = stdpp.base.empty.
Proof. apply lock_released; [apply bexec_nb|apply wlk_call]. Qed.

Theorem c17_progress css d sch ps' s' :
  sched_run sch (lb_pool css, mkst d stdpp.base.empty) = Some (ps', s') ->
  (Forall (fun p => finished p = true) ps' /\ lks s' = stdpp.base.empty) \/
  (exists i c', cstep i (ps', s') = Some c').
Proof. apply lock_progress; [apply bexec_nb|apply wlk_pool]. Qed.

(** ** The bound holds for every schedule *)
Definition within (m : nat) (d : lbuf) : Prop :=
  dmax (storage d) = m /\ length (dq (storage d)) <= m.

Lemma bexec_within m X (c : bcmd X) d : within m d -> within m (snd (bexec c d)).
Proof.
  intros [H1 H2]. destruct d as [[q mm] f]. simpl in H1, H2. subst mm.
  assert (Hap : forall x (q0 : deque item), dmax q0 = m -> length (dq q0) <= m ->
            dmax (dq_append x q0) = m /\ length (dq (dq_append x q0)) <= m).
  { intros x [q0 mm] E Hl. simpl in *. subst mm. split; [reflexivity|]. unfold dq_append, trim_left.
    simpl. rewrite app_length. simpl. destruct (Nat.ltb_spec m (length q0 + 1)).
    - destruct q0; simpl; [lia|]. rewrite app_length. simpl in *. lia.
    - rewrite app_length. simpl. lia. }
  destruct c; simpl; unfold on_file, on_dq, within; simpl;
    try match goal with |- context [let '(_, _) := ?g f in _] => destruct (g f) end;
    simpl; auto.
  - unfold dq_popleft. simpl. destruct q; simpl in *; auto. split; [auto|lia].
  - apply (Hap i (mkdeque q m)); auto.
  - split; [reflexivity|]. unfold dq_appendleft, trim_right. simpl.
    destruct (Nat.ltb_spec m (S (length q))); [|simpl; lia].
    change (length (removelast (i :: q)) <= m). rewrite removelast_firstn_len, firstn_length. simpl. lia.
  - assert (Hx : dmax (dq_extend l (mkdeque q m)) = m /\ length (dq (dq_extend l (mkdeque q m))) <= m);
      [|exact Hx].
    unfold dq_extend. assert (H0 : dmax (mkdeque q m) = m /\ length (dq (mkdeque q m)) <= m) by auto.
    revert H0. generalize (mkdeque q m) as q0. induction l as [|x l IH]; intros q0 H0; simpl; [exact H0|].
    apply IH. apply Hap; apply H0.
  - unfold dq_rotate. simpl. destruct q as [|x q]; simpl; [auto|]. split; [reflexivity|].
    rewrite app_length, skipn_length, firstn_length. simpl in *. lia.
  - split; [reflexivity|lia].
Qed.

Lemma exec_within m t X (c : cmd bcmd X) s : within m (dat s) -> within m (dat (snd (exec t c s))).
Proof.
  intros H. destruct c as [l md|l|X c]; simpl.
  - destruct (lock_acq _ _ _ _ _). exact H.
  - destruct (lock_rel _ _ _). exact H.
  - pose proof (bexec_within m X c (dat s) H) as H'. destruct (bexec c (dat s)) as [r d]. exact H'.
Qed.

Theorem bound_sched m {A} sch : forall (ps ps' : list (prog bcmd A)) s s',
  within m (dat s) -> sched_run sch (ps, s) = Some (ps', s') -> within m (dat s').
Proof.
  induction sch as [|i sch IH]; intros ps ps' s s' H Hr; simpl in Hr.
  - injection Hr as <- <-. exact H.
  - destruct (cstep i (ps, s)) as [[ps1 s1]|] eqn:E; [|discriminate].
    apply (IH ps1 ps' s1 s'); [|exact Hr]. unfold cstep in E. simpl in E.
    destruct (ps !! i) as [p|]; [|discriminate].
    destruct (pstep i p s) as [[p' s2]|] eqn:Es; [|discriminate]. injection E as <- <-.
    unfold pstep in Es. destruct p as [a|e|X c k h]; try discriminate.
    pose proof (exec_within m i X c s H) as Hw.
    destruct (exec i c s) as [[x|e|] s3]; try discriminate; injection Es as <- <-; exact Hw.
Qed.

(** ** Orders of two single calls *)
Lemma order_two {X} (a b : X) order : order_of [[a]; [b]] order ->
  order = [(0, a); (1, b)] \/ order = [(1, b); (0, a)].
Proof.
  intros [Ht Hc]. pose proof (Hc 0 _ eq_refl) as H0. pose proof (Hc 1 _ eq_refl) as H1.
  clear Hc. unfold events_of in *.
  assert (Hnil : forall o : list (nat * X), Forall (fun e => fst e < 2) o ->
    map snd (filter (fun e => Nat.eqb (fst e) 0) o) = [] ->
    map snd (filter (fun e => Nat.eqb (fst e) 1) o) = [] -> o = []).
  { intros [|[[|[|n]] x] o] F E0 E1; simpl in *; try discriminate; auto.
    apply Forall_cons_1 in F as [F _]. simpl in F. lia. }
  assert (Hone : forall (i : nat) (x : X) (o : list (nat * X)), Forall (fun e => fst e < 2) o ->
    map snd (filter (fun e => Nat.eqb (fst e) (1 - i)) o) = [] -> i < 2 ->
    map snd (filter (fun e => Nat.eqb (fst e) i) o) = [x] -> o = [(i, x)]).
  { intros i x [|[j y] o] F E0 Hi E1; [discriminate|].
    apply Forall_cons_1 in F as [Fj F]. simpl in Fj.
    destruct i as [|[|i]], j as [|[|j]]; simpl in *; try lia; try discriminate;
      injection E1 as <- E1; rewrite (Hnil o) by auto; reflexivity. }
  destruct order as [|[j y] o]; [discriminate|]. apply Forall_cons_1 in Ht as [Fj F]. simpl in Fj.
  destruct j as [|[|j]]; simpl in *; [| |lia].
  - injection H0 as <- H0. left. f_equal. apply Hone; auto.
  - injection H1 as <- H1. right. f_equal. apply Hone; auto.
Qed.

Theorem c18_bound m css d sch ps s' :
  dmax (storage d) = m -> length (dq (storage d)) <= m ->
  sched_run sch (lb_pool css, mkst d stdpp.base.empty) = Some (ps, s') ->
  dmax (storage (dat s')) = m /\ length (dq (storage (dat s'))) <= m.
Proof. intros H1 H2 Hr. eapply (bound_sched m); [|exact Hr]. split; assumption. Qed.

(** ** C19: a closed buffer stays closed *)
Lemma bexec_closed X (c : bcmd X) d : sclosed (last_line d) = true -> sclosed (last_line (snd (bexec c d))) = true.
Proof.
  intros H. destruct d as [q [v p cl]]. simpl in H. subst cl.
  destruct c; simpl; unfold on_file, on_dq; simpl; try reflexivity.
  destruct (dq_popleft q). reflexivity.
Qed.

Lemma sched_I {A} (I : lbuf -> Prop) (HI : forall X (c : bcmd X) d, I d -> I (snd (bexec c d))) sch :
  forall (ps ps' : list (prog bcmd A)) s s',
  I (dat s) -> sched_run sch (ps, s) = Some (ps', s') -> I (dat s').
Proof.
  induction sch as [|i sch IH]; intros ps ps' s s' H Hr; simpl in Hr.
  - injection Hr as <- <-. exact H.
  - destruct (cstep i (ps, s)) as [[ps1 s1]|] eqn:E; [|discriminate].
    apply (IH ps1 ps' s1 s'); [|exact Hr]. unfold cstep in E. simpl in E.
    destruct (ps !! i) as [p|]; [|discriminate].
    destruct (pstep i p s) as [[p' s2]|] eqn:Es; [|discriminate]. injection E as <- <-.
    unfold pstep in Es. destruct p as [a|e|X c k h]; try discriminate.
    pose proof (exec_I I HI i X c s H) as Hw.
    destruct (exec i c s) as [[x|e|] s3]; try discriminate; injection Es as <- <-; exact Hw.
Qed.

Theorem c19_closed css s sch ps s' : sclosed (last_line (dat s)) = true ->
  sched_run sch (lb_pool css, s) = Some (ps, s') -> sclosed (last_line (dat s')) = true.
Proof.
  intros H Hr. apply (sched_I (fun d => sclosed (last_line d) = true) bexec_closed sch _ _ _ _ H Hr).
Qed.

(** ** C65 *)
Definition len_ok (m : nat) (c : call) (r : res) : Prop :=
  forall n, c = Len -> r = RNat n -> 1 <= n <= m.

Lemma len_safe m c : 1 <= m -> safe (within m) (len_ok m c) (lb_call c).
Proof.
  intros Hm. destruct c;
    try (eapply safe_weaken; [apply safe_true|]; intros a _ n Hc; discriminate Hc).
  cbn [lb_call]. unfold ret_as, lb_len.
  eapply (safe_bind _ (fun n => 1 <= n <= m)).
  2: { intros n Hn. simpl. intros n' _ [= <-]. exact Hn. }
  eapply (safe_bind _ (fun n => n = m)).
  { apply safe_op. intros d x d' [H1 H2] E. simpl in E. unfold on_dq in E.
    destruct d as [[q mm] f]. simpl in *. injection E as <- _. exact H1. }
  intros mx ->. eapply (safe_bind _ (fun _ => True)); [apply safe_true|]. intros k _.
  eapply (safe_bind _ (fun n => n = k + 1)).
  - apply safe_with. eapply (safe_bind _ (fun b => b = true)).
    + apply safe_op. intros d x d' _ E. simpl in E. unfold on_file, sio_truth in E. injection E as <- _. reflexivity.
    + intros b ->. reflexivity.
  - intros n ->. simpl. destruct (Nat.eqb_spec m 0); lia.
Qed.

Theorem c65_range m css d sch ps s' i cs rs : 1 <= m -> dmax (storage d) = m ->
  length (dq (storage d)) <= m ->
  sched_run sch (lb_pool css, mkst d stdpp.base.empty) = Some (ps, s') ->
  nth_error css i = Some cs -> nth_error ps i = Some (Ret rs) ->
  Forall2 (fun c r => forall n, c = Len -> r = Good (RNat n) -> 1 <= n <= m) cs rs.
Proof.
  intros Hm H1 H2 Hr Hc Hp. rewrite lookup_nth_error in Hc. rewrite lookup_nth_error in Hp.
  pose proof (rely (within m) (bexec_within m) lb_call (len_ok m) (fun c => len_safe m c Hm)
                css (mkst d stdpp.base.empty) sch ps s' i cs rs (conj H1 H2) Hr Hc Hp) as HF.
  eapply Forall2_impl; [exact HF|]. intros c r Ha n -> ->. exact (Ha n eq_refl eq_refl).
Qed.
