(** * FlakyBuf: what an interrupted call leaves of a LineBuffer *)
From stdpp Require Import gmap.
From Coq Require Import List NArith ZArith Bool Arith Lia.
From Verif Require Import PyStr Prog ProgFacts PyIO Base Spec SpecFacts LineBuf LineBufFacts LineBufProofs LineBufConc LineBufConcProofs Locks Atomic Crash Flaky FlakySpec FlakyFacts FlakyCalls.
Import ListNotations.
Local Open Scope prog_scope.
Local Open Scope nat_scope.

Section Step.
  Variable P : lbuf -> Prop.
  Variable t : nat.
  Lemma alw_step {X A} (c : bcmd X) (k : X -> prog bcmd A) d x d' K : P d -> bexec c d = (Good x, d') ->
    alw P t (k x) (mkst d' K) -> alw P t (bind (bop c) k) (mkst d K).
  Proof.
    intros H0 He Hk. cbn [bind op]. apply alw_act; [exact H0| |]; cbn [exec dat lks cexec bsem]; rewrite He; intros y s' E; [|discriminate].
    injection E as <- <-. exact Hk.
  Qed.
  Lemma alw_step2 {X Y A} (c : bcmd X) (f : X -> prog bcmd Y) (k : Y -> prog bcmd A) d x d' K : P d -> bexec c d = (Good x, d') ->
    alw P t (bind (f x) k) (mkst d' K) -> alw P t (bind (bind (bop c) f) k) (mkst d K).
  Proof. apply (alw_step c (fun x => bind (f x) k)). Qed.
  Lemma alw_last {X} (c : bcmd X) d x d' K : P d -> P d' -> bexec c d = (Good x, d') -> alw P t (bop c) (mkst d K).
  Proof. intros H0 H1 He. apply alw_op; [exact H0|]. cbn [cexec bsem]. rewrite He. exact H1. Qed.
  Lemma alw_ret_as {X} (f : X -> res) p s : alw P t p s -> alw P t (ret_as f p) s.
  Proof. intros H. apply alw_bind; [exact H|]. intros a s' E. apply alw_ret. pose proof (alw_end P t p s H) as He. rewrite E in He. apply He. discriminate. Qed.
  (** [if not self.writable(): raise] before the rest *)
  Lemma alw_guard {A} (p : bool -> prog bcmd A) d K : P d -> sclosed (last_line d) = false -> (forall K, alw P t (p true) (mkst d K)) ->
    alw P t (bind (with_lock LL Ex (c <- bop FClosed ;; Ret (negb c))) p) (mkst d K).
  Proof.
    intros H0 Ho Hp.
    assert (He : bexec FClosed d = (Good false, d)).
    { destruct d as [q [v pos cl]]. cbn in Ho |- *. rewrite Ho. reflexivity. }
    unfold with_lock. cbn [bind op]. apply alw_act; [exact H0| |]; cbn [exec dat lks].
    - intros x s' E. destruct (lock_acq (reent LL) t LL Ex K) as [r K']. injection E as _ <-. cbn [try_finally bind].
      apply alw_act; [exact H0| |]; cbn [exec dat lks cexec bsem]; rewrite He; intros y s' E; [|discriminate]. injection E as <- <-.
      cbn [try_finally bind negb]. unfold release. cbn [bind]. apply alw_act; [exact H0| |]; cbn [exec dat lks]; intros y s' E;
        destruct (lock_rel t LL K') as [r' K'']; injection E as _ <-; [apply Hp|apply alw_raise; exact H0].
    - intros e s' E. destruct (lock_acq (reent LL) t LL Ex K) as [r K']. injection E as _ <-. apply alw_raise. exact H0.
  Qed.
End Step.

Lemma be_trunc m q v pos : bexec FTruncate0 (holds m q v pos) = (Good tt, holds m q [] pos).
Proof. reflexivity. Qed.
Lemma be_seek0 m q v pos : bexec FSeek0 (holds m q v pos) = (Good tt, holds m q v 0).
Proof. reflexivity. Qed.
Lemma h_getvalue m q v pos : bexec FGetvalue (holds m q v pos) = (Good v, holds m q v pos).
Proof. reflexivity. Qed.
Lemma h_tell m q v pos : bexec FTell (holds m q v pos) = (Good pos, holds m q v pos).
Proof. reflexivity. Qed.
Lemma h_extend m q v l : length q <= m -> 1 <= m -> bexec (DExtend l) (holds m q v (length v)) = (Good tt, holds m (last_items m (q ++ l)) v (length v)).
Proof. intros H1 H2. apply be_extend; assumption. Qed.
Lemma h_write m q v s : bexec (FWrite s) (holds m q v (length v)) = (Good (length s), holds m q (v ++ s) (length (v ++ s))).
Proof. apply be_write. Qed.
Lemma holds_bd m q v : holds m q v (length v) = bd m q v false.
Proof. reflexivity. Qed.
Lemma holds_0 m q : holds m q [] 0 = bd m q [] false.
Proof. reflexivity. Qed.

(** ** write *)
Section Write.
  Variables (m : nat) (q : list item) (v data : text) (t : nat).
  Hypothesis Hm : 1 <= m.
  Hypothesis Hq : length q <= m.
  Notation P := (write_cut m q v data).

  Lemma wc ls r d : seg data = (ls, r) ->
    match ls with
    | [] => d = holds m q v (length v) \/ d = holds m q (v ++ r) (length (v ++ r))
    | l1 :: ls' =>
        let q' := last_items m (q ++ IStr (v ++ l1) :: map IStr ls') in
        d = holds m q v (length v) \/ d = holds m q' v (length v) \/ d = holds m q' v 0 \/
        d = holds m q' [] 0 \/ d = holds m q' r (length r)
    end -> P d.
  Proof. intros E H. exists ls, r. split; [apply segments_iff, E|exact H]. Qed.
  Lemma wc_start : P (holds m q v (length v)).
  Proof. destruct (seg data) as [[|l ls] r] eqn:E; eapply wc; eauto; cbn; auto. Qed.

  Lemma alw_body K : alw P t (lb_write_body lb_parse_lines data) (mkst (holds m q v (length v)) K).
  Proof.
    unfold lb_write_body, lb_write_body_gen, lb_parse_lines. cbv zeta beta. rewrite splitlines_single.
    destruct (single_break data) eqn:Es.
    - unfold single_break in Es. destruct (seg data) as [[|l ls] r] eqn:E; [discriminate|].
      destruct l; [|discriminate]. destruct ls; [|discriminate]. destruct r; [|discriminate].
      assert (Hw : forall d, let q' := last_items m (q ++ [IStr (v ++ [])]) in
        d = holds m q v (length v) \/ d = holds m q' v (length v) \/ d = holds m q' v 0 \/ d = holds m q' [] 0 \/ d = holds m q' [] 0 -> P d)
        by (intros d q' H; eapply wc; [exact E|exact H]).
      cbv zeta in Hw. rewrite app_nil_r in Hw.
      eapply alw_step; [auto 9|apply h_getvalue|]. eapply alw_step; [auto 9|apply h_extend; assumption|].
      eapply alw_step; [auto 9|apply be_seek0|]. eapply alw_step; [auto 9|apply be_trunc|]. apply alw_ret. auto 9.
    - rewrite is_end_seg, splitlines_seg. destruct (seg data) as [[|l ls] r] eqn:E.
      + assert (Hw : forall d, d = holds m q v (length v) \/ d = holds m q (v ++ r) (length (v ++ r)) -> P d) by (intros d H; eapply wc; [exact E|exact H]).
        cbn [fst snd opt_line app]. destruct r as [|c r]; cbn.
        * apply alw_ret. auto 9.
        * eapply (alw_last P t (FWrite (c :: r))); [auto 9| |apply h_write]. apply Hw. right. reflexivity.
      + assert (Hw : forall d, let q' := last_items m (q ++ IStr (v ++ l) :: map IStr ls) in
          d = holds m q v (length v) \/ d = holds m q' v (length v) \/ d = holds m q' v 0 \/ d = holds m q' [] 0 \/ d = holds m q' r (length r) -> P d)
          by (intros d q' H; eapply wc; [exact E|exact H]).
        cbv zeta in Hw.
        assert (Hgen : alw P t (bind (bop FGetvalue) (fun v => bind (bop (DExtend (map IStr
               (removelast ((v ++ hd [] ((l :: ls) ++ [r])) :: tl ((l :: ls) ++ [r]))))))
             (fun _ => bind (bop FSeek0) (fun _ => bind (bop FTruncate0) (fun _ =>
               bop (FWrite (last ((v ++ hd [] ((l :: ls) ++ [r])) :: tl ((l :: ls) ++ [r])) []))))))) (mkst (holds m q v (length v)) K)).
        { eapply alw_step; [auto 9|apply h_getvalue|]. change (hd [] ((l :: ls) ++ [r])) with l. change (tl ((l :: ls) ++ [r])) with (ls ++ [r]).
          rewrite removelast_cons_app, last_cons_app. cbn [map].
          eapply alw_step; [auto 9|apply h_extend; assumption|].
          eapply alw_step; [auto 9|apply be_seek0|]. eapply alw_step; [auto 9|apply be_trunc|].
          eapply (alw_last P t (FWrite r) (holds m _ [] (length (@nil N)))); [apply Hw; auto 9|apply Hw; auto 9|apply (h_write m _ [] r)]. }
        destruct r as [|c r].
        * simpl opt_line. rewrite app_nil_r. simpl fst.
          replace (1 <? length (l :: ls) + 1) with true by (symmetry; apply Nat.ltb_lt; simpl; lia). exact Hgen.
        * simpl opt_line. simpl fst.
          match goal with |- context [1 <? ?n] => replace (1 <? n) with true end.
          2: { symmetry; apply Nat.ltb_lt. rewrite app_length. simpl. lia. }
          exact Hgen.
  Qed.
  Lemma alw_lb_write K : alw P t (lb_write data) (mkst (holds m q v (length v)) K).
  Proof.
    unfold lb_write, lb_write_with, lb_write_gen. apply alw_guard; [apply wc_start|reflexivity|].
    intros K'. cbn [negb]. apply alw_with. apply alw_body.
  Qed.
  Lemma alw_write K : alw P t (lb_call (Write data)) (mkst (holds m q v (length v)) K).
  Proof. apply alw_ret_as, alw_lb_write. Qed.
End Write.

(** ** new_line *)
Lemma alw_lb_new_line m q v t K : 1 <= m -> length q <= m ->
  alw (fun d => d = holds m q v (length v) \/ (v <> [] /\ write_cut m q v [10%N] d)) t lb_new_line (mkst (holds m q v (length v)) K).
Proof.
  intros Hm Hq. unfold lb_new_line, lb_new_line_with, lb_new_line_gen. apply alw_with. intros K'.
  eapply alw_step; [auto 9|apply h_tell|]. cbv beta. destruct (Nat.ltb_spec 0 (length v)) as [Hv|Hv]; [|apply alw_ret; auto].
  assert (Hn : v <> []) by (destruct v; [simpl in Hv; lia|discriminate]).
  assert (H : alw (fun d => d = holds m q v (length v) \/ (v <> [] /\ write_cut m q v [10%N] d)) t (lb_write_body lb_parse_lines [LF]) (mkst (holds m q v (length v)) K')).
  { apply (alw_weaken (write_cut m q v [10%N])); [auto 9|]. apply alw_body; assumption. }
  apply alw_bind; [exact H|]. intros a s' E. apply alw_ret. pose proof (alw_end _ t _ _ H) as He. cbn [dat] in *.
  change (lb_write_body_gen (fun X (c : bcmd X) => c) lb_parse_lines [LF]) with (lb_write_body lb_parse_lines [LF]) in E. rewrite E in He. apply He. discriminate.
Qed.
Lemma alw_new_line m q v t K : 1 <= m -> length q <= m ->
  alw (fun d => d = holds m q v (length v) \/ (v <> [] /\ write_cut m q v [10%N] d)) t (lb_call NewLine) (mkst (holds m q v (length v)) K).
Proof. intros Hm Hq. apply alw_ret_as, alw_lb_new_line; assumption. Qed.

(** ** clear, close *)
Lemma alw_clear m q v t K : alw (clear_cut m q v) t lb_clear (mkst (holds m q v (length v)) K).
Proof.
  unfold clear_cut, lb_clear. apply alw_bind.
  - apply alw_with. intros K'. eapply alw_step; [auto 9|apply be_seek0|]. apply (alw_last _ t _ _ tt (holds m q [] 0)); [auto 9|auto 9|reflexivity].
  - intros a s' E. assert (Hd : dat s' = holds m q [] 0).
    { destruct s' as [d' k']. unfold with_lock in E. cbn [run] in E. destruct (exec t (Acq LL Ex) (mkst (holds m q v (length v)) K)) as [[[]|e|] [d1 k1]] eqn:Ea; try discriminate.
      cbn [exec dat lks] in Ea. destruct (lock_acq _ _ _ _ _) as [r0 k2]. injection Ea as -> <- <-.
      cbn in E. destruct (lock_rel t LL k2) as [[[]|e|] k3]; cbn in E; try discriminate. injection E as _ <- _. reflexivity. }
    destruct s' as [d' k']. cbn [dat] in Hd. subst d'. apply (alw_last _ t _ _ tt (holds m [] [] 0)); [auto 9|auto 9|reflexivity].
Qed.
Lemma alw_clear_call m q v t K : alw (clear_cut m q v) t (lb_call Clear) (mkst (holds m q v (length v)) K).
Proof. apply alw_ret_as, alw_clear. Qed.

Lemma run_clear_holds m q v pos t : run t lb_clear (mkst (holds m q v pos) ∅) = (Good tt, fresh m).
Proof.
  unfold lb_clear. rewrite run_bind. erewrite with_LL_run; [|apply lookup_empty|nolock_tac|reflexivity|discriminate]. reflexivity.
Qed.
Lemma alw_close m q v t : alw (fun d => clear_cut m q v d \/ d = mklbuf (mkdeque [] m) (mksio [] 0 true)) t (lb_call Close) (mkst (holds m q v (length v)) ∅).
Proof.
  set (P := fun d => _ \/ _). assert (P0 : P (holds m q v (length v))) by (left; left; reflexivity).
  apply alw_ret_as. unfold lb_close. apply alw_bind.
  - apply alw_with. intros K. apply (alw_last P t FClosed _ false (holds m q v (length v))); auto.
  - intros a s' E. erewrite with_LL_run in E; [|apply lookup_empty|nolock_tac|reflexivity|discriminate]. injection E as <- <-. apply alw_bind.
    + apply (alw_weaken (clear_cut m q v)); [unfold P; auto|]. apply (alw_clear m q v).
    + intros b s'' E. change (mklbuf _ _) with (holds m q v (length v)) in E. rewrite run_clear_holds in E. injection E as <- <-.
      apply alw_with. intros K. apply (alw_last P t FClose _ tt (mklbuf (mkdeque [] m) (mksio [] 0 true))); [left; unfold clear_cut; auto 9|right; reflexivity|reflexivity].
Qed.

(** ** read *)
Lemma rot_refl {A} (l : list A) : rotation l l.
Proof. exists [], l. rewrite app_nil_r. auto. Qed.
Lemma rot_step {A} (q l : list A) x : rotation q (x :: l) -> rotation q (l ++ [x]).
Proof.
  intros (a & b & -> & H). destruct b as [|y b]; cbn in H.
  - subst a. exists [x], l. rewrite app_nil_r. auto.
  - injection H as -> ->. exists (a ++ [y]), b. rewrite <- !app_assoc. auto.
Qed.
Section Read.
  Variables (m : nat) (v : text) (t : nat) (P : lbuf -> Prop) (q0 : list item).
  Hypothesis Hm : length q0 <= m.
  Hypothesis HP : forall q', turned q0 q' -> P (bd m q' v false).

  Lemma alw_loop n : forall acc cur K, rotation q0 cur -> alw P t (lb_read_loop n acc) (mkst (bd m cur v false) K).
  Proof.
    induction n as [|n IH]; intros acc cur K Hr; cbn [lb_read_loop]; [apply alw_ret, HP; left; exact Hr|].
    destruct cur as [|x cur].
    - cbn [bind op]. apply alw_act; [apply HP; left; exact Hr|cbn; discriminate|].
      cbn. intros e s' E. injection E as _ <-. apply alw_raise, HP. left. exact Hr.
    - eapply alw_step; [apply HP; left; exact Hr|apply be_popleft|]. eapply alw_step; [apply HP; right; eauto| |].
      + apply be_append. destruct Hr as (a & b & -> & Hl). apply (f_equal (@length item)) in Hl. rewrite app_length in *. simpl in Hl. lia.
      + apply IH. apply rot_step, Hr.
  Qed.
  Lemma alw_rotate_loop {A} n (k : list item -> prog bcmd A) K : n <= length q0 ->
    (forall l, alw P t (k l) (mkst (bd m q0 v false) K)) ->
    alw P t (bind (if 0 <? n then bop (DRotate n) else Ret tt) (fun _ => bind (lb_read_loop n []) k)) (mkst (bd m q0 v false) K).
  Proof.
    intros Hn Hk. assert (HP0 : P (bd m q0 v false)) by (apply HP; left; apply rot_refl).
    destruct (Nat.ltb_spec 0 n) as [H0|H0]; [|replace n with 0 by lia; cbn [bind lb_read_loop]; apply Hk].
    eapply alw_step; [exact HP0|apply be_rotate; lia|]. cbv beta.
    assert (Hr : rotation q0 (skipn (length q0 - n) q0 ++ firstn (length q0 - n) q0)).
    { exists (firstn (length q0 - n) q0), (skipn (length q0 - n) q0). rewrite firstn_skipn. auto. }
    apply alw_bind_nl; [apply nolock_read_loop|apply alw_loop, Hr|]. intros l d' E. rewrite srun_nolock in E by apply nolock_read_loop.
    rewrite read_loop_run in E.
    - injection E as _ <-. rewrite firstn_skipn. apply Hk.
    - rewrite skipn_length. lia.
    - rewrite app_length, skipn_length, firstn_length. lia.
  Qed.
End Read.
Section ReadCall.
  Variables (m : nat) (q : list item) (v : text) (t : nat).
  Hypothesis Hm : 1 <= m.
  Hypothesis Hq : length q <= m.
  Notation P := (read_cut m q v).
  Lemma rc_turned q' : turned q q' -> P (bd m q' v false).
  Proof. intros H. exists q'. split; [reflexivity|]. auto. Qed.
  Lemma rc_start : P (bd m q v false).
  Proof. apply rc_turned. left. apply rot_refl. Qed.
  Lemma rc_rest x rest q' : v <> [] -> q = x :: rest -> length q = m -> turned rest q' -> P (bd m q' v false).
  Proof. intros H1 H2 H3 H4. exists q'. split; [reflexivity|]. right. eauto 7. Qed.
  Lemma alw_read_all K : alw P t lb_read_all (mkst (bd m q v false) K).
  Proof.
    pose proof rc_start as P0. unfold lb_read_all. eapply alw_step; [exact P0|apply be_tell|]. eapply alw_step; [exact P0|apply be_len|].
    destruct (Nat.ltb_spec 0 (length v)) as [Hv|Hv].
    - assert (Hn : v <> []) by (destruct v; [simpl in Hv; lia|discriminate]).
      eapply alw_step; [exact P0|apply be_maxlen|]. replace (m =? 0) with false by (symmetry; apply Nat.eqb_neq; lia). cbn [negb andb].
      destruct (Nat.eqb_spec (length q) m) as [He|He].
      + destruct q as [|x rest] eqn:Eq; [simpl in He; lia|]. assert (P1 : read_cut m (x :: rest) v (bd m rest v false)).
        { exists rest. split; [reflexivity|]. right. split; [exact Hn|]. split; [exact He|]. exists x, rest. split; [reflexivity|]. left. apply rot_refl. }
        eapply alw_step; [exact P0|apply be_popleft|]. eapply alw_step; [exact P1|apply be_items|]. eapply alw_step; [exact P1|apply be_getvalue|].
        eapply alw_step; [exact P1|apply be_appendleft; simpl in He; lia|]. apply alw_ret. exact P0.
      + destruct (0 <? length q).
        * eapply alw_step; [exact P0|apply be_items|]. eapply alw_step; [exact P0|apply be_getvalue|]. apply alw_ret. exact P0.
        * eapply alw_step; [exact P0|apply be_getvalue|]. apply alw_ret. exact P0.
    - eapply alw_last; [exact P0|exact P0|apply be_items].
  Qed.
  Lemma alw_read_n n K : 1 <= n -> alw P t (lb_read_n n) (mkst (bd m q v false) K).
  Proof.
    intros Hn1. pose proof rc_start as P0. unfold lb_read_n. eapply alw_step; [exact P0|apply be_tell|]. eapply alw_step; [exact P0|apply be_len|].
    eapply alw_step; [exact P0|apply be_maxlen|]. replace (m =? 0) with false by (symmetry; apply Nat.eqb_neq; lia). cbn [negb andb]. rewrite andb_true_r.
    destruct (Nat.ltb_spec 0 (length v)) as [Hv|Hv]; cbn [andb].
    - assert (Hn : v <> []) by (destruct v; [simpl in Hv; lia|discriminate]).
      destruct (Nat.eqb_spec (length q) m) as [He|He].
      + destruct q as [|x rest] eqn:Eq; [simpl in He; lia|]. simpl in He.
        assert (PR : forall q', turned rest q' -> read_cut m (x :: rest) v (bd m q' v false)).
        { intros q' H. exists q'. split; [reflexivity|]. right. split; [exact Hn|]. split; [simpl; lia|]. eauto. }
        assert (P1 : read_cut m (x :: rest) v (bd m rest v false)) by (apply PR; left; apply rot_refl).
        eapply alw_step2; [exact P0|apply be_popleft|]. cbn [bind]. cbv zeta.
        replace (length (x :: rest) - 1) with (length rest) by (simpl; lia).
        apply (alw_rotate_loop m v t _ rest); [lia|exact PR|lia|]. intros l.
        eapply alw_step; [exact P1|apply be_getvalue|]. eapply alw_step; [exact P1|apply be_appendleft; lia|]. apply alw_ret. exact P0.
      + cbn [bind]. apply (alw_rotate_loop m v t _ q); [exact Hq|exact rc_turned|lia|]. intros l.
        eapply alw_step; [exact P0|apply be_getvalue|]. apply alw_ret. exact P0.
    - cbn [bind]. apply (alw_rotate_loop m v t _ q); [exact Hq|exact rc_turned|lia|]. intros l. apply alw_ret. exact P0.
  Qed.
  Lemma alw_lb_read size K : alw P t (lb_read size) (mkst (bd m q v false) K).
  Proof.
    unfold lb_read, lb_readable. apply alw_guard; [apply rc_start|reflexivity|]. intros K'. cbn [negb]. apply alw_with. intros K''.
    destruct size as [z|]; [|apply alw_read_all]. destruct (Z.ltb_spec 0 z); [apply alw_read_n; lia|apply alw_ret, rc_start].
  Qed.
  Lemma alw_read size K : alw P t (lb_call (Read size)) (mkst (bd m q v false) K).
  Proof. apply alw_ret_as, alw_lb_read. Qed.
End ReadCall.
