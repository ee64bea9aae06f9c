(** * OverrideProofs: lemmas for C15 *)
From stdpp Require Import gmap.
From Coq Require Import List NArith ZArith Bool Arith Lia.
From Verif Require Import PyStr Prog ProgFacts PyIO Base Spec SpecFacts LineBuf LineBufSpec
  LineBufFacts LineBufProofs Override.
Import ListNotations.
Local Open Scope nat_scope.

Section U.
  Context {E : Type -> Type} {U : Type} `{!Sem E U}.
  Implicit Types (d : udata U).

  Definition file_of d : sio := last_line (ub d).
  Definition set_file (f : sio) d : udata U :=
    mkudata (mklbuf (storage (ub d)) f) (uu d) (ucalls d).

  (** The override uses no lock, and either returns or raises, leaving the current line
      and (trivially) the ghost log alone. *)
  Definition polite (ov : list item -> prog (ucmd E) unit) : Prop :=
    forall lines, nolock (ov lines) /\
      forall d, fst (drun (ov lines) d) <> Block /\
        last_line (ub (snd (drun (ov lines) d))) = last_line (ub d) /\
        ucalls (snd (drun (ov lines) d)) = ucalls d.

  Variable ov : list item -> prog (ucmd E) unit.
  Hypothesis Hov : polite ov.

  Notation uop c := (@op (ucmd E) _ (UB c)).

  Lemma nolock_user_parse l : nolock (user_parse ov l).
  Proof. apply nolock_bind; [apply nolock_op|]. intros _. apply Hov. Qed.

  Lemma nolock_user_body data : nolock (@lb_write_body_gen (ucmd E) (fun _ => UB) (user_parse ov) data).
  Proof.
    unfold lb_write_body_gen. cbv zeta.
    destruct (_ && _)%bool; [|destruct (is_end_line_break data);
      (destruct (1 <? _); [|destruct (_ =? 1)])];
      repeat first [apply nolock_user_parse | apply nolock_bind; [|intros ?] | apply nolock_op | constructor].
  Qed.

  (** The simple form of __write. *)
  Definition user_simple (data : text) : prog (ucmd E) nat :=
    match seg data with
    | ([], []) => Ret 0
    | ([], r) => uop (FWrite r)
    | (l :: ls, r) =>
        if single_break data then
          bind (uop FGetvalue) (fun v => bind (user_parse ov [IStr v]) (fun _ =>
          bind (uop FSeek0) (fun _ => bind (uop FTruncate0) (fun _ => Ret 1))))
        else
          bind (uop FGetvalue) (fun v =>
          bind (user_parse ov (IStr (v ++ l) :: map IStr ls)) (fun _ =>
          bind (uop FSeek0) (fun _ => bind (uop FTruncate0) (fun _ => uop (FWrite r)))))
    end.

  Lemma user_body_simple data d :
    drun (@lb_write_body_gen (ucmd E) (fun _ => UB) (user_parse ov) data) d = drun (user_simple data) d.
  Proof.
    unfold lb_write_body_gen. cbv zeta beta. rewrite splitlines_single. unfold user_simple.
    destruct (single_break data) eqn:Es.
    - unfold single_break in Es. destruct (seg data) as [[|l ls] r] eqn:Eg; [discriminate|].
      reflexivity.
    - rewrite is_end_seg, splitlines_seg. destruct (seg data) as [[|l ls] r] eqn:Eg.
      + simpl. destruct r as [|c r]; [reflexivity|]. reflexivity.
      + assert (Hgen : forall x,
          drun (bind (uop FGetvalue) (fun v => bind (user_parse ov (map IStr
                 (removelast ((v ++ hd [] ((l :: ls) ++ [x])) :: tl ((l :: ls) ++ [x])))))
               (fun _ => bind (uop FSeek0) (fun _ => bind (uop FTruncate0) (fun _ =>
                 uop (FWrite (last ((v ++ hd [] ((l :: ls) ++ [x])) :: tl ((l :: ls) ++ [x])) []))))))) d
          = drun (bind (uop FGetvalue) (fun v => bind (user_parse ov (IStr (v ++ l) :: map IStr ls))
               (fun _ => bind (uop FSeek0) (fun _ => bind (uop FTruncate0) (fun _ =>
                 uop (FWrite x)))))) d).
        { intros x. rewrite !drun_bind. destruct (drun (uop FGetvalue) d) as [[v|e|] d']; auto.
          change (hd [] ((l :: ls) ++ [x])) with l. change (tl ((l :: ls) ++ [x])) with (ls ++ [x]).
          rewrite removelast_cons_app, last_cons_app. reflexivity. }
        destruct r as [|c r].
        * simpl opt_line. rewrite app_nil_r. simpl fst.
          replace (1 <? length (l :: ls) + 1) with true
            by (symmetry; apply Nat.ltb_lt; simpl; lia).
          apply Hgen.
        * simpl opt_line. simpl fst.
          match goal with |- context [1 <? ?n] => replace (1 <? n) with true end.
          2: { symmetry; apply Nat.ltb_lt. rewrite app_length. simpl. lia. }
          apply Hgen.
  Qed.

  (** Effect of the body on a state whose current line is [v]. *)
  Lemma drun_uop {X} (c : bcmd X) d :
    drun (uop c) d = (fst (bexec c (ub d)), mkudata (snd (bexec c (ub d))) (uu d) (ucalls d)).
  Proof. simpl. destruct (bexec c (ub d)) as [[x|e|] b]; reflexivity. Qed.

  Lemma user_reset {A} d v (k : prog (ucmd E) A) : last_line (ub d) = fl v false ->
    drun (bind (uop FSeek0) (fun _ => bind (uop FTruncate0) (fun _ => k))) d =
    drun k (set_file (fl [] false) d).
  Proof. destruct d as [[q f] u c]. simpl. intros ->. reflexivity. Qed.

  Lemma user_body_run data d v : last_line (ub d) = fl v false ->
    let lines := wlines v data in
    match lines with
    | [] => drun (@lb_write_body_gen (ucmd E) (fun _ => UB) (user_parse ov) data) d =
              (Good (wres data), set_file (fl (wtail v data) false) d)
    | _ => let '(r, d1) := drun (user_parse ov lines) d in
           drun (@lb_write_body_gen (ucmd E) (fun _ => UB) (user_parse ov) data) d =
           match r with
           | Good _ => (Good (wres data), set_file (fl (wtail v data) false) d1)
           | Fail e => (Fail e, d1)
           | Block => (Block, d1)
           end
    end.
  Proof.
    intros Hv. cbv zeta. rewrite user_body_simple. unfold user_simple, wlines, wtail, wres.
    destruct (seg data) as [[|l ls] r] eqn:Eg.
    - assert (Hs : single_break data = false) by (unfold single_break; rewrite Eg; reflexivity).
      rewrite Hs. destruct d as [[q f] u c]. simpl in Hv. subst f. unfold set_file. simpl storage.
      destruct r as [|c0 r].
      + rewrite app_nil_r. reflexivity.
      + rewrite drun_uop. simpl ub. cbn [bexec]. unfold on_file. cbn [last_line].
        rewrite sio_write_end. reflexivity.
    - destruct (single_break data) eqn:Es.
      + unfold single_break in Es. rewrite Eg in Es.
        destruct l; [|discriminate]. destruct ls; [|discriminate]. destruct r; [|discriminate].
        rewrite app_nil_r. simpl map.
        destruct (drun (user_parse ov [IStr v]) d) as [r d1] eqn:Ep.
        rewrite drun_bind, drun_uop. cbn [bexec]. unfold on_file. rewrite Hv.
        destruct d as [[q f] u c]. simpl in Hv. subst f.
        change (sio_getvalue (fl v false)) with (@Good text v, fl v false). cbv beta iota. simpl storage.
        cbn [fst snd uu ucalls]. rewrite drun_bind.
        assert (Ep' : drun (user_parse ov [IStr v]) (mkudata {| storage := q; last_line := fl v false |} u c) = (r, d1))
          by exact Ep.
        rewrite Ep'. destruct r as [x|e|]; try reflexivity.
        rewrite (user_reset d1 v).
        * reflexivity.
        * simpl in Ep. destruct (Hov [IStr v]) as [_ Hd].
          destruct (Hd (mkudata {| storage := q; last_line := fl v false |} u (c ++ [[IStr v]]))) as (_ & H2 & _).
          rewrite Ep in H2. exact H2.
      + destruct (drun (user_parse ov (IStr (v ++ l) :: map IStr ls)) d) as [r0 d1] eqn:Ep.
        rewrite drun_bind, drun_uop. cbn [bexec]. unfold on_file. rewrite Hv.
        destruct d as [[q f] u c]. simpl in Hv. subst f. 
        change (sio_getvalue (fl v false)) with (@Good text v, fl v false). cbv beta iota. simpl storage.
        cbn [fst snd uu ucalls]. rewrite drun_bind.
        assert (Ep' : drun (user_parse ov (IStr (v ++ l) :: map IStr ls)) (mkudata {| storage := q; last_line := fl v false |} u c) = (r0, d1))
          by exact Ep.
        rewrite Ep'. destruct r0 as [x|e|]; try reflexivity.
        rewrite (user_reset d1 v).
        * rewrite drun_uop. unfold set_file. simpl ub. cbn [bexec]. unfold on_file. cbn [last_line].
          rewrite sio_write_end. reflexivity.
        * simpl in Ep. destruct (Hov (IStr (v ++ l) :: map IStr ls)) as [_ Hd].
          destruct (Hd (mkudata {| storage := q; last_line := fl v false |} u (c ++ [IStr (v ++ l) :: map IStr ls]))) as (_ & H2 & _).
          rewrite Ep in H2. exact H2.
  Qed.

  Lemma user_parse_run lines d :
    drun (user_parse ov lines) d = drun (ov lines) (mkudata (ub d) (uu d) (ucalls d ++ [lines])).
  Proof. unfold user_parse. rewrite drun_bind. destruct d as [b u c]. reflexivity. Qed.

  Lemma user_write_run t data d v : last_line (ub d) = fl v false ->
    run t (user_write ov data) (mkst d stdpp.base.empty) =
    (fst (drun (@lb_write_body_gen (ucmd E) (fun _ => UB) (user_parse ov) data) d),
     mkst (snd (drun (@lb_write_body_gen (ucmd E) (fun _ => UB) (user_parse ov) data) d)) stdpp.base.empty).
  Proof.
    intros Hv. unfold user_write, lb_write_gen. rewrite run_bind.
    rewrite run_with_lock; [|apply lookup_empty| |]; cycle 1.
    { constructor; intros; constructor. }
    { unfold nonblock. simpl. destruct d as [[q f] u c]. simpl. discriminate. }
    destruct d as [[q f] u c]. simpl in Hv. subst f. simpl fst. simpl snd. cbv beta iota.
    simpl negb. cbv iota.
    rewrite run_with_lock; [reflexivity|apply lookup_empty|apply nolock_user_body|].
    unfold nonblock. simpl dat. set (d := mkudata _ u c).
    pose proof (user_body_run data d v eq_refl) as H. cbv zeta in H.
    destruct (wlines v data) as [|i is] eqn:Ew.
    - rewrite H. discriminate.
    - pose proof (user_parse_run (i :: is) d) as Hp.
      destruct (Hov (i :: is)) as [_ Hd]. specialize (Hd (mkudata (ub d) (uu d) (ucalls d ++ [i :: is]))).
      rewrite <- Hp in Hd. destruct (drun (user_parse ov (i :: is)) d) as [[x|e|] d1];
        rewrite H; simpl; try discriminate. destruct Hd as [Hd _]. exfalso. apply Hd. reflexivity.
  Qed.

  Hypothesis Hok : forall lines d, fst (drun (ov lines) d) = Good tt.

  Lemma user_write_calls t data d v : last_line (ub d) = fl v false ->
    exists d', run t (user_write ov data) (mkst d stdpp.base.empty) =
      (Good (wres data), mkst d' stdpp.base.empty) /\
      last_line (ub d') = fl (wtail v data) false /\
      ucalls d' = ucalls d ++ match wlines v data with [] => [] | l => [l] end.
  Proof.
    intros Hv. rewrite (user_write_run t data d v Hv).
    pose proof (user_body_run data d v Hv) as H. cbv zeta in H.
    destruct (wlines v data) as [|i is] eqn:Ew.
    - rewrite H. eexists. split; [reflexivity|]. split; [reflexivity|]. simpl. rewrite app_nil_r. reflexivity.
    - pose proof (user_parse_run (i :: is) d) as Hp.
      destruct (Hov (i :: is)) as [_ Hd]. specialize (Hd (mkudata (ub d) (uu d) (ucalls d ++ [i :: is]))).
      pose proof (Hok (i :: is) (mkudata (ub d) (uu d) (ucalls d ++ [i :: is]))) as Hg.
      rewrite <- Hp in Hd, Hg. destruct (drun (user_parse ov (i :: is)) d) as [r d1].
      simpl in Hg. subst r. rewrite H. simpl. eexists. split; [reflexivity|].
      split; [reflexivity|]. simpl. destruct Hd as (_ & _ & Hd). exact Hd.
  Qed.

  Lemma c15_gen texts : forall d g, last_line (ub d) = fl (pend g) false ->
    concat (ucalls d) = done g ->
    let s := user_writes ov texts (mkst d stdpp.base.empty) in
    let g' := gsteps (map (fun p => SWrite (snd p)) texts) g in
    concat (ucalls (dat s)) = done g' /\ last_line (ub (dat s)) = fl (pend g') false.
  Proof.
    induction texts as [|[t x] ts IH]; intros d g Hv Hc; [split; assumption|].
    cbv zeta. cbn [user_writes]. destruct (user_write_calls t x d (pend g) Hv) as (d' & -> & Hv' & Hc').
    simpl snd. apply (IH d' (gwrite x g)); [exact Hv'|].
    rewrite Hc', concat_app, Hc. unfold gwrite. simpl.
    destruct (wlines (pend g) x); simpl; rewrite ?app_nil_r; reflexivity.
  Qed.
End U.

Lemma c15 {E U} `{!Sem E U} (ov : list item -> prog (ucmd E) unit) :
  (forall lines, nolock (ov lines) /\
     forall d, exists d', drun (ov lines) d = (Good tt, d') /\
       last_line (ub d') = last_line (ub d) /\ ucalls d' = ucalls d) ->
  forall m u texts g,
  log_steps (map (fun p => SWrite (snd p)) texts) slog0 g ->
  let s := user_writes ov texts (mkst (mkudata (mklbuf (dq_new m) sio_new) u []) stdpp.base.empty) in
  concat (ucalls (dat s)) = done g /\ sval (last_line (ub (dat s))) = pend g /\
  Forall (fun b => b <> []) (ucalls (dat s)).
Proof.
  intros H m u texts g Hg s. apply log_steps_fun in Hg.
  assert (Hp : polite ov).
  { intros lines. destruct (H lines) as [H1 H2]. split; [exact H1|]. intros d.
    destruct (H2 d) as (d' & -> & H3 & H4). simpl. repeat split; [discriminate|exact H3|exact H4]. }
  assert (Hok : forall lines d, fst (drun (ov lines) d) = Good tt).
  { intros lines d. destruct (H lines) as [_ H2]. destruct (H2 d) as (d' & -> & _). reflexivity. }
  pose proof (c15_gen ov Hp Hok texts (mkudata (mklbuf (dq_new m) sio_new) u []) slog0 eq_refl eq_refl)
    as [H1 H2].
  subst g s. split; [exact H1|]. split; [rewrite H2; reflexivity|].
  clear H1 H2. generalize (@eq_refl _ (fl [] false)).
  change (fl [] false) with (last_line (ub (mkudata (mklbuf (dq_new m) sio_new) u [])) ) at 1.
  assert (H0 : Forall (fun b : list item => b <> [])
     (ucalls (mkudata (mklbuf (dq_new m) sio_new) u []))) by constructor.
  revert H0. generalize (mkudata (mklbuf (dq_new m) sio_new) u []). generalize (@nil N).
  induction texts as [|[t x] ts IH]; intros v d H0 Hv; [exact H0|].
  cbn [user_writes]. destruct (user_write_calls ov Hp Hok t x d v Hv) as (d' & -> & Hv' & Hc').
  simpl snd. apply (IH (wtail v x) d'); [|exact Hv'].
  rewrite Hc'. apply Forall_app. split; [exact H0|].
  destruct (wlines v x); constructor; [discriminate|constructor].
Qed.

(** An override that raises: the write raises the same exception, the lock is free again
    and the current line still holds its text. *)
Lemma c15_raise {E U} `{!Sem E U} (ov : list item -> prog (ucmd E) unit) e :
  (forall lines, nolock (ov lines) /\
     forall d, exists d', drun (ov lines) d = (Fail e, d') /\
       last_line (ub d') = last_line (ub d) /\ ucalls d' = ucalls d) ->
  forall t data d v, last_line (ub d) = mksio v (length v) false ->
  (exists l ls r, segments data (l :: ls) r) ->
  exists d', run t (user_write ov data) (mkst d stdpp.base.empty) =
    (Fail e, mkst d' stdpp.base.empty) /\ last_line (ub d') = last_line (ub d).
Proof.
  intros H t data d v Hv (l & ls & r & Hs). apply segments_seg in Hs.
  assert (Hp : polite ov).
  { intros lines. destruct (H lines) as [H1 H2]. split; [exact H1|]. intros d0.
    destruct (H2 d0) as (d' & -> & H3 & H4). simpl. repeat split; [discriminate|exact H3|exact H4]. }
  rewrite (user_write_run ov Hp t data d v Hv).
  pose proof (user_body_run ov Hp data d v Hv) as Hb. cbv zeta in Hb. unfold wlines in Hb.
  rewrite Hs in Hb. rewrite user_parse_run in Hb.
  destruct (H (IStr (v ++ l) :: map IStr ls)) as [_ H2].
  destruct (H2 (mkudata (ub d) (uu d) (ucalls d ++ [IStr (v ++ l) :: map IStr ls]))) as (d' & Hd & H3 & _).
  rewrite Hd in Hb. rewrite Hb. eexists. split; [reflexivity|]. exact H3.
Qed.

Lemma locking_blocks c t d k : locking c = true -> k !! LL = Some (Excl t 1) ->
  run t (lb_call c) (mkst d k) = (Block, mkst d k).
Proof.
  intros H Hk. destruct c; try discriminate; cbn; unfold lock_acq; rewrite Hk; reflexivity.
Qed.

Lemma run_try_block {C D} `{!Sem C D} {A} t (p : prog C A) fin s s' :
  run t p s = (Block, s') -> run t (try_finally p fin) s = (Block, s').
Proof. intros H. rewrite run_try_finally, H. reflexivity. Qed.

Lemma c15_deadlock c t data m q v : locking c = true -> 1 <= m -> length q <= m ->
  (exists l ls r, segments data (l :: ls) r) ->
  exists d, run t (lb_write_with (fun _ => bind (lb_call c) (fun _ => Ret tt)) data)
                (mkst (mklbuf (mkdeque q m) (mksio v (length v) false)) stdpp.base.empty) =
            (Block, mkst d {[ LL := Excl t 1 ]}).
Proof.
  intros Hc Hm Hq (l & ls & r & Hs). apply segments_seg in Hs.
  change (mklbuf (mkdeque q m) (mksio v (length v) false)) with (bd m q v false).
  exists (bd m q v false).
  unfold lb_write_with, lb_write_gen. fold lb_writable. rewrite run_bind, run_writable by apply empty_LL.
  cbv beta iota. simpl negb. cbv iota.
  unfold with_lock. cbn [run exec]. unfold lock_acq. cbn [lks dat]. rewrite lookup_empty. cbv beta iota.
  apply run_try_block. rewrite insert_empty.
  assert (Hgen : forall (f : text -> list item) (k : prog bcmd nat),
    run t (bind (bop FGetvalue) (fun v => bind ((fun _ => bind (lb_call c) (fun _ => Ret tt)) (f v)) (fun _ => k)))
      (mkst (bd m q v false) {[LL := Excl t 1]}) = (Block, mkst (bd m q v false) {[LL := Excl t 1]})).
  { intros f k. rewrite run_bind, run_op. cbn [dat lks]. cbn [cexec bsem]. rewrite be_getvalue. cbn [fst snd].
    rewrite run_bind, run_bind. rewrite locking_blocks; [reflexivity|assumption|]. apply lookup_singleton. }
  unfold lb_write_body_gen. cbv zeta. rewrite splitlines_single.
  destruct (single_break data) eqn:Es.
  { apply (Hgen (fun _ => [])). }
  rewrite is_end_seg, splitlines_seg, Hs.
  destruct r as [|c0 r].
  - replace (1 <? _) with true; [|symmetry; apply Nat.ltb_lt; simpl; rewrite app_nil_r; lia].
    rewrite run_bind, run_op. cbn [dat lks]. cbn [cexec bsem]. rewrite be_getvalue. cbn [fst snd].
    rewrite run_bind, run_bind. rewrite locking_blocks; [reflexivity|assumption|]. apply lookup_singleton.
  - replace (1 <? _) with true; [|symmetry; apply Nat.ltb_lt; simpl; rewrite app_length; simpl; lia].
    rewrite run_bind, run_op. cbn [dat lks]. cbn [cexec bsem]. rewrite be_getvalue. cbn [fst snd].
    rewrite run_bind, run_bind. rewrite locking_blocks; [reflexivity|assumption|]. apply lookup_singleton.
Qed.
