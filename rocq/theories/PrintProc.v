(** * PrintProc: printing into a LineProcMirror and into LineBuffers *)
From stdpp Require Import gmap relations.
From Coq Require Import List NArith ZArith Bool Arith Lia.
From Verif Require Import PyStr Prog ProgFacts PyIO Base Spec SpecFacts LineBuf LineBufFacts LineBufSpec LineBufProofs Locks Held
  Proc ProcSpec ProcFacts ProcMain ProcSeq ProcProofs ProcTransp Ctx CtxProofs Print PrintSpec PrintProofs.
From Verif Require HostSpec HostProofs.
Import ListNotations.
Local Open Scope nat_scope.

(** ** LineProcMirror *)

Lemma has_break_no data : has_break data = false <-> no_break data.
Proof.
  split; [apply ProcTransp.has_break_no|]. intros H. unfold has_break. rewrite (no_break_seg data H). reflexivity.
Qed.
Lemma has_break_yes data : has_break data = true <-> ~ no_break data.
Proof. rewrite <- has_break_no. destruct (has_break data); split; congruence. Qed.

Lemma sent_by_app v ts1 ds1 v1 ts2 ds2 v2 :
  sent_by v ts1 ds1 v1 -> sent_by v1 ts2 ds2 v2 -> sent_by v (ts1 ++ ts2) (ds1 ++ ds2) v2.
Proof. induction 1; intros H2; cbn; [exact H2|apply sb_hold; auto|apply sb_send; auto]. Qed.

Lemma sent_by_concat v ts ds v' : sent_by v ts ds v' -> concat ds ++ v' = v ++ concat ts.
Proof.
  induction 1; cbn.
  - rewrite app_nil_r. reflexivity.
  - rewrite IHsent_by, <- app_assoc. reflexivity.
  - rewrite <- !app_assoc, IHsent_by. reflexivity.
Qed.
Lemma sent_by_total ts : forall v, exists ds v', sent_by v ts ds v'.
Proof.
  induction ts as [|t ts IH]; intros v; [eexists _, _; constructor|].
  destruct (has_break t) eqn:E.
  - destruct (IH []) as (ds & v' & H). eexists _, _. apply sb_send; [apply has_break_yes, E|exact H].
  - destruct (IH (v ++ t)) as (ds & v' & H). eexists _, _. apply sb_hold; [apply has_break_no, E|exact H].
Qed.

(** Ready: reachable, open, collecting lines, unbounded queue. *)
Definition ready (d : menv) : Prop :=
  mreach d /\ is_closed (e_mir d) = false /\ m_aggr (e_mir d) = false /\ e_qmax d = 0.

Lemma mreach_call t c r d d' : mreach d -> run t (lm_call c) (idle d) = (r, idle d') -> r <> Block -> mreach d'.
Proof.
  intros (id & q & ag & to & has & qu & qm & st & H) Hr Hb. exists id, q, ag, to, has, qu, qm, st.
  eapply rtc_r; [exact H|]. eapply ms_call; eassumption.
Qed.
Lemma run_as_write t data d r d' : run t (lm_write data) (idle d) = (r, idle d') -> r <> Block ->
  exists r', run t (lm_call (CWrite data)) (idle d) = (r', idle d') /\ r' <> Block.
Proof.
  intros H Hb. cbn [lm_call]. unfold mret. rewrite run_bind, H. destruct r; [|eexists; split; [reflexivity|discriminate]|congruence].
  eexists. split; [reflexivity|discriminate].
Qed.

Lemma write_ready d data : ready d -> stop_seen d = false ->
  exists n d', on (lm_write data) d = (Good n, d') /\ ready d' /\ stop_seen d' = false /\
    sent_by (held (e_mir d)) [data] (map (fun _ => held (e_mir d) ++ data) (if has_break data then [tt] else [])) (held (e_mir d')) /\
    e_q d' = e_q d ++ (if has_break data then [QStr (held (e_mir d) ++ data)] else []) /\
    m_has (e_mir d') = m_has (e_mir d) /\ e_state d' = e_state d.
Proof.
  intros (Hd & Hc & Hag & Hq) Hs. destruct (mreach_inv d Hd) as (b & a & E & Ha). unfold on.
  assert (Hx : xwrite (e_qmax d) (stopped_of (e_state d) b) data a (e_q d) =
     (Good (length data), mkam (if has_break data then [] else mv a ++ data) (mc a) (mag a) (mto a),
      e_q d ++ if has_break data then [QStr (mv a ++ data)] else [])).
  { rewrite E in Hc, Hs, Hag. cbn [e_mir e_q e_qmax e_state] in *. rewrite mk_closed in Hc. rewrite stop_seen_mk in Hs.
    change (m_aggr (mk b a)) with (mag a) in Hag.
    unfold xwrite, xbody. rewrite Hc, Hs, Hag, Hq. destruct (has_break data); [|rewrite app_nil_r; reflexivity].
    unfold xput, q_full. reflexivity. }
  pose proof (hok_runs 0 _ _ _ _ (hok_write _ _ _ b _ _ _ _ _ Hx) ltac:(discriminate)) as Hr.
  rewrite <- E in Hr. rewrite Hr. cbn [dat].
  destruct (run_as_write _ _ _ _ _ Hr ltac:(discriminate)) as (r' & Hr' & Hb').
  eexists _, _. split; [reflexivity|]. split.
  { split; [eapply mreach_call; eassumption|]. rewrite E in Hc, Hag. cbn [e_mir e_qmax e_state] in *.
    rewrite mk_closed in *. cbn [mc]. split; [exact Hc|]. split; [exact Hag|exact Hq]. }
  rewrite E in *. cbn [e_mir e_q e_qmax e_state] in *. rewrite !stop_seen_mk in *.
  assert (Hst : stopped_of (e_state d) (il b) = stopped_of (e_state d) b) by (unfold stopped_of; rewrite has_il; reflexivity).
  rewrite Hst. split; [exact Hs|]. rewrite !mk_held. cbn [mv]. split.
  { destruct (has_break data) eqn:Eb; cbn [map].
    - apply sb_send; [apply has_break_yes, Eb|constructor].
    - apply sb_hold; [apply has_break_no, Eb|constructor]. }
  split; [reflexivity|]. split; [|reflexivity]. unfold mk. cbn. apply has_il.
Qed.

(** What the writes have done so far. *)
Definition did (d0 : menv) (ts : list text) (d : menv) : Prop :=
  ready d /\ stop_seen d = false /\ m_has (e_mir d) = m_has (e_mir d0) /\ e_state d = e_state d0 /\
  exists ds, sent_by (held (e_mir d0)) ts ds (held (e_mir d)) /\ e_q d = e_q d0 ++ map QStr ds.

Lemma did_nil d : mreach d -> is_closed (e_mir d) = false -> m_aggr (e_mir d) = false -> e_qmax d = 0 -> stop_seen d = false ->
  did d [] d.
Proof.
  intros. split; [repeat split; assumption|]. split; [assumption|]. split; [reflexivity|]. split; [reflexivity|].
  exists []. split; [constructor|]. rewrite app_nil_r. reflexivity.
Qed.
Lemma did_write d0 ts d data : did d0 ts d -> True ->
  exists n d1, on (lm_write data) d = (Good n, d1) /\ did d0 (ts ++ [data]) d1.
Proof.
  intros (Hr & Hs & Hh & He & ds & Hd & Hq) _. destruct (write_ready d data Hr Hs) as (n & d1 & E & H1 & H2 & H3 & H4 & H5 & H6).
  exists n, d1. split; [exact E|]. split; [exact H1|]. split; [exact H2|]. split; [congruence|]. split; [congruence|].
  eexists. split; [eapply sent_by_app; eassumption|]. rewrite H4, Hq, map_app, <- app_assoc.
  destruct (has_break data); reflexivity.
Qed.

Lemma c_with_proc k exc b s d r s' d' : well_nested b -> ~ In k (entered b) ->
  mreach d -> is_closed (e_mir d) = false -> m_aggr (e_mir d) = false -> e_qmax d = 0 -> stop_seen d = false ->
  kexec (proc_mirror k (fun _ d => d) exc) (KWith (Buf k) b) s d = (r, s', d') ->
  exists l ds v, told exc (Some k) (Some k) b l r /\ all_good l /\ r <> Hangs /\ out s' = out s /\ err s' = err s /\
    sent_by (held (e_mir d)) (texts_to k l) ds v /\
    e_q d' = e_q d ++ map QStr ds ++ match v with [] => [] | _ => [QStr (v ++ [10%N])] end
                   ++ [match exc_value r with None => QClose | Some e => QError (gm_init (GMExc e)) end] /\
    is_closed (e_mir d') = true.
Proof.
  intros Hn Hk Hm Hc Hag Hq Hs E. unfold proc_mirror in E.
  destruct (with_alone _ _ _ _ _ _ _ _ _ _ _ Hn Hk E) as (l & r0 & d1 & H1 & H2 & _ & H4).
  assert (Hw : within (fun _ => True) (entered b) l).
  { eapply told_within; [|exact H1]. apply List.Forall_forall. auto. }
  destruct (alone_effects k _ _ _ _ did (fun _ => True) l did_write (fun _ _ _ _ H => H) (entered b) Hk Hw d [] d d1 (did_nil d Hm Hc Hag Hq Hs) H2)
    as [Hg (Hr & Hs1 & Hh & He & ds & Hd & Hq1)].
  pose proof (told_good _ _ _ _ _ _ H1 Hg) as Hr0. destruct (H4 Hr0) as (Ho & Hrr & x & Hx & Hrx).
  destruct Hr as (Hm1 & Hc1 & Hag1 & Hqm1).
  destruct (c29_close d1 0 (exc_value r0) Hm1 Hc1 Hs1 (or_introl Hag1) (or_introl Hqm1)) as (d2 & E2 & Hq2 & Hcl & _).
  unfold on in Hx. rewrite E2 in Hx. injection Hx as <- <-. cbn [after_call] in Hrx. subst r.
  exists l, ds, (held (e_mir d1)). repeat (split; [assumption|]).
  split; [|exact Hcl]. cbn [dat]. rewrite Hq2, Hq1, <- !app_assoc.
  destruct (held (e_mir d1)); reflexivity.
Qed.

Lemma sent_by_breaks v ts ds v' : sent_by v ts ds v' -> Forall (fun t => ~ no_break t) ds.
Proof.
  induction 1; [constructor|assumption|]. constructor; [|assumption]. intros Hb. apply Forall_app in Hb as [_ Hb]. contradiction.
Qed.
Lemma c_complete k exc b s d r s' d' : well_nested b -> ~ In k (entered b) ->
  mreach d -> is_closed (e_mir d) = false -> m_aggr (e_mir d) = false -> e_qmax d = 0 -> stop_seen d = false ->
  kexec (proc_mirror k (fun _ d => d) exc) (KWith (Buf k) b) s d = (r, s', d') ->
  exists l ts fin, told exc (Some k) (Some k) b l r /\
    e_q d' = e_q d ++ map QStr ts ++ [match exc_value r with None => QClose | Some e => QError (gm_init (GMExc e)) end] /\
    concat ts = held (e_mir d) ++ concat (texts_to k l) ++ fin /\ (fin = [] \/ fin = [10%N]) /\ Forall (fun t => ~ no_break t) ts.
Proof.
  intros Hn Hk Hm Hc Hag Hq Hs E.
  destruct (c_with_proc _ _ _ _ _ _ _ _ Hn Hk Hm Hc Hag Hq Hs E) as (l & ds & v & H1 & _ & _ & _ & _ & H2 & H3 & _).
  pose proof (sent_by_concat _ _ _ _ H2) as Hcat. pose proof (sent_by_breaks _ _ _ _ H2) as Hbr. destruct v as [|c v].
  - exists l, ds, []. split; [exact H1|]. split; [exact H3|]. rewrite !app_nil_r in *. auto.
  - exists l, (ds ++ [(c :: v) ++ [10%N]]), [10%N]. split; [exact H1|]. split; [rewrite H3, map_app, <- app_assoc; reflexivity|].
    split; [|split; [auto|]].
    + rewrite concat_app. cbn [concat]. rewrite app_nil_r, !app_assoc. rewrite Hcat. reflexivity.
    + apply Forall_app. split; [exact Hbr|]. constructor; [|constructor]. intros Hb. apply Forall_app in Hb as [_ Hb].
      apply List.Forall_inv in Hb. apply Hb. vm_compute. auto.
Qed.

(** ** The stop signal arrives inside the block *)

Definition stuck (d0 d : menv) : Prop :=
  ready d /\ stop_seen d = true /\ held (e_mir d) = held (e_mir d0) /\ e_q d = e_q d0.

Lemma write_stuck d0 d data : stuck d0 d -> exists d1, on (lm_write data) d = (Fail StopIteration, d1) /\ stuck d0 d1.
Proof.
  intros ((Hd & Hc & Hag & Hq) & Hs & Hh & He). destruct (mreach_inv d Hd) as (b & a & E & Ha). unfold on.
  assert (Hx : xwrite (e_qmax d) (stopped_of (e_state d) b) data a (e_q d) = (Fail StopIteration, a, e_q d)).
  { rewrite E in Hc, Hs. cbn [e_mir] in Hc. rewrite mk_closed in Hc. rewrite stop_seen_mk in Hs.
    unfold xwrite, xbody. rewrite Hc, Hs. reflexivity. }
  pose proof (hok_runs 0 _ _ _ _ (hok_write _ _ _ b _ _ _ _ _ Hx) ltac:(discriminate)) as Hr.
  rewrite <- E in Hr. rewrite Hr. cbn [dat].
  destruct (run_as_write _ _ _ _ _ Hr ltac:(discriminate)) as (r' & Hr' & Hb').
  eexists. split; [reflexivity|]. rewrite E in Hc, Hag, Hs, Hh. cbn [e_mir e_qmax e_state] in *. split.
  { split; [eapply mreach_call; eassumption|]. cbn [e_mir e_qmax]. split; [exact Hc|]. split; [exact Hag|exact Hq]. }
  rewrite !stop_seen_mk in *. split; [|split; [exact Hh|exact He]].
  unfold stopped_of in *. rewrite has_il. exact Hs.
Qed.

Lemma mreach_env d q st : mreach d -> mreach (mkmenv (e_mir d) q (e_qmax d) st).
Proof.
  intros (id & q0 & ag & to & has & qu & qm & st0 & H). exists id, q0, ag, to, has, qu, qm, st0.
  eapply rtc_r; [exact H|]. apply (ms_env d).
Qed.
Lemma stuck_again d0 d : stuck d0 d -> stuck d0 (stop_now d).
Proof.
  intros ((Hd & Hc & Hag & Hq) & Hs & Hh & He). split; [|split; [|split; [exact Hh|exact He]]].
  - split; [apply mreach_env, Hd|split; [exact Hc|split; [exact Hag|exact Hq]]].
  - unfold stop_seen, stop_now in *. cbn [e_mir e_state]. destruct (m_has (e_mir d)); [reflexivity|discriminate].
Qed.
Lemma stuck_now d0 ts d (n : nat) : did d0 ts d /\ m_has (e_mir d0) = true -> stuck d (stop_now d).
Proof.
  intros [((Hm2 & Hc2 & Ha2 & Hq2) & _ & Hh & _) Hhas]. split; [|split; [|split; reflexivity]].
  - split; [apply mreach_env, Hm2|split; [exact Hc2|split; [exact Ha2|exact Hq2]]].
  - unfold stop_seen, stop_now. cbn [e_mir e_state]. rewrite Hh, Hhas. reflexivity.
Qed.

Lemma c_stop_inside k exc b s d r s' d' : well_nested b -> ~ In k (entered b) ->
  mreach d -> is_closed (e_mir d) = false -> m_aggr (e_mir d) = false -> e_qmax d = 0 ->
  m_has (e_mir d) = true -> stop_seen d = false ->
  kexec (proc_mirror k (fun _ => stop_now) exc) (KWith (Buf k) b) s d = (r, s', d') ->
  exists l r0, told exc (Some k) (Some k) b l r0 /\ r <> Hangs /\ out s' = out s /\ err s' = err s /\
  forall l1 n l2, l = l1 ++ Happened n :: l2 -> quiet l1 ->
  exists ds v, sent_by (held (e_mir d)) (texts_to k l1) ds v /\ all_good l1 /\
    (forall o data x, In (Wrote o data x) l2 -> x = if o =? k then Fail StopIteration else Good (length data)) /\
    (v <> [] -> r = Throws (exc StopIteration) /\ e_q d' = e_q d ++ map QStr ds /\
                held (e_mir d') = v /\ is_closed (e_mir d') = false) /\
    (v = [] -> r = r0 /\
               e_q d' = e_q d ++ map QStr ds ++ [match exc_value r0 with None => QClose | Some e => QError (gm_init (GMExc e)) end] /\
               is_closed (e_mir d') = true).
Proof.
  intros Hn Hk Hm Hc Hag Hq Hhas Hs E. unfold proc_mirror in E.
  destruct (with_alone _ _ _ _ _ _ _ _ _ _ _ Hn Hk E) as (l & r0 & d1 & H1 & H2 & _ & H4).
  assert (Hw : within (fun _ => True) (entered b) l).
  { eapply told_within; [|exact H1]. apply List.Forall_forall. auto. }
  set (P := fun d0 ts d => did d0 ts d /\ m_has (e_mir d0) = true).
  assert (P0 : P d [] d) by (split; [apply did_nil; assumption|exact Hhas]).
  destruct (stop_generic k _ _ (fun _ => stop_now) exc P stuck
     ltac:(intros d0 ts x data [HP HP'] _; destruct (did_write d0 ts x data HP I) as (n & d2 & E2 & H); exists n, d2; split; [exact E2|split; assumption])
     (fun d0 d data H => write_stuck d0 d data H) stuck_now (fun d0 d n H => stuck_again d0 d H)
     (entered b) l Hk Hw d d1 P0 H2) as (Hsplit & Hquiet & Hnh).
  pose proof (Hnh _ _ _ _ H1) as Hr0.
  destruct (H4 Hr0) as (Ho & Hrr & x & Hx & Hrx).
  assert (Hxb : x <> Block).
  { destruct (first_event l) as [(l1 & n & l2 & El & HQ)|HQ].
    - destruct (Hsplit _ _ _ El HQ) as (d2 & _ & _ & ((S2 & S3 & S4 & S5) & S1 & S6 & S7) & _).
      destruct (held (e_mir d1)) eqn:Ev.
      + destruct (c28_empty d1 0 (exc_value r0) S2 S3 Ev (or_introl S5)) as (d3 & E2 & _).
        unfold on in Hx. rewrite E2 in Hx. injection Hx as <- <-. discriminate.
      + destruct (c28 d1 0 (CClose (exc_value r0)) S2 S3 S1 ltac:(congruence) eq_refl) as (d3 & E2 & _).
        cbn [lm_call] in E2. unfold mret in E2. rewrite run_bind in E2. unfold on in Hx.
        destruct (run 0 (lm_close (exc_value r0)) (idle d1)) as [y sy]. injection Hx as -> <-. destruct x; congruence.
    - destruct (Hquiet HQ) as [_ [((S1 & S2 & S3 & S4) & S5 & _) _]].
      destruct (c29_close d1 0 (exc_value r0) S1 S2 S5 (or_introl S3) (or_introl S4)) as (d2 & E2 & _).
      unfold on in Hx. rewrite E2 in Hx. injection Hx as <- <-. discriminate. }
  exists l, r0. split; [exact H1|]. split; [rewrite Hrx; destruct x; [assumption|discriminate|congruence]|].
  split; [exact Ho|]. split; [exact Hrr|]. intros l1 n l2 El HQ.
  destruct (Hsplit _ _ _ El HQ) as (d2 & Hg & [(_ & _ & _ & _ & ds & Hsb & Hq2) _] & ((S2 & S3 & S4 & S5) & S1 & S6 & S7) & Hl2).
  rewrite Hq2 in S7.
  exists ds, (held (e_mir d2)). split; [exact Hsb|]. split; [exact Hg|]. split; [exact Hl2|]. split.
  - intros Hv. destruct (c28 d1 0 (CClose (exc_value r0)) S2 S3 S1 ltac:(congruence) eq_refl) as (d3 & E2 & Q2 & V2 & C2).
    cbn [lm_call] in E2. unfold mret in E2. rewrite run_bind in E2. unfold on in Hx.
    destruct (run 0 (lm_close (exc_value r0)) (idle d1)) as [y sy]. injection Hx as -> <-.
    destruct x as [u|xe|]; [discriminate| |congruence]. injection E2 as -> ->. cbn [dat]. rewrite Hrx, Q2, V2, S6, S7. auto.
  - intros Hv. rewrite Hv in S6. destruct (c28_empty d1 0 (exc_value r0) S2 S3 S6 (or_introl S5)) as (d3 & E2 & Q2 & C2).
    unfold on in Hx. rewrite E2 in Hx. injection Hx as <- <-. cbn [after_call dat] in *. split; [exact Hrx|].
    rewrite Q2, S7, <- app_assoc. auto.
Qed.

(** ** LineBuffers and consoles *)

Lemma write_holds m g bf data : 1 <= m -> HostSpec.holds m g bf ->
  exists bf', on (lb_write data) bf = (Good (wres data), bf') /\ HostSpec.holds m (gwrite data g) bf'.
Proof.
  intros Hm [H1 H2]. destruct bf as [q l]. cbn [storage last_line] in *. subst.
  pose proof (run_write_absg m 0 ∅ data g Hm (lookup_empty _)) as H. unfold on, cst, bd, fl in *. cbn [aq av acl absg] in *.
  rewrite H. eexists. split; [reflexivity|]. split; reflexivity.
Qed.

Definition open_lines (w : nat -> stream) : Prop :=
  forall o bf, w o = Lines bf -> exists m g, 1 <= m /\ HostSpec.holds m g bf.
Definition track (w0 : nat -> stream) (ts : nat -> list text) (w : nat -> stream) : Prop :=
  forall o, match w0 o with
            | Console seen => w o = Console (seen ++ concat (ts o))
            | Lines bf => exists bf', w o = Lines bf' /\
                forall m g, 1 <= m -> HostSpec.holds m g bf ->
                exists g', log_steps (map SWrite (ts o)) g g' /\ HostSpec.holds m g' bf'
            end.

Lemma log_steps_snoc os o g g1 g2 : log_steps os g g1 -> log_step o g1 g2 -> log_steps (os ++ [o]) g g2.
Proof.
  induction 1; intros H2; cbn; [econstructor; [exact H2|constructor]|]. econstructor; [eassumption|auto].
Qed.

Lemma streams_effects exc l : forall w0 ts w w', open_lines w0 -> track w0 ts w -> effects (streams exc) w l w' ->
  all_good l /\ track w0 (fun o => ts o ++ texts_to o l) w'.
Proof.
  induction l as [|x l IH]; intros w0 ts w w' Hop HP HF.
  - apply effects_nil_inv in HF. subst. split; [constructor|]. intros o. specialize (HP o). cbn. rewrite app_nil_r. exact HP.
  - apply effects_cons_inv in HF. destruct HF as (w1 & HF & Hc).
    destruct x as [o data r|o e r|n]; cbn [c_write c_exit c_event streams] in Hc.
    + assert (Hstep : (exists n, r = Good n) /\ track w0 (fun o' => ts o' ++ (if o =? o' then [data] else [])) w1).
      { unfold stream_write in Hc. pose proof (HP o) as Ho. destruct (w0 o) as [seen|bf] eqn:E0.
        - rewrite Ho in Hc. injection Hc as <- <-. split; [eauto|]. intros o'. specialize (HP o').
          destruct (o =? o') eqn:Eo.
          + apply Nat.eqb_eq in Eo. subst o'. rewrite E0, upd_same, concat_app. cbn. rewrite app_nil_r, app_assoc. reflexivity.
          + apply Nat.eqb_neq in Eo. rewrite app_nil_r, upd_other by congruence. exact HP.
        - destruct Ho as (bf' & Hw & Hall). rewrite Hw in Hc. destruct (Hop o bf E0) as (m & g & Hm & Hh).
          destruct (Hall m g Hm Hh) as (g' & Hs & Hh'). destruct (write_holds m g' bf' data Hm Hh') as (bf2 & E2 & H2).
          rewrite E2 in Hc. injection Hc as <- <-. split; [eauto|]. intros o'. specialize (HP o').
          destruct (o =? o') eqn:Eo.
          + apply Nat.eqb_eq in Eo. subst o'. rewrite E0 in *. exists bf2. split; [apply upd_same|]. intros m2 g2 Hm2 Hh2.
            destruct (Hall m2 g2 Hm2 Hh2) as (g3 & Hs3 & Hh3). destruct (write_holds m2 g3 bf' data Hm2 Hh3) as (bf3 & E3 & H3).
            rewrite E2 in E3. injection E3 as <-. exists (gwrite data g3). split; [|exact H3].
            rewrite map_app. eapply log_steps_snoc; [exact Hs3|]. constructor. apply log_write_fun. reflexivity.
          + apply Nat.eqb_neq in Eo. rewrite app_nil_r, upd_other by congruence. exact HP. }
      destruct Hstep as [Hg Ht]. destruct (IH _ _ _ _ Hop Ht HF) as [Hg' Ht']. split; [constructor; assumption|].
      intros o'. specialize (Ht' o'). cbn [texts_to flat_map]. fold (texts_to o' l). rewrite app_assoc. exact Ht'.
    + injection Hc as <- <-. destruct (IH _ _ _ _ Hop HP HF) as [Hg' Ht']. split; [constructor; [reflexivity|assumption]|]. exact Ht'.
    + subst w1. destruct (IH _ _ _ _ Hop HP HF) as [Hg' Ht']. split; [constructor; [exact I|assumption]|]. exact Ht'.
Qed.

Lemma c_streams exc b s w r s' w' : well_nested b ->
  (forall o bf, w o = Lines bf -> exists m g, 1 <= m /\ HostSpec.holds m g bf) ->
  kexec (streams exc) b s w = (r, s', w') ->
  exists l, told exc (out s) (err s) b l r /\ all_good l /\ r <> Hangs /\ out s' = out s /\ err s' = err s /\
  forall o, match w o with
            | Console seen => w' o = Console (seen ++ concat (texts_to o l))
            | Lines bf => exists bf', w' o = Lines bf' /\
                forall m g, 1 <= m -> HostSpec.holds m g bf ->
                exists g', log_steps (map SWrite (texts_to o l)) g g' /\ HostSpec.holds m g' bf'
            end.
Proof.
  intros Hn Hop E. destruct (routing _ _ _ _ _ _ _ Hn E) as (l & H1 & H2 & H3).
  destruct (streams_effects exc l w (fun _ => []) w w' Hop) as [Hg Ht].
  - intros o. destruct (w o) as [seen|bf]; [cbn; rewrite app_nil_r; reflexivity|]. exists bf. split; [reflexivity|].
    intros m g _ Hh. exists g. split; [constructor|exact Hh].
  - exact H2.
  - pose proof (told_good _ _ _ _ _ _ H1 Hg) as Hr. destruct (H3 Hr) as [Ho He]. exists l.
    repeat (split; [assumption|]). exact Ht.
Qed.
