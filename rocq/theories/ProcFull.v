(** * ProcFull: calls of a mirror on a full queue, and calls that have room (C22, C28, C33) *)
From stdpp Require Import gmap relations.
From Coq Require Import List NArith ZArith Bool Arith Lia.
From Verif Require Import PyStr Prog ProgFacts PyIO Base Spec SpecFacts LineBuf LineBufFacts LineBufProofs Locks Held Proc ProcSpec ProcFacts ProcMain ProcSeq ProcHist ProcProofs ProcTransp.
Import ListNotations.
Local Open Scope nat_scope.

Definition nope (to : option Z) {A} : outcome A := match to with Some _ => Fail QueueFull | None => Block end.

Lemma hb_yes data : has_break data = true <-> ~ no_break data.
Proof.
  split.
  - intros H Hn. unfold has_break in H. rewrite (no_break_seg data Hn) in H. discriminate.
  - intros H. destruct (has_break data) eqn:E; [reflexivity|]. destruct H. apply has_break_no, E.
Qed.

Section Abs.
  Variables (qmax : nat) (st : bool).
  (** [sends] on the abstract mirror. *)
  Definition asends (c : mcall) (a : amir) : Prop :=
    mc a = false /\
    match c with
    | CSendData _ => True
    | CWrite data => st = false /\ (mag a = true \/ ~ no_break data)
    | CNewLine => st = false /\ mv a <> []
    | CClose _ | CEof | CError _ | CWarning _ => st = false \/ mv a = []
    | _ => False
    end.

  Lemma full_body data a q : q_full qmax q = true -> st = false -> mag a = true \/ ~ no_break data ->
    exists a', xbody qmax st data a q = (nope (mto a), a', q).
  Proof.
    intros Hq Hs H. unfold xbody. rewrite Hs. unfold xput. rewrite Hq. unfold nope. destruct (mag a) eqn:Ea.
    - destruct (mto a); eauto.
    - destruct H as [H|H]; [discriminate|]. apply hb_yes in H. rewrite H. destruct (mto a); eauto.
  Qed.
  Lemma full_new_line a q : q_full qmax q = true -> mc a = false -> st = false -> mv a <> [] ->
    exists a', xnew_line qmax st a q = (nope (mto a), a', q).
  Proof.
    intros Hq Hc Hs Hv. unfold xnew_line. rewrite Hc. destruct (mv a) eqn:E; [congruence|].
    destruct (full_body [LF] a q Hq Hs) as (a' & ->); [right; apply hb_yes; reflexivity|].
    unfold nope. destruct (mto a); simpl; eauto.
  Qed.
  Lemma full_signal m a q : q_full qmax q = true -> mc a = false -> st = false \/ mv a = [] ->
    exists a', xsignal qmax st m a q = (nope (mto a), a', q).
  Proof.
    intros Hq Hc H. unfold xsignal. rewrite Hc. destruct (mv a) eqn:E.
    - unfold xnew_line. rewrite Hc, E. cbn [xseq]. unfold xput. rewrite Hq. unfold nope. destruct (mto a); eauto.
    - destruct H as [H|H]; [|discriminate]. destruct (full_new_line a q Hq Hc H) as (a' & ->); [congruence|].
      unfold nope. destruct (mto a); simpl; eauto.
  Qed.

  Lemma full_call c a q : q_full qmax q = true -> asends c a ->
    exists a', xcall qmax st c a q = (nope (mto a), a', q).
  Proof.
    intros Hq (Hc & H). destruct c; cbn [xcall]; try contradiction; unfold xret.
    - unfold xwrite. rewrite Hc. destruct H as [H1 H2]. destruct (full_body data a q Hq H1 H2) as (a' & ->).
      unfold nope. destruct (mto a); simpl; eauto.
    - destruct H as [H1 H2]. destruct (full_new_line a q Hq Hc H1 H2) as (a' & ->).
      unfold nope. destruct (mto a); simpl; eauto.
    - unfold xclose. rewrite Hc. destruct (full_signal (end_signal exc) a q Hq Hc H) as (a' & E).
      unfold end_signal in E. rewrite E. unfold nope. destruct (mto a); simpl; eauto.
    - destruct (full_signal QClose a q Hq Hc H) as (a' & ->). unfold nope. destruct (mto a); simpl; eauto.
    - destruct (full_signal (QError (gm_init (GMExc e))) a q Hq Hc H) as (a' & ->). unfold nope. destruct (mto a); simpl; eauto.
    - destruct (full_signal (QWarning (gm_init (GMExc e))) a q Hq Hc H) as (a' & ->). unfold nope. destruct (mto a); simpl; eauto.
    - rewrite Hc. unfold xput. rewrite Hq. unfold nope. destruct (mto a); simpl; eauto.
  Qed.

  Definition quiet {A} (x : outcome A * amir * list msg) (q : list msg) : Prop :=
    fst (fst x) <> Block /\ fst (fst x) <> Fail QueueFull /\ snd x = q.

  Lemma quiet_new_line a q : mc a = false -> st = true -> mv a <> [] ->
    xnew_line qmax st a q = (Fail StopIteration, a, q).
  Proof. intros Hc -> Hv. apply xnew_line_stopped; assumption. Qed.

  Lemma quiet_call c a q : ~ asends c a -> quiet (xcall qmax st c a q) q.
  Proof.
    intros H. unfold asends in H. unfold quiet. destruct c; cbn [xcall]; unfold xret;
      try (destruct (mc a); simpl; repeat split; discriminate);
      try (simpl; repeat split; discriminate).
    - unfold xwrite. destruct (mc a); [simpl; repeat split; discriminate|]. unfold xbody.
      destruct st; [simpl; repeat split; discriminate|]. destruct (mag a); [exfalso; apply H; auto|].
      destruct (has_break data) eqn:E; [exfalso; apply H; apply hb_yes in E; auto|]. simpl; repeat split; discriminate.
    - destruct (mc a) eqn:Hc; [unfold xnew_line; rewrite Hc; simpl; repeat split; discriminate|].
      destruct (mv a) eqn:Hv; [unfold xnew_line; rewrite Hc, Hv; simpl; repeat split; discriminate|].
      destruct st eqn:Hs; [|exfalso; apply H; repeat split; discriminate].
      rewrite <- Hs, quiet_new_line by (auto; congruence). simpl; repeat split; discriminate.
    - unfold xclose, xsignal. destruct (mc a) eqn:Hc; [simpl; repeat split; discriminate|].
      destruct st eqn:Hs; [|exfalso; apply H; auto]. destruct (mv a) eqn:Hv; [exfalso; apply H; auto|].
      rewrite <- Hs, quiet_new_line by (auto; congruence). simpl; repeat split; discriminate.
    - unfold xsignal. destruct (mc a) eqn:Hc; [simpl; repeat split; discriminate|].
      destruct st eqn:Hs; [|exfalso; apply H; auto]. destruct (mv a) eqn:Hv; [exfalso; apply H; auto|].
      rewrite <- Hs, quiet_new_line by (auto; congruence). simpl; repeat split; discriminate.
    - unfold xsignal. destruct (mc a) eqn:Hc; [simpl; repeat split; discriminate|].
      destruct st eqn:Hs; [|exfalso; apply H; auto]. destruct (mv a) eqn:Hv; [exfalso; apply H; auto|].
      rewrite <- Hs, quiet_new_line by (auto; congruence). simpl; repeat split; discriminate.
    - unfold xsignal. destruct (mc a) eqn:Hc; [simpl; repeat split; discriminate|].
      destruct st eqn:Hs; [|exfalso; apply H; auto]. destruct (mv a) eqn:Hv; [exfalso; apply H; auto|].
      rewrite <- Hs, quiet_new_line by (auto; congruence). simpl; repeat split; discriminate.
    - destruct (mc a) eqn:Hc; [simpl; repeat split; discriminate|]. exfalso; apply H; auto.
  Qed.
End Abs.

Lemma sends_abs c b a q qmax s : sends c (mkmenv (mk b a) q qmax s) <-> asends (stopped_of s b) c a.
Proof. unfold sends, asends. destruct c; reflexivity. Qed.

Lemma c33_full d t c : mreach d -> 0 < e_qmax d <= length (e_q d) -> sends c d ->
  fst (run t (lm_call c) (idle d)) = (match m_timeout (e_mir d) with Some _ => Fail QueueFull | None => Block end) /\
  e_q (dat (snd (run t (lm_call c) (idle d)))) = e_q d.
Proof.
  intros Hd Hq Hs. destruct (mreach_inv d Hd) as (b & a & E & Ha). rewrite E in Hs. apply sends_abs in Hs.
  assert (Hf : q_full (e_qmax d) (e_q d) = true).
  { unfold q_full. apply andb_true_iff. split; [apply Nat.ltb_lt|apply Nat.leb_le]; lia. }
  destruct (full_call (e_qmax d) (stopped_of (e_state d) b) c a (e_q d) Hf Hs) as (a' & Hx).
  destruct (run t (lm_call c) (idle d)) as [r s'] eqn:Er. rewrite E in Er.
  destruct (hok_inv _ _ _ _ _ _ _ (lm_call_ok _ _ _ _ _ _ _ _ _ Hx) Er) as (-> & Hd' & _).
  cbn [fst snd]. rewrite Hd'. rewrite E at 1. cbn [e_mir e_q]. split; reflexivity.
Qed.

Lemma c33_quiet d t c : mreach d -> ~ sends c d ->
  fst (run t (lm_call c) (idle d)) <> Block /\ fst (run t (lm_call c) (idle d)) <> Fail QueueFull /\
  e_q (dat (snd (run t (lm_call c) (idle d)))) = e_q d.
Proof.
  intros Hd Hs. destruct (mreach_inv d Hd) as (b & a & E & Ha). rewrite E, sends_abs in Hs.
  pose proof (quiet_call (e_qmax d) (stopped_of (e_state d) b) c a (e_q d) Hs) as (H1 & H2 & H3).
  destruct (xcall (e_qmax d) (stopped_of (e_state d) b) c a (e_q d)) as [[r1 a1] q1] eqn:Hx. cbn [fst snd] in *.
  destruct (run t (lm_call c) (idle d)) as [r s'] eqn:Er. rewrite E in Er.
  destruct (hok_inv _ _ _ _ _ _ _ (lm_call_ok _ _ _ _ _ _ _ _ _ Hx) Er) as (-> & Hd' & _).
  cbn [fst snd]. rewrite Hd'. auto.
Qed.

(** *** C22: with room in the queue write() succeeds *)
Lemma c22_total d t data : mreach d -> is_closed (e_mir d) = false -> stop_seen d = false ->
  e_qmax d = 0 \/ length (e_q d) < e_qmax d ->
  exists d', run t (lm_write data) (idle d) = (Good (length data), idle d').
Proof.
  intros Hd Hc Hs Hq. destruct (mreach_inv d Hd) as (b & a & E & Ha). rewrite E in *. cbn [e_mir e_q e_qmax e_state] in *.
  rewrite mk_closed in Hc. rewrite stop_seen_mk in Hs.
  assert (Hx : exists a' q', xwrite (e_qmax d) (stopped_of (e_state d) b) data a (e_q d) = (Good (length data), a', q')).
  { unfold xwrite, xbody. rewrite Hc, Hs. unfold xput.
    assert (Hq' : e_qmax d = 0 \/ length (e_q d) + 1 <= e_qmax d) by lia.
    rewrite (room _ _ 1 Hq') by lia. destruct (mag a); [eauto|]. destruct (has_break data); eauto. }
  destruct Hx as (a' & q' & Hx).
  eexists. apply (hok_runs t _ _ _ _ (hok_write _ _ _ _ _ _ _ _ _ Hx)). discriminate.
Qed.

(** *** C28: a mirror without held text announces every end or message *)
Lemma c28_empty_all d t c : mreach d -> is_closed (e_mir d) = false -> held (e_mir d) = [] -> end_call c = true ->
  e_qmax d = 0 \/ length (e_q d) < e_qmax d ->
  exists d', run t (lm_call c) (idle d) = (Good MUnit, idle d') /\ e_q d' = e_q d ++ [announced c] /\
    held (e_mir d') = [] /\ is_closed (e_mir d') = match c with CClose _ => true | _ => false end.
Proof.
  intros Hd Hc Hh He Hq. destruct (mreach_inv d Hd) as (b & a & E & Ha). rewrite E in *. cbn [e_mir e_q e_qmax e_state] in *.
  rewrite mk_closed in Hc. change (held (mk b a)) with (mv a) in *.
  assert (Hq' : e_qmax d = 0 \/ length (e_q d) + 1 <= e_qmax d) by lia.
  assert (Hx : exists a', xcall (e_qmax d) (stopped_of (e_state d) b) c a (e_q d) = (Good MUnit, a', e_q d ++ [announced c]) /\
     mv a' = [] /\ mc a' = match c with CClose _ => true | _ => false end).
  { destruct c; try discriminate; cbn [xcall]; unfold xret, xclose, xsignal, xnew_line; rewrite Hc, Hh; cbn [xseq];
      unfold xput; rewrite (room _ _ 1 Hq') by lia; simpl; (destruct exc as [e|] || idtac);
      eexists; (split; [reflexivity|]); auto. }
  destruct Hx as (a' & Hx & Hv & Hcl).
  eexists. split; [apply (hok_runs t _ _ _ _ (lm_call_ok _ _ _ _ _ _ _ _ _ Hx)); discriminate|].
  cbn [e_q e_mir]. rewrite mk_closed. auto.
Qed.
