(** * ProcProofs: proofs of the sequential properties of PropProc.v *)
From stdpp Require Import gmap relations.
From Coq Require Import List NArith ZArith Bool Arith Lia.
From Verif Require Import PyStr Prog ProgFacts PyIO Base Spec SpecFacts LineBuf LineBufFacts Locks Held Proc ProcSpec ProcFacts ProcMain ProcSeq.
Import ListNotations.
Local Open Scope nat_scope.

(** ** Mirrors *)
Lemma xbody_len qmax s data a q n a' q' : xbody qmax s data a q = (Good n, a', q') -> n = length data.
Proof.
  unfold xbody. destruct s; [discriminate|]. destruct (mag a).
  - destruct (xput _ _ a q) as [[r1 a1] q1]. destruct r1; intros H; inversion H; reflexivity.
  - destruct (has_break data); [|intros H; inversion H; reflexivity].
    destruct (xput _ _ a q) as [[r1 a1] q1]. destruct r1; intros H; inversion H; reflexivity.
Qed.

Lemma c22 d t data n s' : mreach d -> run t (lm_write data) (idle d) = (Good n, s') -> n = length data.
Proof.
  intros Hd H. destruct (mreach_inv d Hd) as (b & a & E & Ha). rewrite E in H.
  destruct (xwrite (e_qmax d) (stopped_of (e_state d) b) data a (e_q d)) as [[r1 a1] q1] eqn:Ex.
  destruct (hok_inv _ _ _ _ _ _ _ (hok_write _ _ _ _ _ _ _ _ _ Ex) H) as (<- & _).
  unfold xwrite in Ex. destruct (mc a); [discriminate|]. eapply xbody_len, Ex.
Qed.

(** The mirror's view after it was written to. *)
Lemma mk_held b a : held (mk b a) = mv a. Proof. reflexivity. Qed.
Lemma mk_closed b a : is_closed (mk b a) = mc a. Proof. reflexivity. Qed.
Lemma stop_seen_mk b a q qmax st : stop_seen (mkmenv (mk b a) q qmax st) = stopped_of st b.
Proof. reflexivity. Qed.

Lemma room qmax (q : list msg) n : qmax = 0 \/ length q + n <= qmax -> forall q', length q' < length q + n -> q_full qmax q' = false.
Proof.
  intros H q' Hq. unfold q_full. apply andb_false_iff. destruct H as [->|H]; [left; reflexivity|].
  right. apply Nat.leb_gt. lia.
Qed.

Definition end_signal (exc : option excobj) : msg :=
  match exc with None => QClose | Some e => QError (gm_init (GMExc e)) end.

Lemma hb_LF : has_break [LF] = true. Proof. reflexivity. Qed.

(** What new_line followed by a put sends. *)
Lemma xsignal_ok qmax a q m : mc a = false -> mag a = false \/ mv a = [] ->
  qmax = 0 \/ length q + 2 <= qmax ->
  xsignal qmax false m a q =
  (Good tt, mkam [] false (mag a) (mto a),
   q ++ match mv a with [] => [] | v => [QStr (v ++ [LF])] end ++ [m]).
Proof.
  intros Hc Hag Hq. unfold xsignal, xnew_line. rewrite Hc. destruct a as [v c ag to]; cbn [mv mc mag mto] in *. subst c.
  destruct v as [|ch v].
  - cbn [xseq]. unfold xput. rewrite (room qmax q 2) by (auto; lia). reflexivity.
  - destruct Hag as [->|?]; [|discriminate]. unfold xbody. cbn [mag mv mc mto]. rewrite hb_LF. unfold xput.
    rewrite (room qmax q 2 Hq q) by lia. cbn [xseq]. rewrite (room qmax q 2 Hq) by (rewrite app_length; simpl; lia).
    rewrite <- app_assoc. reflexivity.
Qed.

Lemma c29_close d t exc : mreach d -> is_closed (e_mir d) = false -> stop_seen d = false ->
  m_aggr (e_mir d) = false \/ held (e_mir d) = [] ->
  e_qmax d = 0 \/ length (e_q d) + 2 <= e_qmax d ->
  exists d', run t (lm_close exc) (idle d) = (Good tt, idle d') /\
    e_q d' = e_q d ++ match held (e_mir d) with [] => [] | v => [QStr (v ++ [10%N])] end
                   ++ [match exc with None => QClose | Some e => QError (gm_init (GMExc e)) end] /\
    is_closed (e_mir d') = true /\ held (e_mir d') = [] /\ e_state d' = e_state d.
Proof.
  intros Hd Hc Hs Hag Hq. destruct (mreach_inv d Hd) as (b & a & E & Ha). rewrite E in *. cbn [e_mir e_q e_qmax e_state] in *.
  rewrite mk_closed in Hc. rewrite stop_seen_mk in Hs. change (held (mk b a)) with (mv a) in *.
  change (m_aggr (mk b a)) with (mag a) in Hag.
  assert (Hx : xclose (e_qmax d) (stopped_of (e_state d) b) exc a (e_q d) =
     (Good tt, mkam [] true (mag a) (mto a), e_q d ++ match mv a with [] => [] | v => [QStr (v ++ [LF])] end ++ [end_signal exc])).
  { unfold xclose. rewrite Hc, Hs. fold (end_signal exc). rewrite xsignal_ok by auto. reflexivity. }
  eexists. split; [apply (hok_runs t _ _ _ _ (hok_close _ _ _ _ _ _ _ _ _ Hx)); discriminate|].
  cbn [e_q e_mir e_state]. repeat split.
Qed.

Lemma mstep_closed d d' : mwf (e_mir d) -> is_closed (e_mir d) = true -> mstep d d' -> is_closed (e_mir d') = true.
Proof.
  intros (b & a & Hm & Hc) Hcl H. destruct H as [t c r d d' H Hb|d q st]; [|exact Hcl].
  rewrite (menv_eta d), Hm in H. rewrite Hm in Hcl. apply lm_call_inv in H. destruct H as (a' & q' & Hx & _ & Hd).
  specialize (Hd Hb). injection Hd as ->. simpl. apply xcall_ok in Hx. apply (proj1 Hx), Hcl.
Qed.

Lemma xcall_closed qmax s c a q : mc a = true ->
  exists a', xcall qmax s c a q = (mclosed_answer c, a', q) /\ mc a' = true /\ mv a' = mv a.
Proof.
  intros Hc. destruct a as [v cl ag to]. cbn [mc] in Hc. subst cl.
  destruct c; eexists; (split; [reflexivity|]); split; reflexivity.
Qed.

Lemma mlater_closed d d' : mwf (e_mir d) -> is_closed (e_mir d) = true -> mlater d d' ->
  mwf (e_mir d') /\ is_closed (e_mir d') = true.
Proof.
  intros Hw Hc H. induction H as [|d d1 d2 Hs _ IH]; auto.
  apply IH; [eapply mstep_wf; eassumption|eapply mstep_closed; eassumption].
Qed.

Lemma c29_forever d d' t c : mreach d -> is_closed (e_mir d) = true -> mlater d d' ->
  exists d'', run t (lm_call c) (idle d') = (mclosed_answer c, idle d'') /\
    e_q d'' = e_q d' /\ is_closed (e_mir d'') = true /\ e_state d'' = e_state d'.
Proof.
  intros Hd Hc Hl. apply mreach_wf in Hd. destruct (mlater_closed _ _ Hd Hc Hl) as [(b & a & Hm & Ha) Hc'].
  rewrite Hm, mk_closed in Hc'.
  destruct (xcall_closed (e_qmax d') (stopped_of (e_state d') b) c a (e_q d') Hc') as (a' & Hx & H1 & H2).
  rewrite (menv_eta d'), Hm. eexists. split.
  - apply (hok_runs t _ _ _ _ (lm_call_ok _ _ _ _ _ _ _ _ _ Hx)). destruct c; discriminate.
  - cbn. repeat split. exact H1.
Qed.

Lemma xnew_line_stopped qmax a q : mc a = false -> mv a <> [] -> xnew_line qmax true a q = (Fail StopIteration, a, q).
Proof. intros Hc Hv. unfold xnew_line. rewrite Hc. destruct (mv a); [congruence|]. reflexivity. Qed.

Lemma c28 d t c : mreach d -> is_closed (e_mir d) = false -> stop_seen d = true -> held (e_mir d) <> [] ->
  end_call c = true ->
  exists d', run t (lm_call c) (idle d) = (Fail StopIteration, idle d') /\
    e_q d' = e_q d /\ held (e_mir d') = held (e_mir d) /\ is_closed (e_mir d') = false.
Proof.
  intros Hd Hc Hs Hh He. destruct (mreach_inv d Hd) as (b & a & E & Ha). rewrite E in *. cbn [e_mir e_q e_qmax e_state] in *.
  rewrite mk_closed in Hc. rewrite stop_seen_mk in Hs. change (held (mk b a)) with (mv a) in *.
  assert (Hx : xcall (e_qmax d) (stopped_of (e_state d) b) c a (e_q d) = (Fail StopIteration, a, e_q d)).
  { rewrite Hs. destruct c; try discriminate; cbn [xcall]; unfold xclose, xsignal; rewrite Hc;
    rewrite xnew_line_stopped by assumption; reflexivity. }
  eexists. split; [apply (hok_runs t _ _ _ _ (lm_call_ok _ _ _ _ _ _ _ _ _ Hx)); discriminate|].
  cbn. repeat split; assumption.
Qed.

Lemma c28_empty d t exc : mreach d -> is_closed (e_mir d) = false -> held (e_mir d) = [] ->
  e_qmax d = 0 \/ length (e_q d) + 2 <= e_qmax d ->
  exists d', run t (lm_close exc) (idle d) = (Good tt, idle d') /\
    e_q d' = e_q d ++ [match exc with None => QClose | Some e => QError (gm_init (GMExc e)) end] /\
    is_closed (e_mir d') = true.
Proof.
  intros Hd Hc Hh Hq. destruct (mreach_inv d Hd) as (b & a & E & Ha). rewrite E in *. cbn [e_mir e_q e_qmax e_state] in *.
  rewrite mk_closed in Hc. change (held (mk b a)) with (mv a) in *.
  assert (Hx : xclose (e_qmax d) (stopped_of (e_state d) b) exc a (e_q d) =
     (Good tt, mkam [] true (mag a) (mto a), e_q d ++ [end_signal exc])).
  { unfold xclose, xsignal, xnew_line. rewrite Hc, Hh. cbn [xseq]. unfold xput.
    rewrite (room _ _ 2 Hq) by lia. reflexivity. }
  eexists. split; [apply (hok_runs t _ _ _ _ (hok_close _ _ _ _ _ _ _ _ _ Hx)); discriminate|].
  cbn. repeat split.
Qed.

Lemma c32 d t size : mreach d -> is_closed (e_mir d) = false ->
  exists d', run t (lm_read size) (idle d) =
      (Good match size with None => held (e_mir d) | Some _ => [] end, idle d') /\
    held (e_mir d') = held (e_mir d) /\ e_q d' = e_q d.
Proof.
  intros Hd Hc. destruct (mreach_inv d Hd) as (b & a & E & Ha). rewrite E in *. cbn [e_mir e_q e_qmax e_state] in *.
  rewrite mk_closed in Hc. change (held (mk b a)) with (mv a) in *.
  assert (Hx : xcall (e_qmax d) (stopped_of (e_state d) b) (CRead size) a (e_q d) =
     (Good (MText match size with None => mv a | Some _ => [] end), a, e_q d)).
  { cbn [xcall]. rewrite Hc. reflexivity. }
  pose proof (lm_call_ok _ _ _ _ _ _ _ _ _ Hx) as (hs & Hh & H0). cbn [lm_call] in Hh. unfold mret in Hh.
  rewrite hrun_bind in Hh. rewrite H0 in Hh by discriminate.
  destruct (hrun (lm_read size) _ []) as [[[r1 d1] h1]|] eqn:Er; [|discriminate].
  destruct r1 as [x|x|]; simpl in Hh; [|discriminate..]. injection Hh as -> -> ->.
  eexists. split; [apply (hrun_run t _ _ _ _ Er)|]. split; reflexivity.
Qed.

(** *** C33 *)
Definition arg_ok (x : bool * option Z) : Prop := fst x = true <-> snd x = None.

Fixpoint okput {A} (p : prog mcmd A) : Prop :=
  match p with
  | Ret _ | Raise _ => True
  | Act c k h =>
      match c with Op (MPut _ b t) => arg_ok (b, t) | _ => True end /\
      (forall x, okput (k x)) /\ (forall e, okput (h e))
  end.
Lemma okput_bind {A B} (p : prog mcmd A) (f : A -> prog mcmd B) :
  okput p -> (forall a, okput (f a)) -> okput (bind p f).
Proof.
  intros Hp Hf. induction p as [a|e|X c k IHk h IHh]; simpl in *; auto.
  destruct Hp as (H1 & H2 & H3). auto.
Qed.
Lemma okput_finally {A} (p : prog mcmd A) fin : okput p -> okput fin -> okput (try_finally p fin).
Proof.
  intros Hp Hf. induction p as [a|e|X c k IHk h IHh]; simpl in *.
  - apply okput_bind; simpl; auto.
  - apply okput_bind; simpl; auto.
  - destruct Hp as (H1 & H2 & H3). auto.
Qed.
Lemma okput_with {A} l m (p : prog mcmd A) : okput p -> okput (with_lock l m p).
Proof. intros H. simpl. repeat split; auto. intros _. apply okput_finally; simpl; auto. Qed.
Lemma okput_lock : okput lm_lock.
Proof.
  apply okput_bind; [simpl; auto|]. intros [r|]; (apply okput_bind; [simpl; auto|]);
    intros _; (apply okput_bind; [simpl; auto|]); intros [r2|]; simpl; auto.
Qed.
Lemma okput_with_m {A} (p : prog mcmd A) : okput p -> okput (with_m p).
Proof. intros H. apply okput_bind; [apply okput_lock|]. intros l. apply okput_with, H. Qed.
Lemma okput_put m : okput (lm_put m).
Proof.
  apply okput_bind; [simpl; auto|]. intros [t|]; simpl; repeat split; auto; simpl; intros; congruence.
Qed.
Ltac okp := repeat first
  [ match goal with
    | |- okput (lm_put _) => apply okput_put
    | |- okput (with_m _) => apply okput_with_m
    | |- okput (with_lock _ _ _) => apply okput_with
    | |- okput (bind _ _) => apply okput_bind
    | |- okput (op _) => solve [simpl; auto]
    | |- okput (if ?b then _ else _) => destruct b
    | |- okput (match ?b with _ => _ end) => destruct b
    | |- forall _, _ => intros ?
    | |- okput (Ret _) => exact I
    | |- okput (Raise _) => exact I
    end ].
Lemma okput_send_data data : okput (lm_send_data data). Proof. unfold lm_send_data. okp. Qed.
Lemma okput_body data : okput (lm_write_body data).
Proof.
  unfold lm_write_body. okp; apply okput_send_data.
Qed.
Lemma okput_new_line : okput lm_new_line.
Proof. unfold lm_new_line. okp. apply okput_body. Qed.
Lemma okput_signal m : okput (lm_send_signal m).
Proof. unfold lm_send_signal. okp. apply okput_new_line. Qed.
Lemma okput_call c : okput (lm_call c).
Proof.
  destruct c; unfold lm_call, mret; (apply okput_bind; [|intros; exact I]);
    unfold lm_write, lm_writable, lm_read, lm_readable, lm_clear, lm_flush, lm_closed, lm_fileno, lm_seek, lm_isatty, lm_seekable;
    try exact I; try apply okput_new_line; try apply okput_send_data; try exact (okput_signal _); okp.
  - apply okput_body.
  - unfold lm_close. okp; try exact (okput_signal _); unfold lm_clear; okp.
Qed.

Lemma okput_puts {A} (p : prog mcmd A) : okput p -> forall d, Forall arg_ok (puts p d).
Proof.
  induction p as [a|e|X c k IHk h IHh]; intros H d; simpl; auto.
  destruct H as (H1 & H2 & H3). destruct c as [l m|l|X c]; simpl; auto.
  apply List.Forall_app. split.
  - destruct c; auto.
  - destruct (mexec c d) as [[x|e|] d']; auto.
Qed.

Lemma c33_args c d b t : In (b, t) (puts (lm_call c) d) -> (b = true <-> t = None).
Proof.
  intros H. pose proof (okput_puts _ (okput_call c) d) as Hf. rewrite List.Forall_forall in Hf. apply (Hf _ H).
Qed.

Lemma c33_put b t f : (b = true <-> t = None) -> t <> None -> (0 < f)%Z -> std_put b t (Some f) = FullAfter 0.
Proof.
  intros H Ht Hf. assert (b = false) as ->.
  { destruct b; [|reflexivity]. exfalso. apply Ht, H. reflexivity. }
  unfold std_put. destruct f; try lia; reflexivity.
Qed.
Lemma c33_put_wait b t f : (b = true <-> t = None) -> t = None -> (0 <= f)%Z -> std_put b t (Some f) = PutAfter f.
Proof.
  intros H Ht Hf. assert (b = true) as -> by (apply H; exact Ht). subst t. unfold std_put. destruct f; reflexivity || lia.
Qed.
