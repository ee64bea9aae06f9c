(** * ProcSeq: sequential facts about mirrors and the main buffer, in terms of [run] *)
From stdpp Require Import gmap relations.
From Coq Require Import List NArith ZArith Bool Arith Lia.
From Verif Require Import PyStr Prog ProgFacts PyIO Base Spec SpecFacts LineBuf LineBufFacts Locks Held Proc ProcSpec ProcFacts ProcMain.
Import ListNotations.
Local Open Scope nat_scope.

(** ** Lifting when commands keep some part of the component *)
Section HLift2.
  Context {C C' : Type -> Type} {D D' : Type} `{!Sem C D} `{!Sem C' D'}.
  Context (e : forall X, C X -> C' X) (get : D' -> D) (put : D -> D' -> D')
          (valid : D' -> Prop) (good : D -> D' -> Prop).
  Hypothesis get_put : forall d d', valid d' -> good d d' -> get (put d d') = d.
  Hypothesis put_put : forall d1 d2 d', valid d' -> good d2 d' -> put d1 (put d2 d') = put d1 d'.
  Hypothesis put_get : forall d', valid d' -> put (get d') d' = d'.
  Hypothesis good_get : forall d', good (get d') d'.
  Hypothesis valid_put : forall d d', valid d' -> good d d' -> valid (put d d').
  Hypothesis good_exec : forall X (c : C X) d d', good d d' -> good (snd (cexec c d)) d'.
  Hypothesis exec_e : forall X (c : C X) d', valid d' ->
    cexec (e X c) d' = (fst (cexec c (get d')), put (snd (cexec c (get d'))) d').

  Lemma hrun_lift2 {A} (p : prog C A) : forall d' hs, valid d' ->
    hrun (lift e p) d' hs =
    match hrun p (get d') hs with
    | Some (r, d, hs') => Some (r, put d d', hs')
    | None => None
    end.
  Proof.
    induction p as [a|x|X c k IHk h IHh]; intros d' hs Hv; simpl.
    - rewrite put_get by exact Hv. reflexivity.
    - rewrite put_get by exact Hv. reflexivity.
    - destruct c as [l m|l|X c]; simpl.
      + destruct (allowedb hs l m); auto.
      + destruct hs as [|l' hs']; [reflexivity|]. destruct (l' =? l)%nat; auto.
      + rewrite exec_e by exact Hv. pose proof (good_exec _ c _ _ (good_get d')) as Hg.
        destruct (cexec c (get d')) as [[x|x|] d1]; simpl in *.
        * rewrite IHk, get_put by auto. destruct (hrun (k x) d1 hs) as [[[]]|]; [|reflexivity].
          rewrite put_put by auto. reflexivity.
        * rewrite IHh, get_put by auto. destruct (hrun (h x) d1 hs) as [[[]]|]; [|reflexivity].
          rewrite put_put by auto. reflexivity.
        * reflexivity.
  Qed.

  Lemma hok_lift2 {A} (p : prog C A) d' hs r d : valid d' ->
    hok p (get d') hs r d -> hok (lift e p) d' hs r (put d d').
  Proof. intros Hv (hs' & E & H). exists hs'. split; [|exact H]. rewrite hrun_lift2, E by exact Hv. reflexivity. Qed.
End HLift2.

(** ** Mirror [i] inside the system *)
Definition vmir (i : nat) (d : psys) : Prop := i < length (s_mirs d) /\ m_q (mir_at d i) < length (s_qs d).
Definition gmir (i : nat) (e : menv) (d : psys) : Prop :=
  m_q (e_mir e) = m_q (mir_at d i) /\ e_qmax e = 0.

Lemma mexec_keeps {X} (c : mcmd X) e :
  m_q (e_mir (snd (mexec c e))) = m_q (e_mir e) /\ e_qmax (snd (mexec c e)) = e_qmax e /\
  m_id (e_mir (snd (mexec c e))) = m_id (e_mir e) /\ m_has (e_mir (snd (mexec c e))) = m_has (e_mir e) /\
  e_state (snd (mexec c e)) = e_state e.
Proof.
  destruct c; simpl; unfold on_buf; auto;
  try (match goal with |- context [let '(_, _) := ?f in _] => destruct f end; simpl; auto).
  destruct (q_full _ _); [destruct block|]; simpl; auto.
Qed.

Lemma mir_at_put i e d : vmir i d -> mir_at (put_menv i e d) i = e_mir e.
Proof. intros [H _]. unfold mir_at, put_menv. simpl. apply nth_set_nth, H. Qed.

Lemma hok_sys_m {A} i (p : prog mcmd A) d hs r e : vmir i d ->
  hok p (get_menv i d) hs r e -> hok (sys_m i p) d hs r (put_menv i e d).
Proof.
  intros Hv H. unfold sys_m.
  apply (hok_lift2 (C := mcmd) (C' := scmd) (fun X c => SM i c) (get_menv i) (put_menv i) (vmir i) (gmir i)); auto.
  - intros e0 d' [H1 H2] [Hg Hm]. unfold get_menv. rewrite mir_at_put by (split; assumption).
    unfold put_menv at 1. simpl. rewrite Hg, nth_set_nth by exact H2. destruct e0; simpl in *. congruence.
  - intros e1 e2 d' Hv' [Hg _]. unfold put_menv at 1. rewrite (mir_at_put i e2) by exact Hv'.
    unfold put_menv. simpl. rewrite Hg, !set_nth_set_nth. reflexivity.
  - intros d' [H1 H2]. unfold put_menv, get_menv. simpl. unfold mir_at.
    rewrite !set_nth_same by assumption. destruct d'; reflexivity.
  - intros d'. split; reflexivity.
  - intros e0 d' [H1 H2] [Hg _]. split.
    + unfold put_menv. simpl. rewrite set_nth_length. exact H1.
    + rewrite mir_at_put by (split; assumption). unfold put_menv. simpl. rewrite set_nth_length, Hg. exact H2.
  - intros X c e0 d' [Hg Hm]. destruct (mexec_keeps c e0) as (K1 & K2 & _). split; simpl; congruence.
  - intros X c d' _. simpl. destruct (mexec c (get_menv i d')) as [r1 e1]. reflexivity.
Qed.

Lemma hok_sys_p {A} (p : prog pcmd A) d hs r d' : hok p d hs r d' -> hok (sys_p p) d hs r d'.
Proof.
  intros (hs' & E & H). exists hs'. split; [|exact H]. unfold sys_p.
  rewrite (hrun_lift (C := pcmd) (C' := scmd) (fun X c => SP c) (fun d => d) (fun d _ => d) (fun _ => True)); auto.
  - rewrite E. reflexivity.
  - intros X c d0 _. simpl. destruct (pexec c d0); reflexivity.
Qed.

Lemma run_sys_p {A} t (p : prog pcmd A) s : run t (sys_p p) s = run t p s.
Proof.
  destruct s as [d k]. unfold sys_p.
  rewrite (run_lift (C := pcmd) (C' := scmd) (fun X c => SP c) (fun d => d) (fun d _ => d)); auto.
  - destruct (run t p (mkst d k)) as [r [d1 k1]]. reflexivity.
  - intros X c d0. simpl. destruct (pexec c d0); reflexivity.
Qed.

Lemma run_on_main {A} t (p : prog bcmd A) d k :
  run t (on_main p) (mkst d k) =
  (fst (run t p (mkst (s_main d) k)),
   mkst (set_main (dat (snd (run t p (mkst (s_main d) k)))) d) (lks (snd (run t p (mkst (s_main d) k))))).
Proof.
  unfold on_main. rewrite (run_lift e_pb s_main set_main); auto.
  - intros []; reflexivity.
  - intros X c d'. simpl. destruct (bexec c (s_main d')) as [r1 b1]. reflexivity.
Qed.

(** From [hok] to [run] and back. *)
Lemma hok_runs {C D} `{!Sem C D} {A} t (p : prog C A) d r d' : hok p d [] r d' -> r <> Block ->
  run t p (idle d) = (r, idle d').
Proof. intros H Hr. destruct (hok_run t _ _ _ _ H) as (k & E & Hk). rewrite E, Hk by exact Hr. reflexivity. Qed.

Lemma hok_inv {C D} `{!Sem C D} {A} t (p : prog C A) d r d' r1 s1 : hok p d [] r d' ->
  run t p (idle d) = (r1, s1) -> r1 = r /\ dat s1 = d' /\ (r <> Block -> s1 = idle d').
Proof.
  intros H E. destruct (hok_run t _ _ _ _ H) as (k & E' & Hk). rewrite E' in E. injection E as <- <-.
  repeat split; auto. intros Hr. rewrite Hk by exact Hr. reflexivity.
Qed.

(** ** Reachable mirrors *)
Definition mwf (m : mir) : Prop := exists b a, m = mk b a /\ (mc a = true -> mv a = []).

Lemma xput_keep qmax m a q r a' q' : xput qmax m a q = (r, a', q') -> a' = a.
Proof. apply xput_a. Qed.

Definition aclosed_ok (a : amir) : Prop := mc a = true -> mv a = [].

Lemma xcall_ok qmax s c a q r a' q' : xcall qmax s c a q = (r, a', q') ->
  (mc a = true -> mc a' = true /\ mv a' = mv a /\ q' = q) /\ (aclosed_ok a -> aclosed_ok a').
Proof.
  intros H. unfold aclosed_ok.
  assert (Hmc : mc a = true -> mc a' = true /\ mv a' = mv a /\ q' = q).
  { intros Hc. destruct c; cbn [xcall] in H; unfold xwrite, xnew_line, xclose, xsignal in H;
      rewrite ?Hc in H; unfold xret, xseq in H; injection H as <- <- <-; auto. }
  split; [exact Hmc|]. intros Ha Hc'.
  destruct (mc a) eqn:Ec; [destruct (Hmc eq_refl) as (_ & -> & _); auto|].
  (* the call closed the mirror: only close does *)
  destruct c; cbn [xcall] in H; rewrite ?Ec in H;
    try (injection H as <- <- <-; simpl in *; congruence).
  - unfold xwrite in H. rewrite Ec in H. destruct (xbody qmax s data a q) as [[r1 a1] q1] eqn:E.
    apply xbody_c in E. unfold xret, xseq in H. destruct r1; injection H as <- <- <-; congruence.
  - destruct (xnew_line qmax s a q) as [[r1 a1] q1] eqn:E.
    apply xnew_line_c in E. unfold xret, xseq in H. destruct r1; injection H as <- <- <-; congruence.
  - unfold xclose in H. rewrite Ec in H.
    destruct (xsignal qmax s _ a q) as [[r1 a1] q1] eqn:E. apply xsignal_c in E.
    unfold xret, xseq in H. destruct r1; injection H as <- <- <-; simpl in *; congruence.
  - destruct (xsignal qmax s _ a q) as [[r1 a1] q1] eqn:E. apply xsignal_c in E.
    unfold xret, xseq in H. destruct r1; injection H as <- <- <-; simpl in *; congruence.
  - destruct (xsignal qmax s _ a q) as [[r1 a1] q1] eqn:E. apply xsignal_c in E.
    unfold xret, xseq in H. destruct r1; injection H as <- <- <-; simpl in *; congruence.
  - destruct (xsignal qmax s _ a q) as [[r1 a1] q1] eqn:E. apply xsignal_c in E.
    unfold xret, xseq in H. destruct r1; injection H as <- <- <-; simpl in *; congruence.
  - destruct (xput qmax _ a q) as [[r1 a1] q1] eqn:E. apply xput_a in E.
    unfold xret, xseq in H. destruct r1; injection H as <- <- <-; simpl in *; congruence.
Qed.

Lemma menv_eta e : e = mkmenv (e_mir e) (e_q e) (e_qmax e) (e_state e).
Proof. destruct e; reflexivity. Qed.

(** Effect of one call, in terms of the abstract mirror. *)
Lemma lm_call_inv t c b a q qmax st r s' :
  run t (lm_call c) (idle (mkmenv (mk b a) q qmax st)) = (r, s') ->
  exists a' q', xcall qmax (stopped_of st b) c a q = (r, a', q') /\
    dat s' = mkmenv (mk (if uses_lock c then il b else b) a') q' qmax st /\
    (r <> Block -> s' = idle (mkmenv (mk (if uses_lock c then il b else b) a') q' qmax st)).
Proof.
  intros H. destruct (xcall qmax (stopped_of st b) c a q) as [[r1 a1] q1] eqn:E.
  destruct (hok_inv _ _ _ _ _ _ _ (lm_call_ok _ _ _ _ _ _ _ _ _ E) H) as (-> & H2 & H3). eauto.
Qed.

Lemma mstep_wf d d' : mwf (e_mir d) -> mstep d d' -> mwf (e_mir d').
Proof.
  intros (b & a & Hm & Hc) H. destruct H as [t c r d d' H Hb|d q st]; [|simpl; exists b, a; auto].
  rewrite (menv_eta d), Hm in H. apply lm_call_inv in H. destruct H as (a' & q' & Hx & _ & Hd).
  specialize (Hd Hb). injection Hd as ->. simpl. eexists _, _. split; [reflexivity|].
  apply xcall_ok in Hx. destruct Hx as [_ Hx]. exact (Hx Hc).
Qed.

Lemma mlater_wf d d' : mwf (e_mir d) -> mlater d d' -> mwf (e_mir d').
Proof. intros Hw H. induction H as [|d d1 d2 Hs _ IH]; auto. apply IH. eapply mstep_wf; eassumption. Qed.

Lemma mir_new_mk id q ag to has : mir_new id q ag to has = mk (mkmb None has q id 0) (mkam [] false ag to).
Proof. reflexivity. Qed.

Lemma mreach_wf d : mreach d -> mwf (e_mir d).
Proof.
  intros (id & q & ag & to & has & qu & qm & st & H). eapply mlater_wf; [|exact H].
  simpl. rewrite mir_new_mk. eexists _, _. split; [reflexivity|]. discriminate.
Qed.

Lemma mreach_inv d : mreach d -> exists b a, d = mkmenv (mk b a) (e_q d) (e_qmax d) (e_state d) /\ aclosed_ok a.
Proof.
  intros H. apply mreach_wf in H. destruct H as (b & a & Hm & Hc). exists b, a. split; [|exact Hc].
  rewrite <- Hm. apply menv_eta.
Qed.
