(** * Serial: processes that share data under locks and own the rest

    The data is split by equivalence relations: [eqS l] (the part shared under the lock [l]
    is the same) and [eqP i] (the part owned by process [i] is the same).  Every call
    touches shared data inside at most one critical section, of one of the locks of [main]
    (exclusive, or shared if it only reads), and there only the part of this lock;
    everything else it does concerns its own part.  Then every complete interleaved
    execution has the results and the final data of a sequential execution of whole calls.
    Locks may be used in any other properly bracketed way too. *)
From stdpp Require Import gmap.
From Coq Require Import List Bool Arith Lia.
From Verif Require Import Prog ProgFacts Spec Conc Locks Atomic.
Import ListNotations.

Section Serial.
  Context {C : Type -> Type} {D : Type} `{!Sem C D}.
  Context {K R : Type} (impl : nat -> K -> prog C R).
  Variable main : nat -> Prop.
  Hypothesis main_plain : forall l, main l -> reent l = false.
  Hypothesis nb : forall X (c : C X) (d : D), fst (cexec c d) <> Block.
  Variable eqS : nat -> D -> D -> Prop.
  Variable eqP : nat -> D -> D -> Prop.
  Hypothesis S_equiv : forall l, Equivalence (eqS l).
  Hypothesis P_equiv : forall i, Equivalence (eqP i).

  (** Commands that use only what process [i] owns. *)
  Definition priv (i : nat) {X} (c : C X) : Prop :=
    (forall d1 d2, eqP i d1 d2 ->
       fst (cexec c d1) = fst (cexec c d2) /\ eqP i (snd (cexec c d1)) (snd (cexec c d2))) /\
    (forall l d, eqS l d (snd (cexec c d))) /\
    (forall d j, j <> i -> eqP j d (snd (cexec c d))).
  (** Commands allowed inside a section of [L] in mode [m]. *)
  Definition shar (L : nat) (m : lmode) (i : nat) {X} (c : C X) : Prop :=
    (forall d1 d2, eqS L d1 d2 -> eqP i d1 d2 ->
       fst (cexec c d1) = fst (cexec c d2) /\ eqS L (snd (cexec c d1)) (snd (cexec c d2)) /\
       eqP i (snd (cexec c d1)) (snd (cexec c d2))) /\
    (forall d j, j <> i -> eqP j d (snd (cexec c d))) /\
    (m = Sh -> forall d, eqS L d (snd (cexec c d))) /\
    (forall l d, l <> L -> eqS l d (snd (cexec c d))).

  (** After the section; inside it; before it. *)
  Inductive wfA {A} (i : nat) : prog C A -> Prop :=
  | wfA_ret a : wfA i (Ret a)
  | wfA_raise e : wfA i (Raise e)
  | wfA_op X (c : C X) k h : priv i c -> (forall x, wfA i (k x)) -> (forall e, wfA i (h e)) ->
      wfA i (Act (Op c) k h)
  | wfA_acq l m k h : wfA i (k tt) -> wfA i (Act (Acq l m) k h)
  | wfA_rel l k h : wfA i (k tt) -> wfA i (Act (Rel l) k h).
  Inductive wfI {A} (L : nat) (m : lmode) (i : nat) : prog C A -> Prop :=
  | wfI_op X (c : C X) k h : shar L m i c -> (forall d x, fst (cexec c d) = Good x -> wfI L m i (k x)) ->
      (forall e, wfI L m i (h e)) ->
      wfI L m i (Act (Op c) k h)
  | wfI_acq l m' k h : l <> L -> wfI L m i (k tt) -> wfI L m i (Act (Acq l m') k h)
  | wfI_rel l k h : l <> L -> wfI L m i (k tt) -> wfI L m i (Act (Rel l) k h)
  | wfI_end k h : wfA i (k tt) -> wfI L m i (Act (Rel L) k h).
  Inductive wfB {A} (i : nat) : prog C A -> Prop :=
  | wfB_ret a : wfB i (Ret a)
  | wfB_raise e : wfB i (Raise e)
  | wfB_op X (c : C X) k h : priv i c -> (forall x, wfB i (k x)) -> (forall e, wfB i (h e)) ->
      wfB i (Act (Op c) k h)
  | wfB_acq l m k h : wfB i (k tt) -> wfB i (Act (Acq l m) k h)
  | wfB_rel l k h : wfB i (k tt) -> wfB i (Act (Rel l) k h)
  | wfB_enter L m k h : main L -> wfI L m i (k tt) -> wfB i (Act (Acq L m) k h).

  Lemma srun_op_step {A X} (c : C X) (k : X -> prog C A) h d :
    (exists x, cexec c d = (Good x, snd (cexec c d)) /\ srun (Act (Op c) k h) d = srun (k x) (snd (cexec c d))) \/
    (exists e, cexec c d = (Fail e, snd (cexec c d)) /\ srun (Act (Op c) k h) d = srun (h e) (snd (cexec c d))).
  Proof.
    pose proof (nb X c d) as H. simpl. destruct (cexec c d) as [[x|e|] d']; simpl in *; [left|right|congruence]; eauto.
  Qed.

  (** ** Footprints of programs *)
  Lemma footA {A} i (q : prog C A) : wfA i q ->
    (forall d1 d2, eqP i d1 d2 -> fst (srun q d1) = fst (srun q d2) /\ eqP i (snd (srun q d1)) (snd (srun q d2))) /\
    (forall l d, eqS l d (snd (srun q d))) /\
    (forall d j, j <> i -> eqP j d (snd (srun q d))).
  Proof.
    induction 1 as [a|e|X c k h (H1 & H2 & H3) Hk IHk Hh IHh|l m k h Hk IH|l k h Hk IH].
    - split; [auto|]. split; intros; simpl; reflexivity.
    - split; [auto|]. split; intros; simpl; reflexivity.
    - split; [|split].
      + intros d1 d2 E. destruct (H1 d1 d2 E) as [E1 E2].
        destruct (srun_op_step c k h d1) as [(x & Ex1 & Er1)|(x & Ex1 & Er1)];
        destruct (srun_op_step c k h d2) as [(y & Ey1 & Er2)|(y & Ey1 & Er2)];
          rewrite Ex1, Ey1 in E1; simpl in E1; try discriminate; injection E1 as <-;
          rewrite Er1, Er2; [apply IHk|apply IHh]; exact E2.
      + intros l d. destruct (srun_op_step c k h d) as [(x & _ & ->)|(x & _ & ->)];
          (transitivity (snd (cexec c d)); [apply H2|]); [apply IHk|apply IHh].
      + intros d j Hj. destruct (srun_op_step c k h d) as [(x & _ & ->)|(x & _ & ->)];
          (transitivity (snd (cexec c d)); [apply H3, Hj|]); [apply IHk|apply IHh]; exact Hj.
    - exact IH.
    - exact IH.
  Qed.

  Lemma footI {A} L m i (q : prog C A) : wfI L m i q ->
    (forall d1 d2, eqS L d1 d2 -> eqP i d1 d2 ->
       fst (srun q d1) = fst (srun q d2) /\ eqS L (snd (srun q d1)) (snd (srun q d2)) /\
       eqP i (snd (srun q d1)) (snd (srun q d2))) /\
    (forall d j, j <> i -> eqP j d (snd (srun q d))) /\
    (m = Sh -> forall d, eqS L d (snd (srun q d))) /\
    (forall l d, l <> L -> eqS l d (snd (srun q d))).
  Proof.
    induction 1 as [X c k h (H1 & H2 & H3 & H3') Hk IHk Hh IHh|l m' k h Hl Hk IH|l k h Hl Hk IH|k h Hk].
    - split; [|split; [|split]].
      + intros d1 d2 E E'. destruct (H1 d1 d2 E E') as (E1 & E2 & E3).
        destruct (srun_op_step c k h d1) as [(x & Ex1 & Er1)|(x & Ex1 & Er1)];
        destruct (srun_op_step c k h d2) as [(y & Ey1 & Er2)|(y & Ey1 & Er2)];
          rewrite Ex1, Ey1 in E1; simpl in E1; try discriminate; injection E1 as <-;
          rewrite Er1, Er2; [apply (IHk d1 x); [rewrite Ex1; reflexivity|..]|apply IHh]; assumption.
      + intros d j Hj. destruct (srun_op_step c k h d) as [(x & Ex & ->)|(x & _ & ->)];
          (transitivity (snd (cexec c d)); [apply H2, Hj|]); [apply (IHk d x); [rewrite Ex; reflexivity|]|apply IHh]; exact Hj.
      + intros Hm d. destruct (srun_op_step c k h d) as [(x & Ex & ->)|(x & _ & ->)];
          (transitivity (snd (cexec c d)); [apply H3, Hm|]);
          [apply (proj1 (proj2 (proj2 (IHk d x ltac:(rewrite Ex; reflexivity)))))|apply (proj1 (proj2 (proj2 (IHh x))))]; exact Hm.
      + intros l d Hl. destruct (srun_op_step c k h d) as [(x & Ex & ->)|(x & _ & ->)];
          (transitivity (snd (cexec c d)); [apply H3', Hl|]);
          [apply (proj2 (proj2 (proj2 (IHk d x ltac:(rewrite Ex; reflexivity)))))|apply (proj2 (proj2 (proj2 (IHh x))))]; exact Hl.
    - exact IH.
    - exact IH.
    - destruct (footA i (k tt) Hk) as (F1 & F2 & F3). simpl. split; [|split; [|split]].
      + intros d1 d2 E E'. destruct (F1 d1 d2 E') as [G1 G2]. split; [exact G1|]. split; [|exact G2].
        transitivity d1; [symmetry; apply F2|]. transitivity d2; [exact E|apply F2].
      + exact F3.
      + intros _. apply F2.
      + intros l d _. apply F2.
  Qed.

  (** ** Sequential executions of whole calls *)
  Fixpoint sseq (order : list (nat * K)) (d : D) : list (nat * outcome R) * D :=
    match order with
    | [] => ([], d)
    | (t, c) :: o => let '(r, d1) := srun (impl t c) d in
                     let '(rs, d2) := sseq o d1 in ((t, r) :: rs, d2)
    end.
  Lemma sseq_snoc lin i c d :
    sseq (lin ++ [(i, c)]) d =
    (fst (sseq lin d) ++ [(i, fst (srun (impl i c) (snd (sseq lin d))))],
     snd (srun (impl i c) (snd (sseq lin d)))).
  Proof.
    revert d. induction lin as [|[t x] lin IH]; intros d; simpl.
    - destruct (srun (impl i c) d). reflexivity.
    - destruct (srun (impl t x) d) as [r d1]. rewrite IH. destruct (sseq lin d1). reflexivity.
  Qed.

  (** ** The simulation *)
  Inductive phase := PB | PI (L : nat) (m : lmode) | PA.

  Definition wrap (i : nat) (rs : list (outcome R)) (cs : list K) (q : prog C R) : prog C (list (outcome R)) :=
    bind (attempt q) (fun r => thread_from (r :: rs) (map (impl i) cs)).

  Lemma pstep_wrap i rs cs X (c : cmd C X) k h s :
    pstep i (wrap i rs cs (Act c k h)) s =
    match exec i c s with
    | (Good x, s') => Some (wrap i rs cs (k x), s')
    | (Fail e, s') => Some (wrap i rs cs (h e), s')
    | (Block, _) => None
    end.
  Proof. simpl. destruct (exec i c s) as [[x|e|] s']; reflexivity. Qed.

  (** What has been done of the call is private: it can be replayed from any state with
      the same private part. *)
  Definition pre (i : nat) (c : K) (A : D) (q : prog C R) (d : D) : Prop :=
    forall A', eqP i A' A -> exists d',
      eqP i d' d /\ (forall l, eqS l A' d') /\ (forall j, j <> i -> eqP j A' d') /\
      srun (impl i c) A' = srun q d'.

  Definition tab (m : lmode) (i : nat) (x : option lockst) : Prop :=
    match m with
    | Ex => exists n, x = Some (Excl i n)
    | Sh => exists os, x = Some (Shared os) /\ In i os
    end.

  (** State of process [i]: calls left [rest], results of the linearized calls [rs],
      data [A] after the linearized calls, actual data [d] and the lock table [x]. *)
  Definition thrst (i : nat) (f : phase) (p : prog C (list (outcome R))) (rest : list K)
    (rs : list (outcome R)) (A d : D) (x : locks) : Prop :=
    match f with
    | PB => match rest with
            | [] => p = Ret rs /\ eqP i d A
            | c :: rest' => exists q, p = wrap i (rev rs) rest' q /\ wfB i q /\ pre i c A q d
            end
    | PI L m => exists rs0 r q, rs = rs0 ++ [r] /\ p = wrap i (rev rs0) rest q /\ wfI L m i q /\
                fst (srun q d) = r /\ eqP i (snd (srun q d)) A /\
                (m = Ex -> eqS L (snd (srun q d)) A) /\ main L /\ tab m i (x !! L)
    | PA => exists rs0 r q, rs = rs0 ++ [r] /\ p = wrap i (rev rs0) rest q /\ wfA i q /\
                fst (srun q d) = r /\ eqP i (snd (srun q d)) A
    end.

  Lemma thr_stable i f p rest rs A d x A1 d1 x1 :
    thrst i f p rest rs A d x -> eqP i A A1 -> (forall L, f = PI L Ex -> eqS L A A1) ->
    eqP i d d1 -> (forall L m, f = PI L m -> eqS L d d1 /\ tab m i (x1 !! L)) ->
    thrst i f p rest rs A1 d1 x1.
  Proof.
    intros H HA HAs Hd Hm. destruct f as [|L m|]; simpl in *.
    - destruct rest as [|c rest].
      + destruct H as [-> H]. split; [reflexivity|]. transitivity d; [symmetry; exact Hd|].
        transitivity A; assumption.
      + destruct H as (q & -> & Hw & Hp). exists q. split; [reflexivity|]. split; [exact Hw|].
        intros A' HA'. destruct (Hp A') as (d' & H1 & H2 & H3 & H4).
        { transitivity A1; [exact HA'|symmetry; exact HA]. }
        exists d'. split; [transitivity d; assumption|]. auto.
    - destruct H as (rs0 & r & q & -> & -> & Hw & Hr & HP & HS & HL & _).
      destruct (Hm L m eq_refl) as [Hs Ht]. destruct (footI L m i q Hw) as (F1 & _ & _).
      destruct (F1 d d1 Hs Hd) as (G1 & G2 & G3).
      exists rs0, r, q. split; [reflexivity|]. split; [reflexivity|]. split; [exact Hw|].
      split; [congruence|]. split; [|split; [|split; [exact HL|exact Ht]]].
      + transitivity (snd (srun q d)); [symmetry; exact G3|]. transitivity A; assumption.
      + intros ->. transitivity (snd (srun q d)); [symmetry; exact G2|]. transitivity A; auto.
    - destruct H as (rs0 & r & q & -> & -> & Hw & Hr & HP).
      destruct (footA i q Hw) as (F1 & _ & _). destruct (F1 d d1 Hd) as (G1 & G2).
      exists rs0, r, q. split; [reflexivity|]. split; [reflexivity|]. split; [exact Hw|].
      split; [congruence|].
      transitivity (snd (srun q d)); [symmetry; exact G2|]. transitivity A; assumption.
  Qed.

  Variable ok : nat -> K -> Prop.
  Hypothesis impl_ok : forall i c, ok i c -> wfB i (impl i c).

  Notation resof i lin d0 := (events_of i (fst (sseq lin d0))).
  Notation after lin d0 := (snd (sseq lin d0)).

  Record sim (css : list (list K)) (d0 : D) (lin : list (nat * K))
    (ps : list (prog C (list (outcome R)))) (s : st D) (ph : nat -> phase) : Prop := mksim {
    sim_len : length ps = length css;
    sim_tid : Forall (fun e => fst e < length css) lin;
    sim_thr : forall i cs, css !! i = Some cs -> exists p rest,
      ps !! i = Some p /\ cs = events_of i lin ++ rest /\ Forall (ok i) rest /\
      thrst i (ph i) p rest (resof i lin d0) (after lin d0) (dat s) (lks s);
    sim_glob : forall L, (forall i, i < length css -> ph i <> PI L Ex) -> eqS L (dat s) (after lin d0)
  }.

  Lemma events_of_one {X} i j (x : X) : events_of i [(j, x)] = if (j =? i)%nat then [x] else [].
  Proof. unfold events_of. simpl. destruct (j =? i)%nat; reflexivity. Qed.
  Lemma events_of_snoc {X} i j (l : list (nat * X)) x :
    events_of i (l ++ [(j, x)]) = if (j =? i)%nat then events_of i l ++ [x] else events_of i l.
  Proof. rewrite events_of_app, events_of_one. destruct (j =? i)%nat; [reflexivity|apply app_nil_r]. Qed.

  Definition setph (ph : nat -> phase) (i : nat) (f : phase) : nat -> phase :=
    fun j => if (j =? i)%nat then f else ph j.
  Lemma setph_eq ph i f : setph ph i f i = f.
  Proof. unfold setph. rewrite Nat.eqb_refl. reflexivity. Qed.
  Lemma setph_ne ph i f j : j <> i -> setph ph i f j = ph j.
  Proof. intros H. unfold setph. apply Nat.eqb_neq in H. rewrite H. reflexivity. Qed.

  (** Replace the state of one process; [lin] grows by [more], calls of this process only. *)
  Lemma sim_update css d0 lin ps s ph i cs p rest lin' p' s' f' :
    sim css d0 lin ps s ph -> css !! i = Some cs -> ps !! i = Some p ->
    (lin' = lin \/ exists c, lin' = lin ++ [(i, c)]) ->
    cs = events_of i lin' ++ rest -> Forall (ok i) rest ->
    thrst i f' p' rest (resof i lin' d0) (after lin' d0) (dat s') (lks s') ->
    (forall j, j <> i -> eqP j (after lin d0) (after lin' d0)) ->
    (forall j L, j <> i -> j < length css -> ph j = PI L Ex -> eqS L (after lin d0) (after lin' d0)) ->
    (forall j, j <> i -> eqP j (dat s) (dat s')) ->
    (forall j L m, j <> i -> j < length css -> ph j = PI L m -> main L -> tab m j (lks s !! L) ->
       eqS L (dat s) (dat s') /\ tab m j (lks s' !! L)) ->
    (forall L, (forall j, j < length css -> setph ph i f' j <> PI L Ex) -> eqS L (dat s') (after lin' d0)) ->
    sim css d0 lin' (<[i := p']> ps) s' (setph ph i f').
  Proof.
    intros [Hlen Htid Hthr Hglob] Hcs Hp Hlin Hrest Hok Hst HA HAs Hd Ht Hg.
    assert (Hi : i < length css) by (eapply lookup_lt_Some; eauto).
    split.
    - rewrite insert_length. exact Hlen.
    - destruct Hlin as [->|[c ->]]; [exact Htid|]. apply Forall_app. split; [exact Htid|]. constructor; [exact Hi|constructor].
    - intros j csj Hj. destruct (decide (j = i)) as [->|Hne].
      + rewrite Hcs in Hj. injection Hj as <-. exists p', rest.
        rewrite list_lookup_insert by (rewrite Hlen; exact Hi). rewrite setph_eq. auto.
      + destruct (Hthr j csj Hj) as (pj & restj & H1 & H2 & H3 & H4). exists pj, restj.
        rewrite list_lookup_insert_ne by auto. rewrite setph_ne by auto.
        assert (Hjl : j < length css) by (eapply lookup_lt_Some; eauto).
        assert (E1 : events_of j lin' = events_of j lin).
        { destruct Hlin as [->|[c ->]]; [reflexivity|]. rewrite events_of_snoc.
          destruct (Nat.eqb_spec i j); congruence. }
        assert (E2 : resof j lin' d0 = resof j lin d0).
        { destruct Hlin as [->|[c ->]]; [reflexivity|]. rewrite sseq_snoc. simpl. rewrite events_of_snoc.
          destruct (Nat.eqb_spec i j); congruence. }
        rewrite E1, E2. split; [exact H1|]. split; [exact H2|]. split; [exact H3|].
        apply (thr_stable j _ _ _ _ _ _ _ _ _ _ H4).
        * apply HA, Hne.
        * intros L E. apply (HAs j L Hne Hjl E).
        * apply Hd, Hne.
        * intros L m E. rewrite E in H4. simpl in H4.
          destruct H4 as (? & ? & ? & ? & ? & ? & ? & ? & ? & H4 & H5). apply (Ht j L m Hne Hjl E H4 H5).
    - exact Hg.
  Qed.

  Lemma list_insert_same {X} (l : list X) i x : l !! i = Some x -> <[i := x]> l = l.
  Proof. apply list_insert_id. Qed.

  (** A call that has ended without a section is linearized; its thread goes on. *)
  Lemma wrap_done i rs rest q : finished q = true ->
    exists r, (forall d, srun q d = (r, d)) /\ wrap i rs rest q = thread_from (r :: rs) (map (impl i) rest).
  Proof.
    destruct q as [a|e|]; intros H; [exists (Good a)|exists (Fail e)|discriminate]; split; reflexivity.
  Qed.

  Lemma thr_next i rs rest A d x :
    Forall (ok i) rest -> eqP i d A ->
    thrst i PB (thread_from (rev rs) (map (impl i) rest)) rest rs A d x.
  Proof.
    intros Hok HP. destruct Hok as [|c rest Hc Hok]; simpl.
    - rewrite rev_involutive. auto.
    - exists (impl i c). split; [reflexivity|]. split; [apply impl_ok, Hc|].
      intros A' HA'. exists A'. split; [transitivity A; [exact HA'|symmetry; exact HP]|].
      split; [reflexivity|]. split; [reflexivity|reflexivity].
  Qed.

  Definition settled (f : phase) (p : prog C (list (outcome R))) (rest : list K) (i : nat) : Prop :=
    finished p = true -> f = PB /\ rest = [].

  Lemma wrap_unfinished i rs rest q : finished q = false -> finished (wrap i rs rest q) = false.
  Proof. destruct q; [discriminate|discriminate|reflexivity]. Qed.

  (** Linearize calls of thread [i] that are over, until it is inside an unfinished call
      or has nothing left. *)
  Lemma settle_PB css d0 ps s i cs p : forall rest lin ph,
    sim css d0 lin ps s ph -> css !! i = Some cs -> ps !! i = Some p -> cs = events_of i lin ++ rest ->
    ph i = PB ->
    exists lin', sim css d0 lin' ps s ph /\
      (forall j, j <> i -> events_of j lin' = events_of j lin) /\
      exists rest', cs = events_of i lin' ++ rest' /\
      match rest' with
      | [] => p = Ret (resof i lin' d0)
      | c :: rest1 => exists q, finished q = false /\ p = wrap i (rev (resof i lin' d0)) rest1 q /\
                                wfB i q /\ pre i c (after lin' d0) q (dat s)
      end.
  Proof.
    induction rest as [|c rest IH]; intros lin ph Hs Hcs Hp Hrest Hph.
    - exists lin. split; [exact Hs|]. split; [auto|]. exists []. split; [exact Hrest|].
      destruct (sim_thr _ _ _ _ _ _ Hs i cs Hcs) as (p0 & rest0 & H1 & H2 & _ & H4).
      rewrite Hp in H1. injection H1 as <-. rewrite Hrest in H2. apply app_inv_head in H2. subst rest0.
      rewrite Hph in H4. apply H4.
    - destruct (sim_thr _ _ _ _ _ _ Hs i cs Hcs) as (p0 & rest0 & H1 & H2 & H3 & H4).
      rewrite Hp in H1. injection H1 as <-. rewrite Hrest in H2. apply app_inv_head in H2. subst rest0.
      rewrite Hph in H4. destruct H4 as (q & Hq & Hw & Hpre).
      destruct (finished q) eqn:Ef.
      2: { exists lin. split; [exact Hs|]. split; [auto|]. exists (c :: rest). split; [exact Hrest|]. eauto. }
      destruct (wrap_done i (rev (resof i lin d0)) rest q Ef) as (r & Hr & Hwr).
      destruct (Hpre (after lin d0)) as (d' & G1 & G2 & G3 & G4); [reflexivity|].
      rewrite Hr in G4.
      set (lin1 := lin ++ [(i, c)]).
      assert (EA : after lin1 d0 = d') by (unfold lin1; rewrite sseq_snoc, G4; reflexivity).
      assert (ER : resof i lin1 d0 = resof i lin d0 ++ [r]).
      { unfold lin1. rewrite sseq_snoc, G4. simpl. rewrite events_of_snoc, Nat.eqb_refl. reflexivity. }
      assert (Hc1 : cs = events_of i lin1 ++ rest).
      { unfold lin1. rewrite events_of_snoc, Nat.eqb_refl, <- app_assoc. exact Hrest. }
      assert (Hs1 : sim css d0 lin1 ps s ph).
      { assert (Hs1 : sim css d0 lin1 (<[i:=p]> ps) s (setph ph i PB)).
        { apply (sim_update css d0 lin ps s ph i cs p rest lin1 p s PB Hs Hcs Hp).
          - right. exists c. reflexivity.
          - exact Hc1.
          - inversion H3; assumption.
          - rewrite ER, EA, Hq, Hwr. rewrite <- (rev_unit (resof i lin d0) r). apply thr_next; [inversion H3; assumption|].
            symmetry. exact G1.
          - intros j Hj. rewrite EA. apply G3, Hj.
          - intros j L Hj _ _. rewrite EA. apply G2.
          - intros j _. reflexivity.
          - intros j L m _ _ _ _ Ht. split; [reflexivity|exact Ht].
          - intros L Hg. rewrite EA. transitivity (after lin d0); [|apply G2].
            apply (sim_glob _ _ _ _ _ _ Hs). intros j Hj E. apply (Hg j Hj).
            destruct (decide (j = i)) as [->|Hne]; [congruence|rewrite setph_ne by auto; exact E]. }
        rewrite list_insert_same in Hs1 by exact Hp.
        destruct Hs1 as [a1 a2 a3 a4]. split; auto.
        - intros j csj Hj. destruct (a3 j csj Hj) as (pj & rj & b1 & b2 & b3 & b4). exists pj, rj.
          split; [exact b1|]. split; [exact b2|]. split; [exact b3|].
          destruct (decide (j = i)) as [->|Hne]; [rewrite setph_eq in b4; rewrite Hph; exact b4|rewrite setph_ne in b4 by auto; exact b4].
        - intros L Hg. apply a4. intros j Hj. destruct (decide (j = i)) as [->|Hne];
            [rewrite setph_eq; discriminate|rewrite setph_ne by auto; auto]. }
      destruct (IH lin1 ph Hs1 Hcs Hp Hc1 Hph) as (lin' & I1 & I2 & I3).
      exists lin'. split; [exact I1|]. split; [|exact I3]. intros j Hj. rewrite (I2 j Hj). unfold lin1.
      rewrite events_of_snoc. destruct (Nat.eqb_spec i j); congruence.
  Qed.

  (** The same for a thread in any phase; phases other than "before" only when the
      current call is unfinished. *)
  Lemma settle css d0 ps s i cs p lin ph :
    sim css d0 lin ps s ph -> css !! i = Some cs -> ps !! i = Some p ->
    exists lin' ph', sim css d0 lin' ps s ph' /\
      (forall j, j <> i -> events_of j lin' = events_of j lin) /\
      exists rest', cs = events_of i lin' ++ rest' /\ Forall (ok i) rest' /\
        thrst i (ph' i) p rest' (resof i lin' d0) (after lin' d0) (dat s) (lks s) /\
        (finished p = true -> rest' = [] /\ p = Ret (resof i lin' d0) /\ ph' i = PB) /\
        match ph' i, rest' with
        | PB, [] => p = Ret (resof i lin' d0)
        | PB, c :: rest1 => exists q, finished q = false /\ p = wrap i (rev (resof i lin' d0)) rest1 q /\
                                wfB i q /\ pre i c (after lin' d0) q (dat s)
        | PI _ _, _ => finished p = false
        | PA, _ => exists rs0 r q, resof i lin' d0 = rs0 ++ [r] /\ p = wrap i (rev rs0) rest' q /\ finished q = false /\
                     wfA i q /\ fst (srun q (dat s)) = r /\ eqP i (snd (srun q (dat s))) (after lin' d0)
        end.
  Proof.
    intros Hs Hcs Hp.
    assert (HB : forall lin ph, sim css d0 lin ps s ph -> ph i = PB ->
      exists lin' ph', sim css d0 lin' ps s ph' /\
      (forall j, j <> i -> events_of j lin' = events_of j lin) /\
      exists rest', cs = events_of i lin' ++ rest' /\ Forall (ok i) rest' /\
        thrst i (ph' i) p rest' (resof i lin' d0) (after lin' d0) (dat s) (lks s) /\
        (finished p = true -> rest' = [] /\ p = Ret (resof i lin' d0) /\ ph' i = PB) /\
        match ph' i, rest' with
        | PB, [] => p = Ret (resof i lin' d0)
        | PB, c :: rest1 => exists q, finished q = false /\ p = wrap i (rev (resof i lin' d0)) rest1 q /\
                                wfB i q /\ pre i c (after lin' d0) q (dat s)
        | PI _ _, _ => finished p = false
        | PA, _ => exists rs0 r q, resof i lin' d0 = rs0 ++ [r] /\ p = wrap i (rev rs0) rest' q /\ finished q = false /\
                     wfA i q /\ fst (srun q (dat s)) = r /\ eqP i (snd (srun q (dat s))) (after lin' d0)
        end).
    { clear lin ph Hs. intros lin ph Hs Hph.
      destruct (sim_thr _ _ _ _ _ _ Hs i cs Hcs) as (p0 & rest & H1 & H2 & H3 & H4).
      destruct (settle_PB css d0 ps s i cs p rest lin ph Hs Hcs Hp H2 Hph) as (lin' & I1 & I2 & rest' & I3 & I4).
      exists lin', ph. split; [exact I1|]. split; [exact I2|]. exists rest'. split; [exact I3|].
      destruct (sim_thr _ _ _ _ _ _ I1 i cs Hcs) as (p1 & rest1 & J1 & J2 & J3 & J4).
      rewrite Hp in J1. injection J1 as <-. rewrite I3 in J2. apply app_inv_head in J2. subst rest1.
      split; [exact J3|]. split; [exact J4|]. rewrite Hph. split; [|exact I4].
      intros Hf. destruct rest' as [|c rest']; [auto|]. exfalso. destruct I4 as (q & Hq & -> & _).
      rewrite wrap_unfinished in Hf by exact Hq. discriminate. }
    destruct (sim_thr _ _ _ _ _ _ Hs i cs Hcs) as (p0 & rest & H1 & H2 & H3 & H4).
    rewrite Hp in H1. injection H1 as <-.
    destruct (ph i) as [|L m|] eqn:Eph.
    - apply (HB lin ph Hs Eph).
    - pose proof H4 as H4'. destruct H4 as (rs0 & r & q & Hrs & -> & Hw & _).
      assert (Hf : finished (wrap i (rev rs0) rest q) = false) by (apply wrap_unfinished; destruct Hw; reflexivity).
      exists lin, ph. split; [exact Hs|]. split; [auto|]. exists rest. rewrite Eph. 
      split; [exact H2|]. split; [exact H3|]. split; [exact H4'|]. split; [congruence|]. exact Hf.
    - pose proof H4 as H4'. destruct H4 as (rs0 & r & q & Hrs & Hq & Hw & Hr & HP).
      destruct (finished q) eqn:Ef.
      + destruct (wrap_done i (rev rs0) rest q Ef) as (r' & Hr' & Hwr).
        rewrite Hr' in Hr, HP. simpl in Hr, HP. subst r'.
        assert (Hs1 : sim css d0 lin (<[i:=p]> ps) s (setph ph i PB)).
        { apply (sim_update css d0 lin ps s ph i cs p rest lin p s PB Hs Hcs Hp); auto.
          - rewrite Hrs, Hq, Hwr, <- (rev_unit rs0 r). apply thr_next; assumption.
          - intros j _. reflexivity.
          - intros j L _ _ _. reflexivity.
          - intros j _. reflexivity.
          - intros j L m _ _ _ _ Ht. split; [reflexivity|exact Ht].
          - intros L Hg. apply (sim_glob _ _ _ _ _ _ Hs). intros j Hj E. apply (Hg j Hj).
            destruct (decide (j = i)) as [->|Hne]; [congruence|rewrite setph_ne by auto; exact E]. }
        rewrite list_insert_same in Hs1 by exact Hp.
        apply (HB lin _ Hs1). apply setph_eq.
      + assert (Hf : finished p = false) by (rewrite Hq; apply wrap_unfinished, Ef).
        exists lin, ph. split; [exact Hs|]. split; [auto|]. exists rest. rewrite Eph.
        split; [exact H2|]. split; [exact H3|]. split; [exact H4'|]. split; [congruence|]. eauto 10.
  Qed.

  (** ** Steps *)
  Lemma wlk_rel_inv {A} b hs l k (h : exn -> prog C A) : wlk b hs (Act (Rel l) k h) -> exists hs', hs = l :: hs'.
  Proof. intros H. inversion H; subst; eauto. Qed.
  Lemma wlk_acq_inv {A} b hs l m k (h : exn -> prog C A) : wlk b hs (Act (Acq l m) k h) -> may_acq hs l m.
  Proof. intros H. inversion H; subst; assumption. Qed.

  Lemma acq_ne L i l m (k k' : locks) r : l <> L -> lock_acq (reent l) i l m k = (r, k') -> k' !! L = k !! L.
  Proof.
    intros Hne E. unfold lock_acq in E.
    destruct (k !! l) as [[o n|os]|], m; try (injection E as <- <-; rewrite ?lookup_insert_ne by auto; reflexivity).
    destruct (_ && _)%bool; injection E as <- <-; rewrite ?lookup_insert_ne by auto; reflexivity.
  Qed.
  Lemma rel_ne L i l (k k' : locks) r : l <> L -> lock_rel i l k = (r, k') -> k' !! L = k !! L.
  Proof.
    intros Hne E. unfold lock_rel in E.
    destruct (k !! l) as [[o [|[|n]]|os]|];
      try (injection E as <- <-; rewrite ?lookup_insert_ne, ?lookup_delete_ne by auto; reflexivity).
    destruct (remove1 i os); injection E as <- <-; rewrite ?lookup_insert_ne, ?lookup_delete_ne by auto; reflexivity.
  Qed.

  Lemma tab_acq L i l m (k k' : locks) u j m' : main L ->
    lock_acq (reent l) i l m k = (Good u, k') -> tab m' j (k !! L) -> tab m' j (k' !! L) .
  Proof.
    intros HL E Ht. destruct (decide (l = L)) as [->|Hne]; [|rewrite (acq_ne L i l m k k' _ Hne E); exact Ht].
    unfold lock_acq in E. destruct m'; simpl in *.
    - destruct Ht as [n Ht]. rewrite Ht, (main_plain L HL) in E. destruct m; discriminate.
    - destruct Ht as (os & Ht & Hin). rewrite Ht in E. destruct m; [discriminate|]. injection E as _ <-.
      exists (i :: os). rewrite lookup_insert. split; [reflexivity|right; exact Hin].
  Qed.
  Lemma remove1_In i j os : i <> j -> In j os -> In j (remove1 i os).
  Proof.
    intros Hne. induction os as [|x os IH]; intros H; simpl in *; [exact H|].
    destruct (Nat.eqb_spec x i) as [->|Hx].
    - destruct H; [congruence|assumption].
    - destruct H as [->|H]; [left; reflexivity|right; auto].
  Qed.
  Lemma tab_rel L held i l hs (k k' : locks) r j m' :
    lock_inv held k -> held i = l :: hs -> j <> i ->
    lock_rel i l k = (r, k') -> tab m' j (k !! L) -> tab m' j (k' !! L).
  Proof.
    intros Hl Hh Hj E Ht. destruct (decide (l = L)) as [->|Hne]; [|rewrite (rel_ne L i l k k' _ Hne E); exact Ht].
    specialize (Hl L). unfold lock_rel in E. destruct m'; simpl in *.
    - destruct Ht as [n Ht]. rewrite Ht in Hl. destruct Hl as (_ & _ & Hl). specialize (Hl i ltac:(auto)).
      rewrite Hh in Hl. rewrite cnt_cons_eq in Hl. discriminate.
    - destruct Ht as (os & Ht & Hin). rewrite Ht in E.
      pose proof (remove1_In i j os ltac:(auto) Hin) as Hin'.
      destruct (remove1 i os) as [|y os'] eqn:Er; [destruct Hin'|]. injection E as <- <-.
      exists (y :: os'). rewrite lookup_insert. auto.
  Qed.
  Lemma acq_tab L i m (k k' : locks) u : main L ->
    lock_acq (reent L) i L m k = (Good u, k') -> tab m i (k' !! L) /\ forall j m', tab m' j (k !! L) -> m = Sh /\ m' = Sh.
  Proof.
    intros HL. unfold lock_acq. rewrite (main_plain L HL). intros E.
    destruct (k !! L) as [[o n|os]|] eqn:Ek; destruct m; simpl in E; try discriminate; injection E as _ <-;
      rewrite lookup_insert; simpl; (split; [eauto using in_eq|]); intros j m' Ht; destruct m'; simpl in Ht; auto;
      destruct Ht as [? Ht]; try discriminate; destruct Ht as [Ht _]; discriminate.
  Qed.

  Lemma pre_op i c0 A X (c : C X) (k : X -> prog C R) h d : priv i c -> pre i c0 A (Act (Op c) k h) d ->
    (forall x, fst (cexec c d) = Good x -> pre i c0 A (k x) (snd (cexec c d))) /\
    (forall e, fst (cexec c d) = Fail e -> pre i c0 A (h e) (snd (cexec c d))).
  Proof.
    intros (H1 & H2 & H3) Hp.
    assert (Hgen : forall A', eqP i A' A -> exists d', 
      fst (cexec c d') = fst (cexec c d) /\
      eqP i (snd (cexec c d')) (snd (cexec c d)) /\ (forall l, eqS l A' (snd (cexec c d'))) /\
      (forall j, j <> i -> eqP j A' (snd (cexec c d'))) /\
      srun (impl i c0) A' = srun (Act (Op c) k h) d').
    { intros A' HA'. destruct (Hp A' HA') as (d' & G1 & G2 & G3 & G4). exists d'.
      destruct (H1 d' d G1) as [E1 E2]. split; [exact E1|]. split; [exact E2|].
      split; [intros l; transitivity d'; [apply G2|apply H2]|]. split; [|exact G4].
      intros j Hj. transitivity d'; [apply G3, Hj|apply H3, Hj]. }
    split.
    - intros x Hx A' HA'. destruct (Hgen A' HA') as (d' & G0 & G1 & G2 & G3 & G4). rewrite Hx in G0.
      exists (snd (cexec c d')). split; [exact G1|]. split; [exact G2|]. split; [exact G3|].
      rewrite G4. simpl. destruct (cexec c d') as [o d1]. simpl in *. subst o. reflexivity.
    - intros x Hx A' HA'. destruct (Hgen A' HA') as (d' & G0 & G1 & G2 & G3 & G4). rewrite Hx in G0.
      exists (snd (cexec c d')). split; [exact G1|]. split; [exact G2|]. split; [exact G3|].
      rewrite G4. simpl. destruct (cexec c d') as [o d1]. simpl in *. subst o. reflexivity.
  Qed.

  Lemma sim_step css d0 lin ps s ph held i ps' s' :
    pool_inv held ps s -> sim css d0 lin ps s ph -> cstep i (ps, s) = Some (ps', s') ->
    exists lin' ph', sim css d0 lin' ps' s' ph'.
  Proof.
    intros (Hli & _ & Hwk) Hs0 Hstep. unfold cstep in Hstep. simpl in Hstep.
    destruct (ps !! i) as [p|] eqn:Ep; [|discriminate].
    destruct (pstep i p s) as [[p' s1]|] eqn:Es; [|discriminate]. injection Hstep as <- <-.
    assert (Hi : i < length css) by (rewrite <- (sim_len _ _ _ _ _ _ Hs0); eapply lookup_lt_Some; eauto).
    destruct (lookup_lt_is_Some_2 css i Hi) as [cs Hcs].
    destruct (settle css d0 ps s i cs p lin ph Hs0 Hcs Ep) as (lin1 & ph1 & Hs & _ & rest & Hrest & Hok & Hst & _ & Hset).
    clear Hs0 lin ph. rename lin1 into lin, ph1 into ph.
    pose proof (Hwk i p Ep) as Hw.
    (* steps that do not linearize *)
    assert (Hgo : forall f',
      thrst i f' p' rest (resof i lin d0) (after lin d0) (dat s1) (lks s1) ->
      (forall j, j <> i -> eqP j (dat s) (dat s1)) ->
      (forall j L m, j <> i -> j < length css -> ph j = PI L m -> main L -> tab m j (lks s !! L) ->
         eqS L (dat s) (dat s1) /\ tab m j (lks s1 !! L)) ->
      (forall L, f' = PI L Ex \/ ph i <> PI L Ex /\ eqS L (dat s) (dat s1) \/ eqS L (dat s1) (after lin d0)) ->
      exists lin' ph', sim css d0 lin' (<[i:=p']> ps) s1 ph').
    { intros f' H1 H2 H3 H4. exists lin, (setph ph i f').
      apply (sim_update css d0 lin ps s ph i cs p rest lin p' s1 f' Hs Hcs Ep); auto.
      - intros j _. reflexivity.
      - intros j L _ _ _. reflexivity.
      - intros L Hg. destruct (H4 L) as [->|[[H5 H6]|H5]]; [|transitivity (dat s); [symmetry; exact H6|]|exact H5].
        + exfalso. apply (Hg i Hi). apply setph_eq.
        + apply (sim_glob _ _ _ _ _ _ Hs). intros j Hj E. destruct (decide (j = i)) as [->|Hne]; [congruence|].
          apply (Hg j Hj). rewrite setph_ne by auto. exact E. }
    (* private commands *)
    assert (Hpriv : forall X (c : C X), priv i c -> s1 = mkst (snd (cexec c (dat s))) (lks s) ->
      (forall j, j <> i -> eqP j (dat s) (dat s1)) /\
      (forall j L m, j <> i -> j < length css -> ph j = PI L m -> main L -> tab m j (lks s !! L) ->
         eqS L (dat s) (dat s1) /\ tab m j (lks s1 !! L)) /\ forall L, eqS L (dat s) (dat s1)).
    { intros X c (H1 & H2 & H3) ->. simpl. split; [intros j Hj; apply H3, Hj|].
      split; [|intros L; apply H2]. intros j L m _ _ _ _ Ht. split; [apply H2|exact Ht]. }
    (* lock commands *)
    assert (Hacq : forall l m rs cs' k h, p = wrap i rs cs' (Act (Acq l m) k h) ->
      dat s1 = dat s /\ p' = wrap i rs cs' (k tt) /\ lock_acq (reent l) i l m (lks s) = (Good tt, lks s1) /\
      (forall j L m, j <> i -> j < length css -> ph j = PI L m -> main L -> tab m j (lks s !! L) ->
         eqS L (dat s) (dat s1) /\ tab m j (lks s1 !! L))).
    { intros l m rs cs' k h ->. rewrite pstep_wrap in Es. simpl in Es.
      destruct (lock_acq (reent l) i l m (lks s)) as [r k1] eqn:Ea.
      assert (Hm : may_acq (held i) l m) by (eapply wlk_acq_inv; exact Hw).
      assert (Hr : r = Good tt).
      { apply (acq_inv held (lks s) i l m r k1 Hli (proj1 Hm) Ea). intros ->. discriminate. }
      subst r. injection Es as <- <-. simpl. split; [reflexivity|]. split; [reflexivity|]. split; [reflexivity|].
      intros j L m' Hj _ _ HL Ht. split; [reflexivity|]. eapply tab_acq; eauto. }
    assert (Hrel : forall l rs cs' k h, p = wrap i rs cs' (Act (Rel l) k h) ->
      dat s1 = dat s /\ p' = wrap i rs cs' (k tt) /\ (exists r, lock_rel i l (lks s) = (r, lks s1)) /\
      (forall j L m, j <> i -> j < length css -> ph j = PI L m -> main L -> tab m j (lks s !! L) ->
         eqS L (dat s) (dat s1) /\ tab m j (lks s1 !! L))).
    { intros l rs cs' k h ->. rewrite pstep_wrap in Es. simpl in Es.
      destruct (lock_rel i l (lks s)) as [r k1] eqn:Ea.
      assert (Hh : exists hs, held i = l :: hs) by (eapply wlk_rel_inv; exact Hw). destruct Hh as [hs Hh].
      assert (Hr : r = Good tt) by (apply (rel_inv held (lks s) i l hs r k1 Hli Hh Ea)).
      subst r. injection Es as <- <-. simpl. split; [reflexivity|]. split; [reflexivity|]. split; [eauto|].
      intros j L m' Hj _ _ HL Ht. split; [reflexivity|]. eapply tab_rel; eauto. }
    assert (Hop : forall X (c : C X) rs cs' k h, p = wrap i rs cs' (Act (Op c) k h) ->
      s1 = mkst (snd (cexec c (dat s))) (lks s) /\
      ((exists x, fst (cexec c (dat s)) = Good x /\ p' = wrap i rs cs' (k x) /\
                  srun (Act (Op c) k h) (dat s) = srun (k x) (dat s1)) \/
       (exists e, fst (cexec c (dat s)) = Fail e /\ p' = wrap i rs cs' (h e) /\
                  srun (Act (Op c) k h) (dat s) = srun (h e) (dat s1)))).
    { intros X c rs cs' k h ->. rewrite pstep_wrap in Es. simpl in Es. simpl.
      destruct (cexec c (dat s)) as [[x|e|] d1]; [| |discriminate]; injection Es as <- <-; simpl;
        (split; [reflexivity|]); [left|right]; eauto. }
    destruct (ph i) as [|L m|] eqn:Eph.
    - (* before the section *)
      destruct rest as [|c0 rest].
      { rewrite Hset in Es. discriminate. }
      destruct Hset as (q & Hf & Hq & Hwf & Hpre).
      destruct Hwf as [a|e|X c k h Hc Hk Hh|l m k h Hk|l k h Hk|L m k h HL Hk]; try discriminate.
      + destruct (Hop X c _ _ _ _ Hq) as (Hs1 & Hcase). destruct (Hpriv X c Hc Hs1) as (Q1 & Q2 & Q3).
        destruct (pre_op i c0 _ X c k h _ Hc Hpre) as [P1 P2].
        apply (Hgo PB); [|exact Q1|exact Q2|intros L; right; left; split; [congruence|apply Q3]].
        simpl. rewrite Hs1. simpl. destruct Hcase as [(x & E & -> & _)|(e & E & -> & _)]; eauto.
      + destruct (Hacq _ _ _ _ _ _ Hq) as (Q1 & Q2 & Q3 & Q4).
        apply (Hgo PB); auto.
        * rewrite Q1, Q2. simpl. exists (k tt). split; [reflexivity|]. split; [exact Hk|]. exact Hpre.
        * intros j _. rewrite Q1. reflexivity.
        * intros L. right. left. split; [congruence|]. rewrite Q1. reflexivity.
      + destruct (Hrel _ _ _ _ _ Hq) as (Q1 & Q2 & Q3 & Q4).
        apply (Hgo PB); auto.
        * rewrite Q1, Q2. simpl. exists (k tt). split; [reflexivity|]. split; [exact Hk|]. exact Hpre.
        * intros j _. rewrite Q1. reflexivity.
        * intros L. right. left. split; [congruence|]. rewrite Q1. reflexivity.
      + (* the call takes effect *)
        destruct (Hacq _ _ _ _ _ _ Hq) as (Q1 & Q2 & Q3 & Q4).
        destruct (acq_tab L i m (lks s) (lks s1) tt HL Q3) as [T1 T2].
        destruct (footI L m i (k tt) Hk) as (F1 & F2 & F3 & F4).
        destruct (Hpre (after lin d0)) as (d' & G1 & G2 & G3 & G4); [reflexivity|].
        change (srun (Act (Acq L m) k h) d') with (srun (k tt) d') in G4.
        assert (Hnoex : forall j, j < length css -> ph j <> PI L Ex).
        { intros j Hj E. destruct (decide (j = i)) as [->|Hne]; [congruence|].
          destruct (lookup_lt_is_Some_2 css j Hj) as [csj Hcsj].
          destruct (sim_thr _ _ _ _ _ _ Hs j csj Hcsj) as (pj & rj & _ & _ & _ & Hj4). rewrite E in Hj4. simpl in Hj4.
          destruct Hj4 as (? & ? & ? & ? & ? & ? & ? & ? & ? & ? & Hj4). destruct (T2 j Ex Hj4) as [_ ?]. discriminate. }
        pose proof (sim_glob _ _ _ _ _ _ Hs L Hnoex) as HS.
        assert (HS' : eqS L (dat s) d') by (transitivity (after lin d0); auto).
        destruct (F1 (dat s) d' HS' ltac:(symmetry; exact G1)) as (E1 & E2 & E3).
        set (lin1 := lin ++ [(i, c0)]).
        assert (EA : after lin1 d0 = snd (srun (k tt) d')) by (unfold lin1; rewrite sseq_snoc, G4; reflexivity).
        assert (ER : resof i lin1 d0 = resof i lin d0 ++ [fst (srun (k tt) d')]).
        { unfold lin1. rewrite sseq_snoc, G4. simpl. rewrite events_of_snoc, Nat.eqb_refl. reflexivity. }
        exists lin1, (setph ph i (PI L m)).
        apply (sim_update css d0 lin ps s ph i cs p rest lin1 p' s1 (PI L m) Hs Hcs Ep).
        * right. exists c0. reflexivity.
        * unfold lin1. rewrite events_of_snoc, Nat.eqb_refl, <- app_assoc. exact Hrest.
        * inversion Hok; assumption.
        * rewrite ER, EA, Q1, Q2. simpl. exists (resof i lin d0), (fst (srun (k tt) d')), (k tt).
          split; [reflexivity|]. split; [reflexivity|]. split; [exact Hk|]. split; [exact E1|].
          split; [exact E3|]. split; [intros _; exact E2|]. split; [exact HL|exact T1].
        * intros j Hj. rewrite EA. transitivity d'; [apply G3, Hj|apply F2, Hj].
        * intros j L' Hj Hjl E. destruct (decide (L' = L)) as [->|HL']; [destruct (Hnoex j Hjl E)|].
          rewrite EA. transitivity d'; [apply G2|apply F4, HL'].
        * intros j _. rewrite Q1. reflexivity.
        * exact Q4.
        * intros L' Hg. rewrite Q1, EA. destruct (decide (L' = L)) as [->|HL'].
          -- destruct m; [destruct (Hg i Hi); apply setph_eq|].
             transitivity d'; [exact HS'|apply F3; reflexivity].
          -- transitivity d'; [|apply F4, HL']. transitivity (after lin d0); [|apply G2].
             apply (sim_glob _ _ _ _ _ _ Hs). intros j Hj E. destruct (decide (j = i)) as [->|Hne]; [congruence|].
             apply (Hg j Hj). rewrite setph_ne by auto. exact E.
    - (* inside the section *)
      destruct Hst as (rs0 & r & q & Hrs & Hq & Hwf & Hr & HP & HSx & HL & Ht).
      (* nobody else is inside, or all are readers *)
      assert (Hothers : forall j m', j <> i -> ph j = PI L m' -> tab m' j (lks s !! L) -> m = Sh).
      { intros j m' Hj _ Htj. destruct m; [|reflexivity]. destruct Ht as [n Ht]. rewrite Ht in Htj.
        destruct m'; simpl in Htj; destruct Htj as [? Htj]; [congruence|destruct Htj; discriminate]. }
      destruct Hwf as [X c k h Hc Hk Hh|l m' k h Hl Hk|l k h Hl Hk|k h Hk].
      + destruct (Hop X c _ _ _ _ Hq) as (Hs1 & Hcase). destruct Hc as (H1 & H2 & H3 & H3').
        assert (Hd1 : dat s1 = snd (cexec c (dat s))) by (rewrite Hs1; reflexivity).
        apply (Hgo (PI L m)).
        * assert (Ht1 : tab m i (lks s1 !! L)) by (rewrite Hs1; exact Ht).
          simpl. destruct Hcase as [(x & E & -> & Er)|(e & E & -> & Er)]; rewrite Er in Hr, HP, HSx.
          -- exists rs0, r, (k x). pose proof (Hk (dat s) x E). auto 12.
          -- exists rs0, r, (h e). auto 12.
        * intros j Hj. rewrite Hd1. apply H2, Hj.
        * intros j L' m' Hj _ Ej _ Htj. rewrite Hs1. simpl. split; [|exact Htj].
          destruct (decide (L' = L)) as [->|HL']; [|apply H3', HL']. apply H3. eapply Hothers; eauto.
        * intros L'. destruct (decide (L' = L)) as [->|HL'].
          -- destruct m; [left; reflexivity|]. right. left. split; [congruence|]. rewrite Hd1. apply H3. reflexivity.
          -- right. left. split; [congruence|]. rewrite Hd1. apply H3', HL'.
      + destruct (Hacq _ _ _ _ _ _ Hq) as (Q1 & Q2 & Q3 & Q4).
        apply (Hgo (PI L m)); auto.
        * rewrite Q1, Q2. simpl. exists rs0, r, (k tt). rewrite (acq_ne L i l m' _ _ _ Hl Q3). auto 12.
        * intros j _. rewrite Q1. reflexivity.
        * intros L'. destruct (decide (L' = L)) as [->|HL'].
          -- destruct m; [left; reflexivity|]. right. left. split; [congruence|]. rewrite Q1. reflexivity.
          -- right. left. split; [congruence|]. rewrite Q1. reflexivity.
      + destruct (Hrel _ _ _ _ _ Hq) as (Q1 & Q2 & [r1 Q3] & Q4).
        apply (Hgo (PI L m)); auto.
        * rewrite Q1, Q2. simpl. exists rs0, r, (k tt). rewrite (rel_ne L i l _ _ _ Hl Q3). auto 12.
        * intros j _. rewrite Q1. reflexivity.
        * intros L'. destruct (decide (L' = L)) as [->|HL'].
          -- destruct m; [left; reflexivity|]. right. left. split; [congruence|]. rewrite Q1. reflexivity.
          -- right. left. split; [congruence|]. rewrite Q1. reflexivity.
      + destruct (Hrel _ _ _ _ _ Hq) as (Q1 & Q2 & [r1 Q3] & Q4).
        apply (Hgo PA); auto.
        * rewrite Q1, Q2. simpl. exists rs0, r, (k tt). auto 10.
        * intros j _. rewrite Q1. reflexivity.
        * intros L'. destruct (decide (L' = L)) as [->|HL'].
          -- destruct m.
             ++ right. right. rewrite Q1. destruct (footA i (k tt) Hk) as (_ & F2 & _).
                transitivity (snd (srun (k tt) (dat s))); [apply F2|apply HSx; reflexivity].
             ++ right. left. split; [congruence|]. rewrite Q1. reflexivity.
          -- right. left. split; [congruence|]. rewrite Q1. reflexivity.
    - (* after the section *)
      assert (Hset' : exists rs0 r q, resof i lin d0 = rs0 ++ [r] /\ p = wrap i (rev rs0) rest q /\ finished q = false /\
                     wfA i q /\ fst (srun q (dat s)) = r /\ eqP i (snd (srun q (dat s))) (after lin d0))
        by (destruct rest; exact Hset).
      destruct Hset' as (rs0 & r & q & Hrs & Hq & Hqf & Hwf & Hr & HP).
      destruct Hwf as [a|e|X c k h Hc Hk Hh|l m' k h Hk|l k h Hk]; [discriminate|discriminate|..].
      + destruct (Hop X c _ _ _ _ Hq) as (Hs1 & Hcase). destruct (Hpriv X c Hc Hs1) as (Q1 & Q2 & Q3).
        apply (Hgo PA); [|exact Q1|exact Q2|intros L; right; left; split; [congruence|apply Q3]].
        simpl. destruct Hcase as [(x & E & -> & Er)|(e & E & -> & Er)]; rewrite Er in Hr, HP.
        * exists rs0, r, (k x). auto 10.
        * exists rs0, r, (h e). auto 10.
      + destruct (Hacq _ _ _ _ _ _ Hq) as (Q1 & Q2 & Q3 & Q4).
        apply (Hgo PA); auto.
        * rewrite Q1, Q2. simpl. exists rs0, r, (k tt). auto 10.
        * intros j _. rewrite Q1. reflexivity.
        * intros L. right. left. split; [congruence|]. rewrite Q1. reflexivity.
      + destruct (Hrel _ _ _ _ _ Hq) as (Q1 & Q2 & Q3 & Q4).
        apply (Hgo PA); auto.
        * rewrite Q1, Q2. simpl. exists rs0, r, (k tt). auto 10.
        * intros j _. rewrite Q1. reflexivity.
        * intros L. right. left. split; [congruence|]. rewrite Q1. reflexivity.
  Qed.

  Definition pool (css : list (list K)) : list (prog C (list (outcome R))) :=
    imap (fun i cs => thread (map (impl i) cs)) css.

  Lemma sim_init css d0 : (forall i cs, css !! i = Some cs -> Forall (ok i) cs) ->
    sim css d0 [] (pool css) (mkst d0 stdpp.base.empty) (fun _ => PB).
  Proof.
    intros Hok. split.
    - apply imap_length.
    - constructor.
    - intros i cs Hcs. exists (thread (map (impl i) cs)), cs. unfold pool. rewrite list_lookup_imap, Hcs.
      split; [reflexivity|]. split; [reflexivity|]. split; [apply Hok, Hcs|].
      apply (thr_next i [] cs); [apply Hok, Hcs|reflexivity].
    - intros L _. reflexivity.
  Qed.

  Lemma sim_sched css d0 sch : forall lin ps s ph held ps' s',
    pool_inv held ps s -> sim css d0 lin ps s ph -> sched_run sch (ps, s) = Some (ps', s') ->
    exists lin' ph', sim css d0 lin' ps' s' ph'.
  Proof.
    induction sch as [|i sch IH]; intros lin ps s ph held ps' s' Hp Hs Hr; simpl in Hr.
    - injection Hr as <- <-. eauto.
    - destruct (cstep i (ps, s)) as [[ps1 s1]|] eqn:E; [|discriminate].
      destruct (pool_step nb held i ps s ps1 s1 Hp E) as [held1 Hp1].
      destruct (sim_step css d0 lin ps s ph held i ps1 s1 Hp Hs E) as (lin1 & ph1 & Hs1). eauto.
  Qed.

  Lemma settle_all css d0 ps s lin ph : sim css d0 lin ps s ph ->
    Forall (fun p => finished p = true) ps -> forall n, n <= length css ->
    exists lin' ph', sim css d0 lin' ps s ph' /\
      forall i cs, i < n -> css !! i = Some cs -> cs = events_of i lin'.
  Proof.
    intros Hs Hfin. induction n as [|n IH]; intros Hn.
    - exists lin, ph. split; [exact Hs|]. intros i cs Hi. lia.
    - destruct IH as (lin1 & ph1 & Hs1 & H1); [lia|].
      destruct (lookup_lt_is_Some_2 css n ltac:(lia)) as [csn Hcsn].
      destruct (lookup_lt_is_Some_2 ps n) as [p Hp]; [rewrite (sim_len _ _ _ _ _ _ Hs1); lia|].
      destruct (settle css d0 ps s n csn p lin1 ph1 Hs1 Hcsn Hp) as (lin2 & ph2 & Hs2 & H2 & rest & H3 & _ & _ & H4 & _).
      exists lin2, ph2. split; [exact Hs2|]. intros i cs Hi Hcs.
      destruct (decide (i = n)) as [->|Hne].
      + rewrite Hcsn in Hcs. injection Hcs as <-. destruct H4 as (-> & _); [rewrite Forall_lookup in Hfin; eauto|].
        rewrite app_nil_r in H3. exact H3.
      + rewrite (H2 i Hne). apply H1; [lia|exact Hcs].
  Qed.

  Theorem serial css d0 sch ps' s' :
    (forall i cs, css !! i = Some cs -> Forall (ok i) cs) ->
    (forall i c, ok i c -> wlk [] [] (impl i c)) ->
    sched_run sch (pool css, mkst d0 stdpp.base.empty) = Some (ps', s') ->
    Forall (fun p => finished p = true) ps' ->
    exists order : list (nat * K),
      Forall (fun e => fst e < length css) order /\
      (forall i cs, css !! i = Some cs -> events_of i order = cs) /\
      (forall i p, ps' !! i = Some p -> p = Ret (resof i order d0)) /\
      (forall L, eqS L (dat s') (after order d0)) /\
      (forall i, i < length css -> eqP i (dat s') (after order d0)) /\
      lks s' = stdpp.base.empty.
  Proof.
    intros Hok Hwlk Hr Hfin.
    assert (Hpool : Forall (wlk [] []) (pool css)).
    { apply Forall_lookup. intros i p Hp. unfold pool in Hp. rewrite list_lookup_imap in Hp.
      destruct (css !! i) as [cs|] eqn:Hcs; [|discriminate]. injection Hp as <-.
      apply wlk_thread. apply List.Forall_map. specialize (Hok i cs Hcs). revert Hok.
      apply List.Forall_impl. intros c. apply Hwlk. }
    destruct (sim_sched css d0 sch _ _ _ _ _ _ _ (pool_init (pool css) d0 Hpool) (sim_init css d0 Hok) Hr)
      as (lin & ph & Hs).
    destruct (settle_all css d0 ps' s' lin ph Hs Hfin (length css) (le_n _)) as (lin1 & ph1 & Hs1 & Hall).
    exists lin1. split; [apply (sim_tid _ _ _ _ _ _ Hs1)|].
    assert (Hthr : forall i cs, css !! i = Some cs -> events_of i lin1 = cs /\ (forall L, ph1 i <> PI L Ex) /\
      ps' !! i = Some (Ret (resof i lin1 d0)) /\ eqP i (dat s') (after lin1 d0)).
    { intros i cs Hcs. pose proof (Hall i cs (lookup_lt_Some _ _ _ Hcs) Hcs) as E.
      destruct (sim_thr _ _ _ _ _ _ Hs1 i cs Hcs) as (p & rest & H1 & H2 & _ & H4).
      rewrite E in H2. rewrite <- (app_nil_r (events_of i lin1)) in H2 at 1. apply app_inv_head in H2. subst rest.
      assert (Hf : finished p = true) by (rewrite Forall_lookup in Hfin; eauto).
      split; [symmetry; exact E|].
      destruct (ph1 i) as [|L m|] eqn:Ep; simpl in H4.
      - destruct H4 as [-> H4]. split; [discriminate|]. auto.
      - exfalso. destruct H4 as (rs0 & r & q & _ & -> & Hw & _).
        rewrite wrap_unfinished in Hf; [discriminate|]. destruct Hw; reflexivity.
      - split; [discriminate|]. destruct H4 as (rs0 & r & q & Hrs & -> & Hw & Hr' & HP).
        destruct (finished q) eqn:Ef; [|rewrite wrap_unfinished in Hf by exact Ef; discriminate].
        destruct (wrap_done i (rev rs0) [] q Ef) as (r1 & G1 & G2). rewrite G1 in Hr', HP. simpl in Hr', HP. subst r1.
        split; [|exact HP]. rewrite H1, G2, Hrs. simpl. rewrite rev_involutive. reflexivity. }
    split; [intros i cs Hcs; apply (Hthr i cs Hcs)|].
    split.
    { intros i p Hp. assert (Hi : i < length css) by (rewrite <- (sim_len _ _ _ _ _ _ Hs1); eapply lookup_lt_Some; eauto).
      destruct (lookup_lt_is_Some_2 css i Hi) as [cs Hcs]. destruct (Hthr i cs Hcs) as (_ & _ & H & _).
      rewrite Hp in H. injection H as ->. reflexivity. }
    split.
    { intros L. apply (sim_glob _ _ _ _ _ _ Hs1). intros i Hi. destruct (lookup_lt_is_Some_2 css i Hi) as [cs Hcs].
      apply (Hthr i cs Hcs). }
    split.
    { intros i Hi. destruct (lookup_lt_is_Some_2 css i Hi) as [cs Hcs]. apply (Hthr i cs Hcs). }
    destruct (lock_progress nb (pool css) d0 sch ps' s' Hpool Hr) as [[_ H]|(i & c' & H)]; [exact H|].
    exfalso. unfold cstep in H. simpl in H. destruct (ps' !! i) as [p|] eqn:Hp; [|discriminate].
    rewrite Forall_lookup in Hfin. specialize (Hfin i p Hp). destruct p; discriminate.
  Qed.
End Serial.

(** ** Composition *)
Section Compose.
  Context {C : Type -> Type} {D : Type} `{!Sem C D}.
  Variables (main : nat -> Prop) (eqS eqP : nat -> D -> D -> Prop).
  Notation A' := (wfA eqS eqP).
  Notation I' := (wfI eqS eqP).
  Notation B' := (wfB main eqS eqP).

  Lemma wfA_bind {X Y} i (p : prog C X) (f : X -> prog C Y) : A' i p -> (forall a, A' i (f a)) -> A' i (bind p f).
  Proof. intros H Hf. induction H; simpl; auto; constructor; auto. Qed.
  Lemma wfA_one {X} i (c : C X) : priv eqS eqP i c -> A' i (op c).
  Proof. intros H. constructor; [exact H|intros; constructor..]. Qed.
  Lemma wfA_try {X} i l (p : prog C X) : A' i p -> A' i (try_finally p (release l)).
  Proof. induction 1; simpl; [apply wfA_rel; constructor|apply wfA_rel; constructor|constructor; auto..]. Qed.
  Lemma wfA_with {X} i l m (p : prog C X) : A' i p -> A' i (with_lock l m p).
  Proof. intros H. constructor. apply wfA_try, H. Qed.
  Lemma wfB_A {X} i (p : prog C X) : A' i p -> B' i p.
  Proof. induction 1; constructor; auto. Qed.
  Lemma wfI_bind {X Y} L m i (p : prog C X) (f : X -> prog C Y) : I' L m i p -> (forall a, A' i (f a)) -> I' L m i (bind p f).
  Proof.
    intros H Hf. induction H; simpl; [constructor; eauto..|]. apply wfI_end. apply wfA_bind; auto.
  Qed.
  Lemma wfB_bind {X Y} i (p : prog C X) (f : X -> prog C Y) : B' i p -> (forall a, A' i (f a)) -> B' i (bind p f).
  Proof.
    intros H Hf. induction H; simpl; [apply wfB_A, Hf|constructor; auto..|].
    eapply wfB_enter; [assumption|]. apply wfI_bind; eauto.
  Qed.
  Lemma wfB_bindA {X Y} i (p : prog C X) (f : X -> prog C Y) : A' i p -> (forall a, B' i (f a)) -> B' i (bind p f).
  Proof. intros H Hf. induction H; simpl; auto; constructor; auto. Qed.

  (** Bodies of sections; other locks may be used inside. *)
  Inductive body {X} (L : nat) (m : lmode) (i : nat) : prog C X -> Prop :=
  | body_ret a : body L m i (Ret a)
  | body_raise e : body L m i (Raise e)
  | body_act Y (c : C Y) k h : shar eqS eqP L m i c -> (forall d x, fst (cexec c d) = Good x -> body L m i (k x)) ->
      (forall e, body L m i (h e)) ->
      body L m i (Act (Op c) k h)
  | body_acq l m' k h : l <> L -> body L m i (k tt) -> body L m i (Act (Acq l m') k h)
  | body_rel l k h : l <> L -> body L m i (k tt) -> body L m i (Act (Rel l) k h).
  Lemma body_bind {X Y} L m i (p : prog C X) (f : X -> prog C Y) : body L m i p -> (forall a, body L m i (f a)) -> body L m i (bind p f).
  Proof. intros H Hf. induction H; simpl; auto; constructor; eauto. Qed.
  Lemma body_one {X} L m i (c : C X) : shar eqS eqP L m i c -> body L m i (op c).
  Proof. intros H. constructor; [exact H|intros; constructor..]. Qed.
  Lemma body_try {X} L m i l (p : prog C X) : l <> L -> body L m i p -> body L m i (try_finally p (release l)).
  Proof. intros Hl. induction 1; simpl; [apply body_rel; [exact Hl|constructor]|apply body_rel; [exact Hl|constructor]|constructor; eauto|constructor; eauto|constructor; eauto]. Qed.
  Lemma body_with {X} L m i l m' (p : prog C X) : l <> L -> body L m i p -> body L m i (with_lock l m' p).
  Proof. intros Hl H. apply body_acq; [exact Hl|]. apply body_try; assumption. Qed.
  Lemma wfB_with {X} L m i (p : prog C X) : main L -> body L m i p -> B' i (with_lock L m p).
  Proof.
    intros HL H. eapply wfB_enter; [exact HL|]. cbv beta.
    induction H as [a|e|Y c k h Hc Hk IHk Hh IHh|l m' k h Hl Hk IH|l k h Hl Hk IH]; simpl;
      [apply wfI_end; constructor|apply wfI_end; constructor|constructor; eauto|constructor; eauto|constructor; eauto].
  Qed.
  (** A section inside a properly bracketed use of another lock. *)
  Lemma wfB_around {X} i l m (p : prog C X) : B' i p -> B' i (with_lock l m p).
  Proof.
    intros H. apply wfB_acq.
    induction H as [a|e|Y c k h Hc Hk IHk Hh IHh|l' m' k h Hk IH|l' k h Hk IH|L m' k h HL Hk]; simpl;
      [apply wfB_rel; constructor|apply wfB_rel; constructor|constructor; eauto|constructor; eauto|constructor; eauto|].
    eapply wfB_enter; [exact HL|]. revert Hk. generalize (k tt). clear. intros q Hk.
    induction Hk as [Y c k h Hc Hk IHk Hh IHh|l' m'' k h Hl Hk IH|l' k h Hl Hk IH|k h Hk]; simpl;
      [constructor; eauto|constructor; eauto|constructor; eauto|]. apply wfI_end, wfA_try, Hk.
  Qed.
End Compose.

(** ** A program alone: with all locks free, [run] is [srun] (re-entrant locks included) *)
Section Alone.
  Context {C : Type -> Type} {D : Type} `{!Sem C D}.
  Variable nb : forall X (c : C X) (d : D), fst (cexec c d) <> Block.

  Lemma wlk_srun_gen {A} t : forall hs (p : prog C A) held s,
    wlk [] hs p -> lock_inv held (lks s) -> held t = hs -> (forall j, j <> t -> held j = []) ->
    fst (run t p s) = fst (srun p (dat s)) /\ dat (snd (run t p s)) = snd (srun p (dat s)).
  Proof.
    intros hs p held s H. revert held s.
    induction H as [a|e|hs X c k h Hk IHk Hh IHh|hs l m k h Hm Hk IHk|hs l k h Hk IHk];
      intros held s Hl Ht Ho.
    - split; reflexivity.
    - split; reflexivity.
    - cbn [run exec srun sexec]. pose proof (nb X c (dat s)) as Hnb.
      destruct (cexec c (dat s)) as [[x|e|] d1]; simpl in Hnb; try congruence.
      + apply (IHk x held (mkst d1 (lks s))); auto.
      + apply (IHh e held (mkst d1 (lks s))); auto.
    - assert (Hw : wlk [] hs (Act (Acq l m) k h)) by (constructor; assumption).
      destruct (run t (Act (Acq l m) k h) s) as [r s'] eqn:Er.
      destruct (wlk_run nb t hs _ held s r s' Hw Hl Ht Ho Er) as [Hnb _].
      cbn [run exec] in Er. destruct (lock_acq (reent l) t l m (lks s)) as [r1 k1] eqn:Ea.
      assert (r1 <> Block) by (intros ->; injection Er as <- _; congruence).
      destruct (acq_inv held (lks s) t l m r1 k1 Hl (proj1 Hm) Ea) as [-> Hl1]; [assumption|].
      cbn [srun sexec]. rewrite Ht in Hl1. rewrite <- Er.
      apply (IHk (upd held t (l :: hs)) (mkst (dat s) k1)); auto.
      + apply upd_eq.
      + intros j Hj. rewrite upd_ne by auto. auto.
    - cbn [run exec srun sexec]. destruct (lock_rel t l (lks s)) as [r1 k1] eqn:Ea.
      destruct (rel_inv held (lks s) t l hs r1 k1 Hl Ht Ea) as [-> Hl1].
      apply (IHk (upd held t hs) (mkst (dat s) k1)); auto.
      + apply upd_eq.
      + intros j Hj. rewrite upd_ne by auto. auto.
  Qed.

  Theorem wlk_srun {A} t (p : prog C A) d : wlk [] [] p ->
    run t p (mkst d stdpp.base.empty) = (fst (srun p d), mkst (snd (srun p d)) stdpp.base.empty).
  Proof.
    intros H. destruct (run t p (mkst d stdpp.base.empty)) as [r s'] eqn:Er.
    destruct (lock_released nb t p d r s' H Er) as [_ He].
    destruct (wlk_srun_gen t [] p (fun _ => []) (mkst d stdpp.base.empty) H) as [H1 H2]; auto.
    { intros l. simpl. rewrite lookup_empty. reflexivity. }
    rewrite Er in H1, H2. simpl in H1, H2. destruct s' as [d' k']. simpl in *. subst. reflexivity.
  Qed.
End Alone.
