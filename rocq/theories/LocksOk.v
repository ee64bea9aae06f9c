(** * LocksOk: Locks for programs whose locks depend on results

    [wlo b hs p]: like [wlk], but only for the results [x] of a command [c] with
    [okb c x = true].  [J]: an invariant of the data under which all results are like this. *)
From stdpp Require Import gmap.
From Coq Require Import List Bool Arith Lia.
From Verif Require Import Prog ProgFacts Locks.
Import ListNotations.

Section Ok.
  Context {C : Type -> Type} {D : Type} `{!Sem C D}.
  Variable okb : forall X, C X -> X -> bool.

  Inductive wlo {A} (b : list nat) : list nat -> prog C A -> Prop :=
  | wlo_ret a : wlo b b (Ret a)
  | wlo_raise e : wlo b b (Raise e)
  | wlo_op hs X (c : C X) k h :
      (forall x, okb X c x = true -> wlo b hs (k x)) -> (forall e, wlo b hs (h e)) -> wlo b hs (Act (Op c) k h)
  | wlo_acq hs l m k h :
      may_acq hs l m -> wlo b (l :: hs) (k tt) -> wlo b hs (Act (Acq l m) k h)
  | wlo_rel hs l k h : wlo b hs (k tt) -> wlo b (l :: hs) (Act (Rel l) k h).

  Lemma wlo_bind {A B} b hs (p : prog C A) (f : A -> prog C B) :
    wlo b hs p -> (forall a, wlo b b (f a)) -> wlo b hs (bind p f).
  Proof. intros H Hf. induction H; simpl; auto; constructor; auto. Qed.
  Lemma wlo_opbind {X B} b (c : C X) (f : X -> prog C B) :
    (forall x, okb X c x = true -> wlo b b (f x)) -> wlo b b (bind (op c) f).
  Proof. intros H. simpl. constructor; [exact H|intros e; constructor]. Qed.
  Lemma wlo_single {X} b (c : C X) : wlo b b (op c).
  Proof. constructor; intros; constructor. Qed.
  Lemma wlo_try {A} l b hs (p : prog C A) : wlo (l :: b) hs p -> wlo b hs (try_finally p (release l)).
  Proof. intros H. induction H; simpl; [apply wlo_rel; constructor|apply wlo_rel; constructor|constructor; auto..]. Qed.
  Lemma wlo_with {A} l m b (body : prog C A) :
    may_acq b l m -> wlo (l :: b) (l :: b) body -> wlo b b (with_lock l m body).
  Proof. intros Hm H. constructor; [exact Hm|]. apply wlo_try, H. Qed.
  Lemma wlo_attempt {A} b hs (p : prog C A) : wlo b hs p -> wlo b hs (attempt p).
  Proof. induction 1; simpl; constructor; auto. Qed.
  Lemma wlo_thread {A} b (cs : list (prog C A)) : Forall (wlo b b) cs -> forall rs, wlo b b (thread_from rs cs).
  Proof.
    induction 1 as [|c cs Hc _ IH]; intros rs; simpl; [constructor|].
    apply wlo_bind; [apply wlo_attempt, Hc|auto].
  Qed.

  (** The program that after any other result releases its locks [hs] and gives up. *)
  Definition next (hs : list nat) {X} (c : cmd C X) : X -> option (list nat) :=
    match c in cmd _ X return X -> option (list nat) with
    | Acq l m => fun _ => Some (l :: hs)
    | Rel l => fun _ => Some (tl hs)
    | Op c => fun x => if okb _ c x then Some hs else None
    end.
  Fixpoint unwind {A} (hs : list nat) : prog C A :=
    match hs with
    | [] => Raise RuntimeError
    | l :: hs' => Act (Rel l) (fun _ => unwind hs') (fun _ => Raise RuntimeError)
    end.
  Fixpoint trim {A} (hs : list nat) (p : prog C A) : prog C A :=
    match p with
    | Ret a => Ret a
    | Raise e => Raise e
    | Act c k h => Act c (fun x => match next hs c x with Some hs' => trim hs' (k x) | None => unwind hs end) (fun e => trim hs (h e))
    end.
  Lemma trim_finished {A} hs (p : prog C A) : finished (trim hs p) = finished p.
  Proof. destruct p; reflexivity. Qed.
  Lemma wlk_unwind {A} hs : wlk [] hs (unwind hs : prog C A).
  Proof. induction hs as [|l hs IH]; simpl; constructor. exact IH. Qed.
  Lemma wlk_trim {A} hs (p : prog C A) : wlo [] hs p -> wlk [] hs (trim hs p).
  Proof.
    induction 1 as [a|e|hs X c k h Hk IHk Hh IHh|hs l m k h Hm Hk IHk|hs l k h Hk IHk]; simpl; constructor; auto.
    intros x. destruct (okb X c x) eqn:E; [auto|apply wlk_unwind].
  Qed.

  Variable J : D -> Prop.
  Hypothesis J_ok : forall X (c : C X) d x d', J d -> cexec c d = (Good x, d') -> okb X c x = true.
  Hypothesis J_step : forall X (c : C X) d r d', J d -> cexec c d = (r, d') -> J d'.
  Hypothesis nb : forall X (c : C X) (d : D), fst (cexec c d) <> Block.

  Lemma pstep_trim {A} t hs (p : prog C A) s : J (dat s) ->
    match pstep t p s with
    | Some (p', s') => J (dat s') /\ exists hs', pstep t (trim hs p) s = Some (trim hs' p', s')
    | None => pstep t (trim hs p) s = None
    end.
  Proof using J_ok J_step.
    intros Hj. destruct p as [a|e|X c k h]; [reflexivity|reflexivity|].
    destruct c as [l m|l|X c]; simpl.
    - destruct (lock_acq (reent l) t l m (lks s)) as [[u|e|] k']; [|..|reflexivity]; (split; [exact Hj|eauto]).
    - destruct (lock_rel t l (lks s)) as [[u|e|] k']; [|..|reflexivity]; (split; [exact Hj|eauto]).
    - destruct (cexec c (dat s)) as [[x|e|] d'] eqn:E; [|split; [eapply J_step; eauto|eauto]|reflexivity].
      split; [eapply J_step; eauto|]. rewrite (J_ok X c (dat s) x d' Hj E). eauto.
  Qed.

  Definition trims {A} (p q : prog C A) : Prop := exists hs, q = trim hs p.

  Lemma cstep_trim {A} i (ps qs : list (prog C A)) s : J (dat s) -> Forall2 trims ps qs ->
    match cstep i (ps, s) with
    | Some (ps', s') => J (dat s') /\ exists qs', cstep i (qs, s) = Some (qs', s') /\ Forall2 trims ps' qs'
    | None => cstep i (qs, s) = None
    end.
  Proof using J_ok J_step.
    intros Hj H2. unfold cstep. simpl. destruct (ps !! i) as [p|] eqn:Ep.
    - destruct (Forall2_lookup_l _ _ _ _ _ H2 Ep) as (q & Eq & hs & ->). rewrite Eq.
      pose proof (pstep_trim i hs p s Hj) as Hs. destruct (pstep i p s) as [[p' s']|].
      + destruct Hs as (Hj' & hs' & Es). rewrite Es. split; [exact Hj'|]. eexists. split; [reflexivity|].
        apply Forall2_insert; [exact H2|]. exists hs'. reflexivity.
      + rewrite Hs. reflexivity.
    - replace (qs !! i) with (@None (prog C A)); [reflexivity|]. symmetry. apply lookup_ge_None.
      rewrite <- (Forall2_length _ _ _ H2). apply lookup_ge_None. exact Ep.
  Qed.
  Lemma sched_trim {A} sch : forall (ps qs : list (prog C A)) s ps' s', J (dat s) -> Forall2 trims ps qs ->
    sched_run sch (ps, s) = Some (ps', s') ->
    J (dat s') /\ exists qs', sched_run sch (qs, s) = Some (qs', s') /\ Forall2 trims ps' qs'.
  Proof using J_ok J_step.
    induction sch as [|i sch IH]; intros ps qs s ps' s' Hj H2 Hr; simpl in Hr.
    - injection Hr as <- <-. simpl. eauto.
    - pose proof (cstep_trim i ps qs s Hj H2) as Hs. destruct (cstep i (ps, s)) as [[ps1 s1]|]; [|discriminate].
      destruct Hs as (Hj1 & qs1 & E & H1). cbn [sched_run]. rewrite E. eapply IH; eauto.
  Qed.

  Theorem lock_progress_ok {A} (ps : list (prog C A)) d sch ps' s' :
    J d -> Forall (wlo [] []) ps ->
    sched_run sch (ps, mkst d stdpp.base.empty) = Some (ps', s') ->
    (Forall (fun p => finished p = true) ps' /\ lks s' = stdpp.base.empty) \/
    (exists i c', cstep i (ps', s') = Some c').
  Proof using J_ok J_step nb.
    intros Hj Hps Hr.
    assert (H2 : Forall2 trims ps (map (trim []) ps)).
    { clear Hps Hr. induction ps as [|p ps IH]; simpl; constructor; [exists []; reflexivity|exact IH]. }
    destruct (sched_trim sch ps (map (trim []) ps) (mkst d stdpp.base.empty) ps' s' Hj H2 Hr) as (Hj' & qs' & Hq & H2').
    assert (Hw : Forall (wlk [] []) (map (trim []) ps)).
    { apply List.Forall_map. eapply List.Forall_impl; [|exact Hps]. intros p. apply wlk_trim. }
    destruct (lock_progress nb _ d sch qs' s' Hw Hq) as [[Hf Hl]|(i & c' & Hc)].
    - left. split; [|exact Hl]. clear -H2' Hf. induction H2' as [|p q ps qs [hs ->] _ IH]; [constructor|].
      inversion Hf as [|? ? H1 H3]; subst. constructor; [rewrite <- (trim_finished hs); exact H1|auto].
    - right. exists i. pose proof (cstep_trim i ps' qs' s' Hj' H2') as Hs.
      destruct (cstep i (ps', s')) as [c1|]; [eauto|]. rewrite Hs in Hc. discriminate.
  Qed.
End Ok.
