(** * Okp: what the commands of a program are given and what it returns

    [okp arg res R p]: every command of [p] gets arguments with [arg], provided the results
    of the commands before it satisfy [res]; if [p] returns, its result satisfies [R].  Kept
    by every step of a pool in which all commands keep an invariant [I] under which [res]
    holds. *)
From stdpp Require Import gmap.
From Coq Require Import List Bool Arith Lia.
From Verif Require Import Prog ProgFacts Flaky FlakySpec.
Import ListNotations.
Local Open Scope prog_scope.
Local Open Scope nat_scope.

(** ** Programs with good arguments *)
Section Ok.
  Context {C : Type -> Type}.
  Variables (arg : forall X, C X -> Prop) (res : forall X, C X -> X -> Prop).
  Inductive okp {A} (R : A -> Prop) : prog C A -> Prop :=
  | ok_ret a : R a -> okp R (Ret a)
  | ok_raise e : okp R (Raise e)
  | ok_acq l m k h : okp R (k tt) -> (forall e, okp R (h e)) -> okp R (Act (Acq l m) k h)
  | ok_rel l k h : okp R (k tt) -> (forall e, okp R (h e)) -> okp R (Act (Rel l) k h)
  | ok_op X (c : C X) k h : arg X c -> (forall x, res X c x -> okp R (k x)) -> (forall e, okp R (h e)) -> okp R (Act (Op c) k h).
  Definition okshape {A} (R : A -> Prop) (q : prog C A) : Prop :=
    match q with
    | Ret a => R a
    | Raise _ => True
    | @Act _ _ X c k h =>
        match c in cmd _ X return (X -> prog C A) -> Prop with
        | Op c => fun k => arg _ c /\ forall x, res _ c x -> okp R (k x)
        | Acq _ _ => fun k => okp R (k tt)
        | Rel _ => fun k => okp R (k tt)
        end k /\ forall e, okp R (h e)
    end.
  Lemma ok_shape {A} (R : A -> Prop) q : okp R q -> okshape R q.
  Proof. destruct 1; simpl; auto. Qed.
  Lemma ok_more {A} (R R' : A -> Prop) p : okp R p -> (forall a, R a -> R' a) -> okp R' p.
  Proof. intros H HR. induction H; constructor; auto. Qed.
  Lemma ok_bind {A B} (R : A -> Prop) (R' : B -> Prop) p f : okp R p -> (forall a, R a -> okp R' (f a)) -> okp R' (bind p f).
  Proof. intros H Hf. induction H; cbn [bind]; auto; constructor; auto. Qed.
  Lemma ok_cmd {X} (c : C X) : arg X c -> okp (res X c) (op c).
  Proof. intros H. unfold op. apply ok_op; [exact H|intros x Hx; constructor; exact Hx|intros e; constructor]. Qed.
  Lemma ok_with {A} (R : A -> Prop) l m p : okp R p -> okp R (with_lock l m p).
  Proof.
    intros H. unfold with_lock. constructor; [|intros; constructor].
    induction H as [a Ha|e|l0 m0 k h _ IHk _ IHh|l0 k h _ IHk _ IHh|X c k h Hc _ IHk _ IHh]; cbn [try_finally].
    - unfold release. cbn [bind]. constructor; [constructor; exact Ha|intros; constructor].
    - unfold release. cbn [bind]. constructor; [constructor|intros; constructor].
    - constructor; auto.
    - constructor; auto.
    - apply ok_op; auto.
  Qed.
  Lemma ok_attempt {A} (R : A -> Prop) p : okp R p -> okp (fun o => forall a, o = Good a -> R a) (attempt p).
  Proof.
    induction 1; cbn [attempt]; try (constructor; auto; fail).
    - constructor. intros a0 [= <-]. assumption.
    - constructor. discriminate.
  Qed.
  Definition all_ok {A} (R : A -> Prop) (rs : list (outcome A)) : Prop := Forall (fun o => forall a, o = Good a -> R a) rs.
  Lemma ok_thread {A} (R : A -> Prop) ps : Forall (okp R) ps -> okp (all_ok R) (thread ps).
  Proof.
    unfold thread. intros H. assert (Hr : all_ok R []) by constructor. revert Hr. generalize (@nil (outcome A)).
    induction H as [|p ps Hp _ IH]; intros rs Hr; cbn [thread_from].
    - constructor. unfold all_ok in *. apply List.Forall_rev, Hr.
    - eapply ok_bind; [apply ok_attempt, Hp|]. intros o Ho. apply IH. constructor; auto.
  Qed.

  Context {D : Type} `{!Sem C D}.
  Variable I : D -> Prop.
  Hypothesis Hcmd : forall X (c : C X) d r d', arg X c -> I d -> cexec c d = (r, d') -> I d' /\ forall x, r = Good x -> res X c x.
  Lemma ok_sched {A} (R : A -> Prop) sch : forall (ps : list (prog C A)) s ps' s', Forall (okp R) ps -> I (dat s) ->
    sched_run sch (ps, s) = Some (ps', s') -> Forall (okp R) ps' /\ I (dat s').
  Proof using Hcmd.
    induction sch as [|i sch IH]; intros ps s ps' s' H Hi Hr; simpl in Hr; [injection Hr as <- <-; auto|].
    destruct (cstep i (ps, s)) as [[ps1 s1]|] eqn:E; [|discriminate]. apply (IH ps1 s1 ps' s'); [..|exact Hr]; clear IH Hr.
    all: unfold cstep in E; simpl in E; destruct (ps !! i) as [p|] eqn:Ep; [|discriminate];
      destruct (pstep i p s) as [[p1 s2]|] eqn:Es; [|discriminate]; injection E as <- <-;
      assert (Hp : okp R p) by (rewrite Forall_lookup in H; eauto); apply ok_shape in Hp;
      destruct p as [a|e|X c k h]; [discriminate|discriminate|]; simpl in Es, Hp; destruct Hp as [Hk Hh].
    - apply Forall_insert; [exact H|]. destruct c as [l m|l|X c]; simpl in Es.
      + destruct (lock_acq _ _ _ _ _) as [[x|e|] k']; [..|discriminate]; injection Es as <- _; [destruct x; exact Hk|apply Hh].
      + destruct (lock_rel _ _ _) as [[x|e|] k']; [..|discriminate]; injection Es as <- _; [destruct x; exact Hk|apply Hh].
      + destruct Hk as [Ha Hk]. destruct (cexec c (dat s)) as [[x|e|] d'] eqn:Ec; [..|discriminate]; injection Es as <- _; [|apply Hh].
        apply Hk. apply (Hcmd X c _ _ _ Ha Hi Ec). reflexivity.
    - destruct c as [l m|l|X c]; simpl in Es.
      + destruct (lock_acq _ _ _ _ _) as [[x|e|] k']; [..|discriminate]; injection Es as _ <-; exact Hi.
      + destruct (lock_rel _ _ _) as [[x|e|] k']; [..|discriminate]; injection Es as _ <-; exact Hi.
      + destruct Hk as [Ha Hk]. destruct (cexec c (dat s)) as [[x|e|] d'] eqn:Ec; [..|discriminate]; injection Es as _ <-;
          apply (Hcmd X c _ _ _ Ha Hi Ec).
  Qed.
End Ok.

(** ** Results only: nothing is asked of the arguments, and other threads do not matter *)
Definition anything (X : Type) {C : Type -> Type} (c : C X) : Prop := True.
Section Returns.
  Context {C : Type -> Type} (res : forall X, C X -> X -> Prop).
  Notation rets := (okp (fun X c => anything X c) res).
  Lemma rets_any {A} (p : prog C A) : rets (fun _ => True) p.
  Proof. induction p as [a|e|X [l m|l|X' c] k IHk h IHh]; constructor; auto; exact I. Qed.
  Lemma rets_bind {A B} (R : B -> Prop) (p : prog C A) f : (forall a, rets R (f a)) -> rets R (bind p f).
  Proof. intros H. eapply ok_bind; [apply rets_any|]. auto. Qed.
  Lemma rets_op {X} (R : X -> Prop) (c : C X) : (forall x, res X c x -> R x) -> rets R (op c).
  Proof. intros H. eapply ok_more; [apply ok_cmd; exact I|exact H]. Qed.

  (** One call after the other: each result as promised for its call. *)
  Definition as_promised {A} (o : outcome A) (R : A -> Prop) : Prop := forall a, o = Good a -> R a.
  Lemma rets_thread {A K} (R : K -> A -> Prop) (call : K -> prog C A) (cs : list K) : (forall c, rets (R c) (call c)) ->
    rets (fun rs => Forall2 (fun c o => as_promised o (R c)) cs rs) (thread (map call cs)).
  Proof.
    intros H. unfold thread. change cs with ([] ++ cs) at 1. change (@nil (outcome A)) with (rev (@nil (outcome A))) .
    assert (G : forall cs done rs, Forall2 (fun c o => as_promised o (R c)) done (rev rs) ->
      rets (fun rs' => Forall2 (fun c o => as_promised o (R c)) (done ++ cs) rs') (thread_from rs (map call cs))).
    { clear cs. induction cs as [|c cs IH]; intros done rs Hd; cbn [map thread_from].
      - constructor. rewrite app_nil_r. exact Hd.
      - eapply ok_bind; [apply ok_attempt, (H c)|]. intros o Ho. rewrite (cons_middle c), app_assoc. apply IH.
        cbn [rev]. apply Forall2_app; [exact Hd|]. constructor; [exact Ho|constructor]. }
    apply (G cs [] []). constructor.
  Qed.

  Context {D : Type} `{!Sem C D}.
  Hypothesis Hcmd : forall X (c : C X) d x d', cexec c d = (Good x, d') -> res X c x.
  Lemma rets_sched {A} (R : A -> Prop) i sch : forall (ps : list (prog C A)) s ps' s' p, ps !! i = Some p -> rets R p ->
    sched_run sch (ps, s) = Some (ps', s') -> exists p', ps' !! i = Some p' /\ rets R p'.
  Proof using Hcmd.
    induction sch as [|j sch IH]; intros ps s ps' s' p Hi H Hr; simpl in Hr; [injection Hr as <- <-; eauto|].
    destruct (cstep j (ps, s)) as [[ps1 s1]|] eqn:E; [|discriminate]. unfold cstep in E; simpl in E.
    destruct (ps !! j) as [q|] eqn:Eq; [|discriminate]. destruct (pstep j q s) as [[q1 s2]|] eqn:Es; [|discriminate].
    injection E as <- <-. destruct (decide (i = j)) as [->|Hne].
    2: { apply (IH _ _ _ _ p) in Hr; [exact Hr|rewrite list_lookup_insert_ne; auto|exact H]. }
    rewrite Eq in Hi. injection Hi as ->. apply (IH _ _ _ _ q1) in Hr; [exact Hr|apply list_lookup_insert; apply lookup_lt_Some in Eq; exact Eq|].
    apply ok_shape in H. destruct p as [a|e|X c k h]; [discriminate|discriminate|]; simpl in Es, H; destruct H as [Hk Hh].
    destruct c as [l m|l|X c]; simpl in Es.
    - destruct (lock_acq _ _ _ _ _) as [[x|e|] k']; [..|discriminate]; injection Es as <- _; [destruct x; exact Hk|apply Hh].
    - destruct (lock_rel _ _ _) as [[x|e|] k']; [..|discriminate]; injection Es as <- _; [destruct x; exact Hk|apply Hh].
    - destruct Hk as [_ Hk]. destruct (cexec c (dat s)) as [[x|e|] d'] eqn:Ec; [..|discriminate]; injection Es as <- _; [|apply Hh].
      apply Hk. exact (Hcmd X c _ _ _ Ec).
  Qed.
  (** Threads that make calls, each with its own. *)
  Lemma rets_calls {A K} (R : K -> A -> Prop) (call : K -> prog C A) cs i sch (ps : list (prog C (list (outcome A)))) s ps' s' rs :
    (forall c, rets (R c) (call c)) -> ps !! i = Some (thread (map call cs)) -> sched_run sch (ps, s) = Some (ps', s') ->
    ps' !! i = Some (Ret rs) -> Forall2 (fun c o => as_promised o (R c)) cs rs.
  Proof using Hcmd.
    intros H Hi Hr Hp. destruct (rets_sched _ i _ _ _ _ _ _ Hi (rets_thread R call cs H) Hr) as (p' & H1 & H2).
    rewrite Hp in H1. injection H1 as <-. apply ok_shape in H2. exact H2.
  Qed.
End Returns.

(** The same with exceptions from outside. *)
Section FlakyReturns.
  Context {C : Type -> Type} (res : forall X, C X -> X -> Prop).
  Definition fl_res (X : Type) (c : fl C X) : X -> Prop :=
    match c in fl _ X return X -> Prop with Do c => res _ c | Chk => fun _ => True end.
  Lemma rets_flaky {A} (R : A -> Prop) (p : prog C A) : okp (fun X c => anything X c) res R p ->
    okp (fun X c => anything X c) fl_res R (flaky p).
  Proof.
    induction 1 as [a Ha|e|l m k h _ IHk _ IHh|l k h _ IHk _ IHh|X c k h Hc _ IHk _ IHh]; cbn [flaky may_fail lift_cmd].
    - constructor; exact Ha.
    - constructor.
    - apply ok_op; [exact I| |exact IHh]. intros _ _. constructor; assumption.
    - constructor; assumption.
    - apply ok_op; [exact I| |exact IHh]. intros _ _. apply ok_op; [exact I|exact IHk|exact IHh].
  Qed.
  Lemma rets_flaky_call {A} (R : A -> Prop) (p : prog C A) : okp (fun X c => anything X c) res R p ->
    okp (fun X c => anything X c) fl_res R (flaky_call p).
  Proof.
    intros H. unfold flaky_call. eapply ok_bind; [apply rets_flaky, H|]. intros a Ha. apply rets_bind. intros _. constructor. exact Ha.
  Qed.
  Context {D : Type} `{!Sem C D}.
  Hypothesis Hcmd : forall X (c : C X) d x d', cexec c d = (Good x, d') -> res X c x.
  Lemma fl_cmd X (c : fl C X) (d : D * faults) x d' : cexec c d = (Good x, d') -> fl_res X c x.
  Proof using Hcmd.
    destruct c as [X c|]; simpl; [|auto]. intros E. destruct (cexec c (fst d)) as [r d1] eqn:Ec. injection E as -> _. exact (Hcmd _ _ _ _ _ Ec).
  Qed.
End FlakyReturns.
