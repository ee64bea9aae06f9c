(** * ProgFacts: lemmas about the sequential semantics of programs *)
From Coq Require Import List Bool Arith Lia.
From stdpp Require Import gmap.
From Verif Require Import Prog.
Import ListNotations.

Section S.
  Context {C : Type -> Type} {D : Type} `{!Sem C D}.
  Implicit Types (s : st D) (t : nat).

  Lemma run_bind {A B} t (p : prog C A) (f : A -> prog C B) s :
    run t (bind p f) s =
    match run t p s with
    | (Good a, s') => run t (f a) s'
    | (Fail e, s') => (Fail e, s')
    | (Block, s') => (Block, s')
    end.
  Proof.
    revert s. induction p as [a|e|X c k IHk h IHh]; intros s; simpl; try reflexivity.
    destruct (exec t c s) as [[x|e|] s']; auto.
  Qed.

  (** Programs without lock commands, and their effect on the data alone. *)
  Inductive nolock {A} : prog C A -> Prop :=
  | nl_ret a : nolock (Ret a)
  | nl_raise e : nolock (Raise e)
  | nl_op X (c : C X) k h : (forall x, nolock (k x)) -> (forall e, nolock (h e)) ->
                            nolock (Act (Op c) k h).

  Definition dexec {X} (c : cmd C X) : D -> outcome X * D :=
    match c in cmd _ X return D -> outcome X * D with
    | Acq _ _ => fun d => (Block, d)
    | Rel _ => fun d => (Block, d)
    | Op c => cexec c
    end.

  Fixpoint drun {A} (p : prog C A) (d : D) : outcome A * D :=
    match p with
    | Ret a => (Good a, d)
    | Raise e => (Fail e, d)
    | Act c k h =>
        match dexec c d with
        | (Good x, d') => drun (k x) d'
        | (Fail e, d') => drun (h e) d'
        | (Block, d') => (Block, d')
        end
    end.

  Lemma drun_bind {A B} (p : prog C A) (f : A -> prog C B) d :
    drun (bind p f) d =
    match drun p d with
    | (Good a, d') => drun (f a) d'
    | (Fail e, d') => (Fail e, d')
    | (Block, d') => (Block, d')
    end.
  Proof.
    revert d. induction p as [a|e|X c k IHk h IHh]; intros d; simpl; try reflexivity.
    destruct (dexec c d) as [[x|e|] d']; auto.
  Qed.

  Lemma run_nolock {A} t (p : prog C A) s :
    nolock p ->
    run t p s = (fst (drun p (dat s)), mkst (snd (drun p (dat s))) (lks s)).
  Proof.
    intros H. revert s. induction H as [a|e|X c k h Hk IHk Hh IHh]; intros [d k0]; simpl; auto.
    destruct (cexec c d) as [[x|e|] d']; simpl; auto.
    - rewrite IHk. reflexivity.
    - rewrite IHh. reflexivity.
  Qed.

  Lemma nolock_bind {A B} (p : prog C A) (f : A -> prog C B) :
    nolock p -> (forall a, nolock (f a)) -> nolock (bind p f).
  Proof. intros H Hf. induction H; simpl; auto; constructor; auto. Qed.

  Lemma nolock_op {X} (c : C X) : nolock (op c).
  Proof. constructor; intros; constructor. Qed.

  Lemma run_try_finally {A} t (p : prog C A) fin s :
    run t (try_finally p fin) s =
    match run t p s with
    | (Good a, s') => match run t fin s' with
                      | (Good _, s'') => (Good a, s'')
                      | (Fail e, s'') => (Fail e, s'')
                      | (Block, s'') => (Block, s'')
                      end
    | (Fail e, s') => match run t fin s' with
                      | (Good _, s'') => (Fail e, s'')
                      | (Fail e', s'') => (Fail e', s'')
                      | (Block, s'') => (Block, s'')
                      end
    | (Block, s') => (Block, s')
    end.
  Proof.
    revert s. induction p as [a|e|X c k IHk h IHh]; intros s; simpl.
    - rewrite run_bind. destruct (run t fin s) as [[]]; reflexivity.
    - rewrite run_bind. destruct (run t fin s) as [[]]; reflexivity.
    - destruct (exec t c s) as [[x|e|] s']; auto.
  Qed.

  (** The body of [with lock:] never blocks on its primitive commands. *)
  Definition nonblock {A} (p : prog C A) (d : D) : Prop := fst (drun p d) <> Block.

  Lemma run_with_lock {A} t l m (body : prog C A) s :
    lks s !! l = None -> nolock body -> nonblock body (dat s) ->
    run t (with_lock l m body) s = (fst (drun body (dat s)), mkst (snd (drun body (dat s))) (lks s)).
  Proof.
    intros Hfree Hn Hb. destruct s as [d k]. unfold with_lock. simpl in *.
    unfold lock_acq. rewrite Hfree.
    assert (Hgen : forall ls, (ls = Excl t 1 \/ ls = Shared [t]) ->
      run t (try_finally body (release l)) (mkst d (<[l:=ls]> k)) =
      (fst (drun body d), mkst (snd (drun body d)) k)).
    { intros ls Hls. rewrite run_try_finally, run_nolock by assumption. simpl.
      unfold nonblock in Hb. 
      destruct (drun body d) as [[a|e|] d'] eqn:E; simpl in *; try congruence;
        unfold lock_rel; simpl; rewrite lookup_insert; destruct Hls as [-> | ->]; simpl;
          rewrite ?Nat.eqb_refl, delete_insert by assumption; reflexivity. }
    destruct m; apply Hgen; auto.
  Qed.

  Lemma run_op {X} t (c : C X) s :
    run t (op c) s =
    (fst (cexec c (dat s)), mkst (snd (cexec c (dat s))) (lks s)).
  Proof.
    destruct s as [d k]. simpl. destruct (cexec c d) as [[x|e|] d']; reflexivity.
  Qed.
End S.

(** Running a lifted program: the larger data has a component [get]/[put]. *)
Section LiftFacts.
  Context {C C' : Type -> Type} {D D' : Type} `{!Sem C D} `{!Sem C' D'}.
  Context (e : forall X, C X -> C' X) (get : D' -> D) (put : D -> D' -> D').
  Hypothesis get_put : forall d d', get (put d d') = d.
  Hypothesis put_put : forall d1 d2 d', put d1 (put d2 d') = put d1 d'.
  Hypothesis put_get : forall d', put (get d') d' = d'.
  Hypothesis exec_e : forall X (c : C X) d',
    cexec (e X c) d' = (fst (cexec c (get d')), put (snd (cexec c (get d'))) d').

  Lemma run_lift {A} t (p : prog C A) : forall d' k,
    run t (lift e p) (mkst d' k) =
    (fst (run t p (mkst (get d') k)),
     mkst (put (dat (snd (run t p (mkst (get d') k)))) d') (lks (snd (run t p (mkst (get d') k))))).
  Proof.
    induction p as [a|x|X c k IHk h IHh]; intros d' kk; simpl.
    - rewrite put_get. reflexivity.
    - rewrite put_get. reflexivity.
    - destruct c as [l m|l|X c]; simpl.
      + destruct (lock_acq (reent l) t l m kk) as [[x|x|] k']; simpl; rewrite ?put_get; auto.
      + destruct (lock_rel t l kk) as [[x|x|] k']; simpl; rewrite ?put_get; auto.
      + rewrite exec_e. destruct (cexec c (get d')) as [[x|x|] d1]; simpl.
        * rewrite IHk, get_put, put_put. reflexivity.
        * rewrite IHh, get_put, put_put. reflexivity.
        * reflexivity.
  Qed.

  Lemma drun_lift {A} (p : prog C A) : forall d',
    drun (lift e p) d' =
    (fst (drun p (get d')), put (snd (drun p (get d'))) d').
  Proof.
    induction p as [a|x|X c k IHk h IHh]; intros d'; simpl.
    - rewrite put_get. reflexivity.
    - rewrite put_get. reflexivity.
    - destruct c as [l m|l|X c]; simpl; rewrite ?put_get; auto.
      rewrite exec_e. destruct (cexec c (get d')) as [[x|x|] d1]; simpl.
      + rewrite IHk, get_put, put_put. reflexivity.
      + rewrite IHh, get_put, put_put. reflexivity.
      + reflexivity.
  Qed.
End LiftFacts.

Lemma nolock_lift {C C' : Type -> Type} (e : forall X, C X -> C' X) {A} (p : prog C A) :
  nolock p -> nolock (lift e p).
Proof. induction 1; simpl; constructor; auto. Qed.
