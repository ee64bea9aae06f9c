(** * Crash: what holds at every point of a program *)
From Coq Require Import List Bool Arith Lia.
From stdpp Require Import gmap.
From Verif Require Import Prog ProgFacts Atomic.
Import ListNotations.

Section Crash.
  Context {C : Type -> Type} {D : Type} `{!Sem C D}.
  Variable P : D -> Prop.

  (** [P] holds after every number of commands of [p]. *)
  Definition alw {A} (t : nat) (p : prog C A) (s : st D) : Prop :=
    forall j, P (dat (prefix_run t j p s)).

  Lemma alw_ret {A} t (a : A) s : P (dat s) -> alw t (Ret a) s.
  Proof. intros H j. destruct j; exact H. Qed.
  Lemma alw_raise {A} t e s : P (dat s) -> alw t (Raise e : prog C A) s.
  Proof. intros H j. destruct j; exact H. Qed.
  Lemma alw_start {A} t (p : prog C A) s : alw t p s -> P (dat s).
  Proof. intros H. exact (H 0). Qed.

  Lemma alw_act {A X} t (c : cmd C X) (k : X -> prog C A) h s :
    P (dat s) ->
    (forall x s', exec t c s = (Good x, s') -> alw t (k x) s') ->
    (forall e s', exec t c s = (Fail e, s') -> alw t (h e) s') ->
    alw t (Act c k h) s.
  Proof.
    intros H0 Hk Hh j. destruct j as [|j]; [exact H0|]. cbn [prefix_run pstep].
    destruct (exec t c s) as [[x|e|] s'] eqn:E; [apply (Hk _ _ eq_refl)|apply (Hh _ _ eq_refl)|exact H0].
  Qed.

  Lemma alw_inv {A X} t (c : cmd C X) (k : X -> prog C A) h s : alw t (Act c k h) s ->
    match exec t c s with
    | (Good x, s') => alw t (k x) s'
    | (Fail e, s') => alw t (h e) s'
    | (Block, s') => True
    end.
  Proof.
    intros H. assert (H' : forall j, P (dat (prefix_run t (S j) (Act c k h) s))) by (intros j; apply H).
    cbn [prefix_run pstep] in H'. destruct (exec t c s) as [[x|e|] s']; [exact H'|exact H'|exact I].
  Qed.

  Lemma alw_op {X} t (c : C X) d k : P d -> P (snd (cexec c d)) -> alw t (op c) (mkst d k).
  Proof.
    intros H1 H2. apply alw_act; [exact H1| |]; cbn [exec dat lks]; intros x s' E;
      destruct (cexec c d) as [r d']; injection E as _ <-; [apply alw_ret|apply alw_raise]; exact H2.
  Qed.

  Lemma alw_bind {A B} t (p : prog C A) (f : A -> prog C B) : forall s, alw t p s ->
    (forall a s', run t p s = (Good a, s') -> alw t (f a) s') -> alw t (bind p f) s.
  Proof.
    induction p as [a|e|X c k IHk h IHh]; intros s Hp Hf.
    - apply (Hf a s eq_refl).
    - apply alw_raise, (alw_start _ _ _ Hp).
    - cbn [bind]. apply alw_act; [apply (alw_start _ _ _ Hp)| |];
        intros x s' E; apply alw_inv in Hp; rewrite E in Hp; cbn [run] in Hf; rewrite E in Hf; auto.
  Qed.

  Lemma alw_end {A} t (p : prog C A) : forall s, alw t p s -> fst (run t p s) <> Block -> P (dat (snd (run t p s))).
  Proof.
    induction p as [a|e|X c k IHk h IHh]; intros s Hp Hb; [exact (Hp 0)|exact (Hp 0)|].
    apply alw_inv in Hp. cbn [run] in *. destruct (exec t c s) as [[x|e|] s']; auto. exfalso. apply Hb. reflexivity.
  Qed.

  Lemma alw_release {A} t l (p : prog C A) s : (forall s', dat s' = dat s -> alw t p s') ->
    P (dat s) -> alw t (bind (release l) (fun _ => p)) s.
  Proof.
    intros H H0. unfold release. cbn [bind]. apply alw_act; [exact H0| |].
    - intros x s' E. apply H. cbn [exec] in E. destruct (lock_rel t l (lks s)). injection E as _ <-. reflexivity.
    - intros e s' E. apply alw_raise. cbn [exec] in E. destruct (lock_rel t l (lks s)). injection E as _ <-. exact H0.
  Qed.
  Lemma alw_try {A} t l (p : prog C A) : forall s, alw t p s -> alw t (try_finally p (release l)) s.
  Proof.
    induction p as [a|e|X c k IHk h IHh]; intros s Hp.
    - apply alw_release; [|exact (Hp 0)]. intros s' E. apply alw_ret. rewrite E. exact (Hp 0).
    - apply alw_release; [|exact (Hp 0)]. intros s' E. apply alw_raise. rewrite E. exact (Hp 0).
    - cbn [try_finally]. apply alw_act; [exact (Hp 0)| |]; intros x s' E; apply alw_inv in Hp; rewrite E in Hp; auto.
  Qed.
  Lemma alw_with {A} t l m (p : prog C A) d k :
    (forall k', alw t p (mkst d k')) -> alw t (with_lock l m p) (mkst d k).
  Proof.
    intros Hp. unfold with_lock. apply alw_act; [exact (Hp k 0)| |]; cbn [exec dat lks]; intros x s' E;
      destruct (lock_acq (reent l) t l m k) as [r k']; injection E as _ <-.
    - apply alw_try, Hp.
    - apply alw_raise, (Hp k 0).
  Qed.

  Lemma alw_bind_nl {A B} t (p : prog C A) (f : A -> prog C B) d k : nolock p -> alw t p (mkst d k) ->
    (forall a d', srun p d = (Good a, d') -> alw t (f a) (mkst d' k)) -> alw t (bind p f) (mkst d k).
  Proof.
    intros Hn Hp Hf. apply alw_bind; [exact Hp|]. intros a s' E. rewrite run_nolock in E by exact Hn.
    cbn [dat lks] in E. injection E as E1 <-. apply Hf. rewrite srun_nolock by exact Hn.
    rewrite <- E1. destruct (drun p d); reflexivity.
  Qed.
  Lemma alw_bind_bal {A B} t ls (p : prog C A) (f : A -> prog C B) d k : bal ls p ->
    (forall l, In l ls -> k !! l = None) -> fst (srun p d) <> Block -> alw t p (mkst d k) ->
    (forall a d', srun p d = (Good a, d') -> alw t (f a) (mkst d' k)) -> alw t (bind p f) (mkst d k).
  Proof.
    intros Hbal Hk Hnb Hp Hf. apply alw_bind; [exact Hp|]. intros a s' E. rewrite (Hbal t d k Hk Hnb) in E.
    injection E as E1 <-. apply Hf. rewrite <- E1. destruct (srun p d); reflexivity.
  Qed.

  (** A program whose commands do not change the data. *)
  Lemma alw_pure {A} t (p : prog C A) (d : D) k : P d ->
    (forall s, dat s = d -> forall j, dat (prefix_run t j p s) = d) -> alw t p (mkst d k).
  Proof. intros H0 H j. rewrite H by reflexivity. exact H0. Qed.
End Crash.

Lemma alw_weaken {C D} `{!Sem C D} {A} (P Q : D -> Prop) t (p : prog C A) s :
  (forall d, P d -> Q d) -> alw P t p s -> alw Q t p s.
Proof. intros H Hp j. apply H, Hp. Qed.
