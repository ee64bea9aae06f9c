(** * KillRely: what a process can be sure of while others run and are killed

    As Rely.v, with two additions: the state is accompanied by a value of a type [G] that
    the program does not see (it is chosen in the proof at every command: history of what
    was done), and other processes may be killed at any time.
    [R u]: what process [u] may see happen between two of its commands.
    [S u]: what a command of another process must satisfy. *)
From stdpp Require Import gmap.
From Coq Require Import List Bool Arith Lia.
From Verif Require Import Prog ProgFacts Kill KillFacts.
Import ListNotations.
Local Open Scope nat_scope.

Section Rely.
  Context {C : Type -> Type} {D : Type} `{!Sem C D} {G : Type}.
  Variable stays : nat -> bool.
  Variables R S : nat -> st D * G -> st D * G -> Prop.

  Definition guar (t : nat) (x x' : st D * G) : Prop := forall u, u <> t -> S u x x'.

  Fixpoint wp {A} (t : nat) (p : prog C A) (Q : outcome A -> st D * G -> Prop) (x : st D * G) : Prop :=
    match p with
    | Ret a => forall x1, R t x x1 -> Q (Good a) x1
    | Raise e => forall x1, R t x x1 -> Q (Fail e) x1
    | Act c k h => forall x1, R t x x1 ->
        match exec t c (fst x1) with
        | (Good v, s2) => exists g2, guar t x1 (s2, g2) /\ wp t (k v) Q (s2, g2)
        | (Fail e, s2) => exists g2, guar t x1 (s2, g2) /\ wp t (h e) Q (s2, g2)
        | (Block, _) => True
        end
    end.

  Hypothesis R_refl : forall u x, R u x x.
  Hypothesis R_trans : forall u x1 x2 x3, R u x1 x2 -> R u x2 x3 -> R u x1 x3.
  Hypothesis S_R : forall u x x', S u x x' -> R u x x'.
  Hypothesis kill_R : forall u t s g, u <> t -> R u (s, g) (mkst (dat s) (locks_after stays t (lks s)), g).

  Lemma wp_rely {A} t (p : prog C A) Q x x1 : wp t p Q x -> R t x x1 -> wp t p Q x1.
  Proof using R_trans. destruct p as [a|e|X c k h]; simpl; intros H HR x2 H2; apply H; eauto. Qed.

  Lemma wp_mono {A} t (p : prog C A) (Q Q' : outcome A -> st D * G -> Prop) : (forall r x, Q r x -> Q' r x) ->
    forall x, wp t p Q x -> wp t p Q' x.
  Proof using.
    intros HQ. induction p as [a|e|X c k IHk h IHh]; simpl; intros x H x1 H1; [eauto|eauto|].
    specialize (H x1 H1). destruct (exec t c (fst x1)) as [[v|e|] s2]; [| |exact I];
      destruct H as (g2 & Hg & Hw); exists g2; auto.
  Qed.

  Definition follows {A B} t (f : A -> prog C B) (Q : outcome B -> st D * G -> Prop) (r : outcome A) (x : st D * G) : Prop :=
    match r with Good a => wp t (f a) Q x | Fail e => Q (Fail e) x | Block => True end.

  Lemma wp_bind {A B} t (p : prog C A) (f : A -> prog C B) Q : forall x,
    wp t p (follows t f Q) x -> wp t (bind p f) Q x.
  Proof using R_refl.
    induction p as [a|e|X c k IHk h IHh]; simpl; intros x H.
    - apply (H x (R_refl t x)).
    - exact H.
    - intros x1 H1. specialize (H x1 H1). destruct (exec t c (fst x1)) as [[v|e|] s2]; [| |exact I];
        (destruct H as (g2 & Hg & Hw); exists g2; split; [exact Hg|auto]).
  Qed.

  Lemma wp_attempt {A} t (p : prog C A) Q : forall x,
    wp t p (fun r x' => Q (Good r) x') x -> wp t (attempt p) Q x.
  Proof using.
    induction p as [a|e|X c k IHk h IHh]; simpl; intros x H; [exact H|exact H|].
    intros x1 H1. specialize (H x1 H1). destruct (exec t c (fst x1)) as [[v|e|] s2]; [| |exact I];
      (destruct H as (g2 & Hg & Hw); exists g2; split; [exact Hg|auto]).
  Qed.

  (** [try: p finally: release l]; the release does not fail. *)
  Lemma wp_finally {A} t (p : prog C A) l (Q : outcome A -> st D * G -> Prop) : forall x,
    wp t p (fun r x' => forall x1, R t x' x1 ->
      match exec t (Rel l) (fst x1) with
      | (Good _, s2) => exists g2, guar t x1 (s2, g2) /\ forall x3, R t (s2, g2) x3 -> Q r x3
      | _ => False
      end) x ->
    wp t (try_finally p (release l)) Q x.
  Proof using R_refl.
    induction p as [a|e|X c k IHk h IHh]; simpl; intros x H.
    - intros x1 H1. specialize (H x (R_refl t x) x1 H1).
      destruct (lock_rel t l (lks (fst x1))) as [[u|e|] k1]; [exact H|contradiction|contradiction].
    - intros x1 H1. specialize (H x (R_refl t x) x1 H1).
      destruct (lock_rel t l (lks (fst x1))) as [[u|e0|] k1]; [exact H|contradiction|contradiction].
    - intros x1 H1. specialize (H x1 H1). destruct (exec t c (fst x1)) as [[v|e|] s2]; [| |exact I];
        (destruct H as (g2 & Hg & Hw); exists g2; split; [exact Hg|auto]).
  Qed.

  (** ** Pools.  [J dead x]: an invariant. *)
  Lemma wp_krun {A} (Q : nat -> outcome A -> st D * G -> Prop) (J : list nat -> st D * G -> Prop) :
    (forall u dead x x', S u x x' -> J dead x -> J dead x') ->
    (forall t dead s g, J dead (s, g) -> J (t :: dead) (mkst (dat s) (locks_after stays t (lks s)), g)) ->
    forall es (ps : list (prog C A)) s g dead ps' s' dead', J dead (s, g) ->
    (forall j p, ~ In j dead -> ps !! j = Some p -> wp j p (Q j) (s, g)) ->
    krun stays es ((ps, s), dead) = Some ((ps', s'), dead') ->
    exists g', J dead' (s', g') /\ (forall j p, ~ In j dead' -> ps' !! j = Some p -> wp j p (Q j) (s', g')).
  Proof using R_refl R_trans S_R kill_R.
    intros HJ HK. induction es as [|e es IH]; intros ps s g dead ps' s' dead' Hj Hw Hr; simpl in Hr.
    - injection Hr as <- <- <-. eauto.
    - destruct e as [i|i]; simpl in Hr.
      + destruct (is_dead dead i) eqn:Ed; [discriminate|]. apply is_dead_out in Ed.
        unfold cstep in Hr. simpl in Hr. destruct (ps !! i) as [p|] eqn:Ep; [|discriminate].
        destruct (pstep i p s) as [[p1 s1]|] eqn:Es; [|discriminate].
        pose proof (Hw i p Ed Ep) as Hi. pose proof (lookup_lt_Some _ _ _ Ep) as Hlt.
        assert (Hp : exists g1, guar i (s, g) (s1, g1) /\ wp i p1 (Q i) (s1, g1)).
        { destruct p as [a|e|X c k h]; simpl in Es; try discriminate.
          specialize (Hi (s, g) (R_refl i _)). simpl in Hi.
          destruct (exec i c s) as [[v|e|] s2]; try discriminate; injection Es as <- <-; exact Hi. }
        destruct Hp as (g1 & Hg & Hp).
        apply (IH _ s1 g1) in Hr; [exact Hr|apply (HJ (Datatypes.S i) dead (s, g)); [apply Hg; lia|exact Hj]|].
        intros j q Hd Hq. destruct (decide (j = i)) as [->|Hne].
        * rewrite list_lookup_insert in Hq by exact Hlt. injection Hq as <-. exact Hp.
        * rewrite list_lookup_insert_ne in Hq by auto. eapply wp_rely; [eauto|]. apply S_R, Hg, Hne.
      + destruct (ps !! i) as [p|] eqn:Ep; [|discriminate]. destruct (finished p || is_dead dead i); [discriminate|].
        apply (IH _ _ g) in Hr; [exact Hr|apply HK, Hj|].
        intros j q Hd Hq. eapply wp_rely; [apply (Hw j q); [intros Hin; apply Hd; right; exact Hin|exact Hq]|].
        apply kill_R. intros ->. apply Hd. left. reflexivity.
  Qed.
End Rely.
