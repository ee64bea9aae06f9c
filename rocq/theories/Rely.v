(** * Rely: what one thread can be sure of while the others run

    [R u s s']: what thread [u] may see happen between two of its own commands (a
    reflexive and transitive relation on whole states, locks included).
    [wp t p Q s]: started by thread [t] in state [s], whatever the other threads do
    between its commands (only [R t]), every command of [p] is something that all the
    other threads allow ([guar t]) and [Q] holds of the result and the state at the end. *)
From stdpp Require Import gmap.
From Coq Require Import List Bool Arith Lia.
From Verif Require Import Prog ProgFacts.
Import ListNotations.

Section Rely.
  Context {C : Type -> Type} {D : Type} `{!Sem C D}.
  Variable R : nat -> st D -> st D -> Prop.

  Definition guar (t : nat) (s s' : st D) : Prop := forall u, u <> t -> R u s s'.

  Fixpoint wp {A} (t : nat) (p : prog C A) (Q : outcome A -> st D -> Prop) (s : st D) : Prop :=
    match p with
    | Ret a => forall s1, R t s s1 -> Q (Good a) s1
    | Raise e => forall s1, R t s s1 -> Q (Fail e) s1
    | Act c k h => forall s1, R t s s1 ->
        match exec t c s1 with
        | (Good x, s2) => guar t s1 s2 /\ wp t (k x) Q s2
        | (Fail e, s2) => guar t s1 s2 /\ wp t (h e) Q s2
        | (Block, _) => True
        end
    end.

  Hypothesis R_refl : forall u s, R u s s.
  Hypothesis R_trans : forall u s1 s2 s3, R u s1 s2 -> R u s2 s3 -> R u s1 s3.

  Lemma wp_rely {A} t (p : prog C A) Q s s1 : wp t p Q s -> R t s s1 -> wp t p Q s1.
  Proof using R_trans. destruct p as [a|e|X c k h]; simpl; intros H HR s2 H2; apply H; eauto. Qed.

  Lemma wp_end {A} t (p : prog C A) Q s :
    match p with Ret a => wp t p Q s -> Q (Good a) s | Raise e => wp t p Q s -> Q (Fail e) s | _ => True end.
  Proof using R_refl. destruct p; simpl; auto. Qed.

  Lemma wp_mono {A} t (p : prog C A) (Q Q' : outcome A -> st D -> Prop) : (forall r s, Q r s -> Q' r s) ->
    forall s, wp t p Q s -> wp t p Q' s.
  Proof using.
    intros HQ. induction p as [a|e|X c k IHk h IHh]; simpl; intros s H s1 H1; [eauto|eauto|].
    specialize (H s1 H1). destruct (exec t c s1) as [[x|e|] s2]; [|exact (conj (proj1 H) (IHh _ _ (proj2 H)))|auto].
    exact (conj (proj1 H) (IHk _ _ (proj2 H))).
  Qed.

  (** The state before a part of the program, as seen by the thread. *)
  Definition follows {A B} t (f : A -> prog C B) (Q : outcome B -> st D -> Prop) (r : outcome A) (s : st D) : Prop :=
    match r with Good a => wp t (f a) Q s | Fail e => Q (Fail e) s | Block => True end.

  Lemma wp_bind {A B} t (p : prog C A) (f : A -> prog C B) Q : forall s,
    wp t p (follows t f Q) s -> wp t (bind p f) Q s.
  Proof using R_refl.
    induction p as [a|e|X c k IHk h IHh]; simpl; intros s H.
    - apply (H s (R_refl t s)).
    - exact H.
    - intros s1 H1. specialize (H s1 H1). destruct (exec t c s1) as [[x|e|] s2]; [| |exact I];
        (destruct H as [Hg Hw]; split; [exact Hg|auto]).
  Qed.

  Lemma wp_attempt {A} t (p : prog C A) Q : forall s,
    wp t p (fun r s' => Q (Good r) s') s -> wp t (attempt p) Q s.
  Proof using.
    induction p as [a|e|X c k IHk h IHh]; simpl; intros s H; [exact H|exact H|].
    intros s1 H1. specialize (H s1 H1). destruct (exec t c s1) as [[x|e|] s2]; [| |exact I];
      (destruct H as [Hg Hw]; split; [exact Hg|auto]).
  Qed.

  (** [try: p finally: release l]; the release does not fail. *)
  Lemma wp_finally {A} t (p : prog C A) l (Q : outcome A -> st D -> Prop) : forall s,
    wp t p (fun r s' => forall s1, R t s' s1 ->
      match exec t (Rel l) s1 with
      | (Good _, s2) => guar t s1 s2 /\ forall s3, R t s2 s3 -> Q r s3
      | _ => False
      end) s ->
    wp t (try_finally p (release l)) Q s.
  Proof using R_refl.
    induction p as [a|e|X c k IHk h IHh]; simpl; intros s H.
    - intros s1 H1. specialize (H s (R_refl t s) s1 H1).
      destruct (lock_rel t l (lks s1)) as [[u|e|] k1]; [exact H|contradiction|contradiction].
    - intros s1 H1. specialize (H s (R_refl t s) s1 H1).
      destruct (lock_rel t l (lks s1)) as [[u|e0|] k1]; [exact H|contradiction|contradiction].
    - intros s1 H1. specialize (H s1 H1). destruct (exec t c s1) as [[x|e|] s2]; [| |exact I];
        (destruct H as [Hg Hw]; split; [exact Hg|auto]).
  Qed.

  Lemma wp_op {X} t (c : C X) (Q : outcome X -> st D -> Prop) s :
    (forall s1, R t s s1 ->
       match exec t (Op c) s1 with
       | (Block, _) => True
       | (r, s2) => guar t s1 s2 /\ forall s3, R t s2 s3 -> Q r s3
       end) ->
    wp t (op c) Q s.
  Proof using.
    intros H s1 H1. specialize (H s1 H1). unfold op. simpl in *.
    destruct (cexec c (dat s1)) as [[x|e|] d1]; exact H.
  Qed.

  (** ** Pools *)
  Lemma wp_step {A} (Q : nat -> outcome A -> st D -> Prop) i (ps : list (prog C A)) s ps' s' :
    (forall j p, ps !! j = Some p -> wp j p (Q j) s) -> cstep i (ps, s) = Some (ps', s') ->
    (forall j p, ps' !! j = Some p -> wp j p (Q j) s') /\ guar i s s'.
  Proof using R_refl R_trans.
    intros Hw Hs. unfold cstep in Hs. simpl in Hs.
    destruct (ps !! i) as [p|] eqn:Ep; [|discriminate].
    destruct (pstep i p s) as [[p' s1]|] eqn:Es; [|discriminate]. injection Hs as <- <-.
    pose proof (Hw i p Ep) as Hi. pose proof (lookup_lt_Some _ _ _ Ep) as Hlt.
    assert (Hp : guar i s s1 /\ wp i p' (Q i) s1).
    { destruct p as [a|e|X c k h]; simpl in Es; try discriminate.
      specialize (Hi s (R_refl i s)). destruct (exec i c s) as [[x|e|] s2]; try discriminate; injection Es as <- <-; exact Hi. }
    destruct Hp as [Hg Hp]. split; [|exact Hg]. intros j q Hq. destruct (decide (j = i)) as [->|Hne].
    - rewrite list_lookup_insert in Hq by exact Hlt. injection Hq as <-. exact Hp.
    - rewrite list_lookup_insert_ne in Hq by auto. eapply wp_rely; [eauto|]. apply Hg, Hne.
  Qed.

  Lemma wp_sched {A} (Q : nat -> outcome A -> st D -> Prop) (J : st D -> Prop) :
    (forall u s s', R u s s' -> J s -> J s') ->
    forall sch (ps : list (prog C A)) s ps' s', J s ->
    (forall j p, ps !! j = Some p -> wp j p (Q j) s) -> sched_run sch (ps, s) = Some (ps', s') ->
    J s' /\ (forall j p, ps' !! j = Some p -> wp j p (Q j) s').
  Proof using R_refl R_trans.
    intros HJ. induction sch as [|i sch IH]; intros ps s ps' s' Hj Hw Hr; simpl in Hr.
    - injection Hr as <- <-. auto.
    - destruct (cstep i (ps, s)) as [[ps1 s1]|] eqn:E; [|discriminate].
      destruct (wp_step Q i ps s ps1 s1 Hw E) as [Hw1 Hg].
      apply (IH ps1 s1); auto. apply (HJ (S i) s); [apply Hg; lia|exact Hj].
  Qed.

  (** A thread: [K done s] holds of the results so far. *)
  Lemma wp_thread {A B} t (call : B -> prog C A) (K : list (B * outcome A) -> st D -> Prop) :
    (forall rs s s', R t s s' -> K rs s -> K rs s') ->
    (forall rs c s, K rs s -> wp t (call c) (fun r s' => K (rs ++ [(c, r)]) s') s) ->
    forall cs rs s, K rs s ->
    wp t (thread_from (rev (map snd rs)) (map call cs))
       (fun r s' => exists rs', r = Good (map snd rs') /\ map fst rs' = map fst rs ++ cs /\ K rs' s') s.
  Proof using R_refl R_trans.
    intros HK Hc. induction cs as [|c cs IH]; intros rs s H; simpl.
    - intros s1 H1. exists rs. rewrite rev_involutive, app_nil_r. eauto.
    - apply wp_bind, wp_attempt. eapply wp_mono; [|apply (Hc rs c s H)]. intros r s1 H1. simpl.
      specialize (IH (rs ++ [(c, r)]) s1 H1). rewrite map_app, rev_app_distr in IH. simpl in IH.
      eapply wp_mono; [|exact IH]. intros r' s2 (rs' & -> & E & HK').
      exists rs'. rewrite map_app, <- app_assoc in E. auto.
  Qed.
End Rely.
