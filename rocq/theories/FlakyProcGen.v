(** * FlakyProcGen: what holds during a call, and its locks, whatever the lock table is *)
From stdpp Require Import gmap.
From Coq Require Import List Bool Arith Lia.
From Verif Require Import Prog ProgFacts Locks Crash Flaky FlakySpec FlakyFacts FlakyCalls.
Import ListNotations.
Local Open Scope prog_scope.

(** ** [hal P p d Q]: from the data [d] and any locks, [P] holds at every point of [p], and
    [Q] of its result and the data at its end. *)
Section Hal.
  Context {C : Type -> Type} {D : Type} `{!Sem C D}.
  Definition hal (P : D -> Prop) {A} (p : prog C A) (d : D) (Q : A -> D -> Prop) : Prop :=
    forall t k, alw P t p (mkst d k) /\ forall a s', run t p (mkst d k) = (Good a, s') -> Q a (dat s').
  Lemma hal_ret (P : D -> Prop) {A} (a : A) d (Q : A -> D -> Prop) : P d -> Q a d -> hal P (Ret a) d Q.
  Proof. intros H0 HQ t k. split; [apply alw_ret, H0|]. intros b s' [= <- <-]. exact HQ. Qed.
  Lemma hal_raise (P : D -> Prop) {A} e d (Q : A -> D -> Prop) : P d -> hal P (Raise e) d Q.
  Proof. intros H0 t k. split; [apply alw_raise, H0|]. intros b s' [=]. Qed.
  Lemma hal_op (P : D -> Prop) {X} (c : C X) d (Q : X -> D -> Prop) : P d -> P (snd (cexec c d)) ->
    (forall x d', cexec c d = (Good x, d') -> Q x d') -> hal P (op c) d Q.
  Proof.
    intros H0 H1 HQ t k. split; [apply alw_op; assumption|]. intros a s'. cbn. destruct (cexec c d) as [[x|e|] d']; try discriminate.
    intros [= <- <-]. apply HQ. reflexivity.
  Qed.
  Lemma hal_bind (P : D -> Prop) {A B} (p : prog C A) (f : A -> prog C B) d (Q : B -> D -> Prop) :
    hal P p d (fun a d' => hal P (f a) d' Q) -> hal P (bind p f) d Q.
  Proof.
    intros Hp t k. destruct (Hp t k) as [H1 H2]. split.
    - apply alw_bind; [exact H1|]. intros a [d' k'] E. exact (proj1 (H2 a _ E t k')).
    - intros b s'. rewrite run_bind. destruct (run t p (mkst d k)) as [[a|e|] [d' k']]; try discriminate. exact (proj2 (H2 a _ eq_refl t k') b s').
  Qed.
  Lemma hal_mono (P : D -> Prop) {A} (p : prog C A) d (Q Q' : A -> D -> Prop) : (forall a d', Q a d' -> Q' a d') -> hal P p d Q -> hal P p d Q'.
  Proof. intros H Hp t k. destruct (Hp t k) as [H1 H2]. split; [exact H1|]. intros a s' E. apply H, (H2 a s' E). Qed.
  Lemma hal_weak (P P' : D -> Prop) {A} (p : prog C A) d (Q : A -> D -> Prop) : (forall d, P d -> P' d) -> hal P p d Q -> hal P' p d Q.
  Proof. intros H Hp t k. destruct (Hp t k) as [H1 H2]. split; [exact (alw_weaken P P' t p _ H H1)|exact H2]. Qed.
  Lemma try_good {A} t l (p : prog C A) : forall s a s', run t (try_finally p (release l)) s = (Good a, s') ->
    exists s1, run t p s = (Good a, s1) /\ dat s1 = dat s'.
  Proof.
    induction p as [a|e|X c k IHk h IHh]; intros s a0 s' H.
    - cbn in H. destruct (lock_rel t l (lks s)) as [[[]|e|] k']; try discriminate. injection H as <- <-. eauto.
    - cbn in H. destruct (lock_rel t l (lks s)) as [[[]|e'|] k']; discriminate.
    - cbn [try_finally run] in *. destruct (exec t c s) as [[x|e|] s1]; [eauto|eauto|discriminate].
  Qed.
  Lemma hal_with (P : D -> Prop) {A} l m (p : prog C A) d (Q : A -> D -> Prop) : hal P p d Q -> hal P (with_lock l m p) d Q.
  Proof.
    intros Hp t k. split.
    - apply alw_with. intros k'. apply (Hp t k').
    - intros a s'. unfold with_lock. cbn [run exec dat lks]. destruct (lock_acq (reent l) t l m k) as [[[]|e|] k']; try discriminate.
      intros H. destruct (try_good t l p _ _ _ H) as (s1 & H1 & <-). exact (proj2 (Hp t k') a s1 H1).
  Qed.
  Lemma hal_then (P : D -> Prop) {A B} (p : prog C A) (f : A -> B) d (Q : B -> D -> Prop) : hal P p d (fun a d' => Q (f a) d') -> hal P (bind p (fun a => Ret (f a))) d Q.
  Proof.
    intros Hp. apply hal_bind. intros t k. destruct (Hp t k) as [H1 H2]. split; [exact H1|]. intros a s' E.
    apply hal_ret; [|exact (H2 a s' E)]. pose proof (alw_end P t p _ H1) as He. rewrite E in He. apply He. discriminate.
  Qed.
End Hal.

(** The same for a part of the data: [put d d0] is [d0] with the part [d]. *)
Section Lift.
  Context {C C' : Type -> Type} {D D' : Type} `{!Sem C D} `{!Sem C' D'}.
  Variable f : forall X, C X -> C' X.
  Variable put : D -> D'.
  Variable P : D -> Prop.
  Hypothesis Hf : forall X (c : C X) d, P d -> cexec (f X c) (put d) = (fst (cexec c d), put (snd (cexec c d))).
  Lemma alw_lift {A} t (p : prog C A) : forall d k, alw P t p (mkst d k) ->
    alw (fun d' => exists d, P d /\ d' = put d) t (lift f p) (mkst (put d) k) /\
    forall a s', run t (lift f p) (mkst (put d) k) = (Good a, s') -> exists s, run t p (mkst d k) = (Good a, s) /\ dat s' = put (dat s).
  Proof.
    induction p as [a|e|X c kk IHk h IHh]; intros d k Hp.
    - split; [apply alw_ret; exists d; split; [exact (Hp 0)|reflexivity]|]. intros b s' [= <- <-]. eauto.
    - split; [apply alw_raise; exists d; split; [exact (Hp 0)|reflexivity]|]. discriminate.
    - pose proof (Hp 0) as H0. cbn in H0. apply alw_inv in Hp. cbn [lift].
      assert (He : exec t (lift_cmd f c) (mkst (put d) k) = (fst (exec t c (mkst d k)), mkst (put (dat (snd (exec t c (mkst d k))))) (lks (snd (exec t c (mkst d k)))))).
      { destruct c as [l m|l|X c]; cbn [lift_cmd exec dat lks].
        - destruct (lock_acq (reent l) t l m k). reflexivity.
        - destruct (lock_rel t l k). reflexivity.
        - rewrite (Hf X c d H0). destruct (cexec c d). reflexivity. }
      cbn [run]. split.
      + apply alw_act; [exists d; auto| |]; intros x s' E; rewrite He in E; destruct (exec t c (mkst d k)) as [r [d1 k1]]; cbn [fst snd dat lks] in E;
          injection E as -> <-; [apply IHk, Hp|apply IHh, Hp].
      + intros a s'. rewrite He. destruct (exec t c (mkst d k)) as [[x|e|] [d1 k1]]; cbn [fst snd dat lks]; [apply IHk, Hp|apply IHh, Hp|discriminate].
  Qed.
  Lemma hal_lift {A} (p : prog C A) d Q : hal P p d Q ->
    hal (fun d' => exists d, P d /\ d' = put d) (lift f p) (put d) (fun a d' => exists d, Q a d /\ d' = put d).
  Proof.
    intros Hp t k. destruct (Hp t k) as [H1 H2]. destruct (alw_lift t p d k H1) as [H3 H4]. split; [exact H3|].
    intros a s' E. destruct (H4 a s' E) as (s & E1 & ->). eauto.
  Qed.
End Lift.

(** ** The locks of a thread that runs alone *)
(** No lock is taken twice, unless it is re-entrant. *)
Definition okq (hs : list nat) (l : nat) (m : lmode) : Prop := m = Ex /\ (reent l = true \/ ~ In l hs).
Inductive nest (t : nat) : list nat -> locks -> Prop :=
| nest_nil : nest t [] ∅
| nest_cons l hs k k' : nest t hs k -> lock_acq (reent l) t l Ex k = (Good tt, k') -> nest t (l :: hs) k'.
Lemma nest_wf t hs k : nest t hs k -> wfk k.
Proof. induction 1 as [|l hs k k' H IH Ha]; [apply wfk_empty|]. exact (proj1 (acq_rel t l Ex k k' IH Ha)). Qed.
Lemma nest_mine t hs k : nest t hs k -> forall l, match k !! l with None => True | Some (Excl o n) => o = t /\ In l hs | Some (Shared _) => False end.
Proof.
  induction 1 as [|l hs k k' H IH Ha]; intros l'; [rewrite lookup_empty; exact I|].
  unfold lock_acq in Ha. pose proof (IH l) as Hl. pose proof (IH l') as Hl'.
  destruct (k !! l) as [[o n|os]|] eqn:El; [|destruct Hl|].
  - destruct (reent l && (o =? t)%nat); [|discriminate]. injection Ha as <-. destruct (decide (l' = l)) as [->|Hne].
    + rewrite lookup_insert. split; [apply Hl|left; reflexivity].
    + rewrite lookup_insert_ne by auto. destruct (k !! l') as [[o' n'|os]|]; auto. destruct Hl'. split; [assumption|right; assumption].
  - injection Ha as <-. destruct (decide (l' = l)) as [->|Hne].
    + rewrite lookup_insert. split; [reflexivity|left; reflexivity].
    + rewrite lookup_insert_ne by auto. destruct (k !! l') as [[o' n'|os]|]; auto. destruct Hl'. split; [assumption|right; assumption].
Qed.
Lemma nest_acq t hs k l : nest t hs k -> okq hs l Ex -> exists k', lock_acq (reent l) t l Ex k = (Good tt, k') /\ nest t (l :: hs) k'.
Proof.
  intros H [_ Hq]. pose proof (nest_mine t hs k H l) as Hm.
  assert (Ha : exists k', lock_acq (reent l) t l Ex k = (Good tt, k')).
  { unfold lock_acq. destruct (k !! l) as [[o n|os]|]; [|destruct Hm|eauto]. destruct Hm as [-> Hin]. rewrite Nat.eqb_refl.
    destruct Hq as [->|Hn]; [eauto|contradiction]. }
  destruct Ha as [k' Ha]. exists k'. split; [exact Ha|]. econstructor; eauto.
Qed.
Lemma nest_rel t hs k l : nest t (l :: hs) k -> exists k', lock_rel t l k = (Good tt, k') /\ nest t hs k'.
Proof.
  intros H. inversion H as [|l0 hs0 k0 k' Hn Ha]; subst. exists k0. split; [|exact Hn]. exact (proj2 (acq_rel t l Ex k0 k (nest_wf _ _ _ Hn) Ha)).
Qed.

(** Programs whose commands do not wait. *)
Section Wait.
  Context {C : Type -> Type} {D : Type} `{!Sem C D}.
  Definition nb_cmd {X} (c : cmd C X) : Prop := match c with Op c => forall d, fst (cexec c d) <> Block | _ => True end.
  Fixpoint nbs {A} (p : prog C A) : Prop :=
    match p with
    | Ret _ | Raise _ => True
    | Act c k h => nb_cmd c /\ (forall x, nbs (k x)) /\ (forall e, nbs (h e))
    end.
  Lemma nbs_bind {A B} (p : prog C A) (f : A -> prog C B) : nbs p -> (forall a, nbs (f a)) -> nbs (bind p f).
  Proof. intros H Hf. induction p as [a|e|X c k IHk h IHh]; cbn [bind nbs] in *; [apply Hf|exact I|]. destruct H as (H1 & H2 & H3). auto. Qed.
  Lemma nbs_one {X} (c : C X) : (forall d, fst (cexec c d) <> Block) -> nbs (op c).
  Proof. intros H. cbn. auto. Qed.
  Lemma nbs_try {A} (p : prog C A) l : nbs p -> nbs (try_finally p (release l)).
  Proof. intros H. induction p as [a|e|X c k IHk h IHh]; cbn [try_finally nbs] in *; [cbn; auto..|]. destruct H as (H1 & H2 & H3). auto. Qed.
  Lemma nbs_with {A} l m (p : prog C A) : nbs p -> nbs (with_lock l m p).
  Proof. intros H. cbn. split; [exact I|]. split; [intros; apply nbs_try, H|auto]. Qed.

  Lemma unw_nest {A} e hs (p : prog C A) : unwound e [] hs p -> forall t d k, nest t hs k -> run t p (mkst d k) = (Fail e, mkst d ∅).
  Proof.
    induction 1 as [|l hs kk h Hk IH]; intros t d k Hn; cbn [run exec dat lks].
    - inversion Hn. reflexivity.
    - destruct (nest_rel t hs k l Hn) as (k' & -> & Hn'). apply IH, Hn'.
  Qed.
  (** The locks are free at the end, unless a command waits. *)
  Lemma run_nest {A} hs (p : prog C A) : uw okq [] hs p -> forall t d k, nest t hs k ->
    (nbs p -> fst (run t p (mkst d k)) <> Block) /\ (fst (run t p (mkst d k)) <> Block -> lks (snd (run t p (mkst d k))) = ∅).
  Proof.
    induction 1 as [a|e|hs X c kk h Hk IHk Hh|hs l m kk h HQ Hk IHk Hh|hs l kk h Hk IHk]; intros t d k Hn; cbn [run exec dat lks].
    - inversion Hn. split; [discriminate|reflexivity].
    - inversion Hn. split; [discriminate|reflexivity].
    - destruct (cexec c d) as [r d'] eqn:Ec. destruct r as [x|e|].
      + destruct (IHk x t d' k Hn) as [I1 I2]. split; [|exact I2]. intros (_ & H2 & _). apply I1, H2.
      + rewrite (unw_nest e hs (h e) (Hh e) t d' k Hn). split; [discriminate|reflexivity].
      + split; [|intros Hx; cbn in Hx; congruence]. intros (H1 & _). specialize (H1 d). rewrite Ec in H1. cbn in H1. congruence.
    - pose proof HQ as HQ'. destruct HQ' as [-> _]. destruct (nest_acq t hs k l Hn HQ) as (k' & -> & Hn').
      destruct (IHk t d k' Hn') as [I1 I2]. split; [|exact I2]. intros (_ & H2 & _). apply I1, H2.
    - destruct (nest_rel t hs k l Hn) as (k' & -> & Hn'). destruct (IHk t d k' Hn') as [I1 I2]. split; [|exact I2]. intros (_ & H2 & _). apply I1, H2.
  Qed.
  (** With exceptions *)
  Lemma ends {A} (p : prog C A) t d fs : uw okq [] [] p ->
    let o := run t (flaky_call p) (mkst (d, fs) ∅) in
    (nbs p -> fst o <> Block) /\ (fst o <> Block -> lks (snd o) = ∅).
  Proof.
    intros Hu o. pose proof (run_flaky_call p t d fs ∅ (uw_any _ _ _ _ Hu) wfk_empty) as (pre & _ & Hc). fold o in Hc.
    destruct Hc as [[_ H]|(pre0 & e & j & _ & _ & Hr & Hl & _)].
    - destruct (run_nest [] p Hu t d ∅ (nest_nil t)) as [I1 I2]. rewrite H in I1, I2. cbn [fst snd lks] in *. auto.
    - rewrite Hr, Hl. split; [discriminate|reflexivity].
  Qed.
  (** What is left of the data *)
  Lemma left_of (P : D -> Prop) {A} (p : prog C A) Q t d fs : uw okq [] [] p -> hal P p d Q ->
    let o := run t (flaky_call p) (mkst (d, fs) ∅) in fst o <> Block -> lks (snd o) = ∅ /\ P (fst (dat (snd o))).
  Proof.
    intros Hu Hp o Hb. split; [apply (ends p t d fs Hu), Hb|].
    destruct (cut_prefix t p d ∅ fs _ _ (run_flaky_call p t d fs ∅ (uw_any _ _ _ _ Hu) wfk_empty) Hb) as [j Hj].
    change (P (fst (dat (snd (run t (flaky_call p) (mkst (d, fs) ∅)))))). rewrite Hj. apply (Hp t ∅).
  Qed.
End Wait.
