(** * Blocks: an account of critical sections of several locks

    Processes that share data under locks.  [eqS l]: the part [l] of the data is the same;
    [own i]: what process [i] owns.  A part with an even number is used under the lock of
    this number (not an RLock), a part with an odd number without a lock.  A process may use
    several critical sections, one after the other; inside a section of [L] it touches only
    the part [L], outside of sections only what it owns, or, in one operation, one of the
    parts without a lock.  Then every complete execution can be described as if each section
    happened at once: the invariants [J] of the parts, which may speak about the events that
    the sections and the operations stand for, hold in the end, and the results and events
    of each process are as its own program says ([blk]).  Locks may be used in any other
    properly bracketed way too. *)
From stdpp Require Import gmap.
From Coq Require Import List Bool Arith Lia.
From Verif Require Import Prog ProgFacts Spec Conc Locks Atomic Serial Held.
Import ListNotations.
Local Open Scope prog_scope.
Local Open Scope nat_scope.

(** ** Running to the end of a section *)
Section Upto.
  Context {C : Type -> Type} {D : Type} `{!Sem C D}.
  Variable L : nat.
  Definition dstep {X} (c : cmd C X) (d : D) : outcome X * D :=
    match c in cmd _ X return outcome X * D with
    | Acq _ _ => (Good tt, d)
    | Rel _ => (Good tt, d)
    | Op c => cexec c d
    end.
  Definition is_rel {X} (c : cmd C X) : bool := match c with Rel l => l =? L | _ => false end.
  Fixpoint upto {A} (p : prog C A) (d : D) : option (prog C A * D) :=
    match p with
    | Ret _ | Raise _ => None
    | Act c k h =>
        match dstep c d with
        | (Good x, d') => if is_rel c then Some (k x, d') else upto (k x) d'
        | (Fail e, d') => upto (h e) d'
        | (Block, _) => None
        end
    end.
  Lemma upto_bind {A B} (f : A -> prog C B) p : forall d q d', upto p d = Some (q, d') ->
    upto (bind p f) d = Some (bind q f, d').
  Proof.
    induction p as [a|e|X c k IHk h IHh]; intros d q d' H; [discriminate|discriminate|]. simpl in *.
    destruct (dstep c d) as [[x|e|] d1]; [|auto|discriminate]. destruct (is_rel c); [|auto]. injection H as <- <-. reflexivity.
  Qed.
  Lemma upto_attempt {A} (p : prog C A) : forall d q d', upto p d = Some (q, d') ->
    upto (attempt p) d = Some (attempt q, d').
  Proof.
    induction p as [a|e|X c k IHk h IHh]; intros d q d' H; [discriminate|discriminate|]. simpl in *.
    destruct (dstep c d) as [[x|e|] d1]; [|auto|discriminate]. destruct (is_rel c); [|auto]. injection H as <- <-. reflexivity.
  Qed.
End Upto.

Lemma sched_run_app {C D A} `{!Sem C D} a b : forall (c c1 c2 : config (C:=C) (D:=D) A),
  sched_run a c = Some c1 -> sched_run b c1 = Some c2 -> sched_run (a ++ b) c = Some c2.
Proof.
  induction a as [|i a IH]; intros c c1 c2 Ha Hb; simpl in *; [injection Ha as <-; exact Hb|].
  destruct (cstep i c) as [c'|]; [|discriminate]. eapply IH; eauto.
Qed.
Lemma sched_length {C D A} `{!Sem C D} sch : forall (c c' : config (C:=C) (D:=D) A), sched_run sch c = Some c' -> length (fst c') = length (fst c).
Proof.
  induction sch as [|i sch IH]; intros c c' H; simpl in H; [injection H as <-; reflexivity|].
  destruct (cstep i c) as [c1|] eqn:E; [|discriminate]. rewrite (IH _ _ H). unfold cstep in E.
  destruct (fst c !! i); [|discriminate]. destruct (pstep i _ (snd c)) as [[p1 s1]|]; [|discriminate].
  injection E as <-. simpl. apply insert_length.
Qed.

Section Blocks.
  Context {C : Type -> Type} {D : Type} `{!Sem C D}.
  Variable main : nat -> Prop.
  Hypothesis nb : forall X (c : C X) (d : D), fst (cexec c d) <> Block.
  Variable eqS : nat -> D -> D -> Prop.
  Hypothesis S_equiv : forall l, Equivalence (eqS l).
  Context {O Ev : Type}.
  Variable own : nat -> D -> O.
  Variable J : nat -> list (nat * Ev) -> D -> Prop.
  Hypothesis J_eq : forall L g d d', eqS L d d' -> J L g d -> J L g d'.

  (** Commands of a section of [L]. *)
  Definition reg (L : nat) (m : lmode) {X} (c : C X) : Prop :=
    (forall d1 d2, eqS L d1 d2 ->
       fst (cexec c d1) = fst (cexec c d2) /\ eqS L (snd (cexec c d1)) (snd (cexec c d2))) /\
    (forall l d, l <> L -> main l -> eqS l d (snd (cexec c d))) /\
    (forall i d, own i (snd (cexec c d)) = own i d) /\
    (m = Sh -> forall d, eqS L d (snd (cexec c d))).
  Inductive sec {A} (L : nat) (m : lmode) : prog C A -> Prop :=
  | sec_op X (c : C X) k h : reg L m c ->
      (forall d x, fst (cexec c d) = Good x -> sec L m (k x)) ->
      (forall d e, fst (cexec c d) = Fail e -> sec L m (h e)) -> sec L m (Act (Op c) k h)
  | sec_end k h : sec L m (Act (Rel L) k h).

  Lemma sec_bind {A B} L m (p : prog C A) (f : A -> prog C B) : sec L m p -> sec L m (bind p f).
  Proof. induction 1; simpl; constructor; eauto. Qed.
  Lemma sec_attempt {A} L m (p : prog C A) : sec L m p -> sec L m (attempt p).
  Proof. induction 1; simpl; constructor; eauto. Qed.

  Lemma upto_same {A} L m (p : prog C A) : sec L m p -> forall d1 d2 q d1', eqS L d1 d2 -> upto L p d1 = Some (q, d1') ->
    exists d2', upto L p d2 = Some (q, d2') /\ eqS L d1' d2'.
  Proof.
    induction 1 as [X c k h (H1 & _) Hk IHk Hh IHh|k h]; intros d1 d2 q d1' E Hu; simpl in *.
    - destruct (H1 d1 d2 E) as [E1 E2].
      pose proof (Hk d1) as Hk1. pose proof (IHk d1) as IHk1. pose proof (Hh d1) as Hh1. pose proof (IHh d1) as IHh1.
      destruct (cexec c d1) as [[x|e|] d1a], (cexec c d2) as [[x2|e2|] d2a]; simpl in *; try discriminate; injection E1 as <-.
      + eapply (IHk1 x eq_refl); eauto.
      + eapply (IHh1 e eq_refl); eauto.
    - rewrite Nat.eqb_refl in *. injection Hu as <- <-. eauto.
  Qed.
  Lemma upto_sh {A} L (p : prog C A) : sec L Sh p -> forall d q d', upto L p d = Some (q, d') -> eqS L d d'.
  Proof.
    induction 1 as [X c k h (_ & _ & _ & H4) Hk IHk Hh IHh|k h]; intros d q d' Hu; simpl in *.
    - pose proof (H4 eq_refl d) as E. pose proof (IHk d) as IHk1. pose proof (IHh d) as IHh1.
      destruct (cexec c d) as [[x|e|] d1]; simpl in *; [| |discriminate];
        (transitivity d1; [exact E|]); [eapply IHk1|eapply IHh1]; eauto.
    - rewrite Nat.eqb_refl in Hu. injection Hu as <- <-. reflexivity.
  Qed.

  (** Commands outside of sections. *)
  Definition untouched {X} (i : nat) (c : C X) : Prop :=
    (forall l d, main l -> eqS l d (snd (cexec c d))) /\ (forall j d, j <> i -> own j (snd (cexec c d)) = own j d).

  (** The account of a program of process [i]; [R es o r]: it made the events [es] and ended
      with the result [r], owning [o]. *)
  Inductive blk {A} (i : nat) : O -> (list Ev -> O -> outcome A -> Prop) -> prog C A -> Prop :=
  | blk_ret o (R : list Ev -> O -> outcome A -> Prop) a : R [] o (Good a) -> blk i o R (Ret a)
  | blk_raise o (R : list Ev -> O -> outcome A -> Prop) e : R [] o (Fail e) -> blk i o R (Raise e)
  | blk_good o R X (c : C X) k h x o' :
      (forall d, own i d = o -> fst (cexec c d) = Good x /\ own i (snd (cexec c d)) = o') -> untouched i c ->
      blk i o' R (k x) -> blk i o R (Act (Op c) k h)
  | blk_fail o R X (c : C X) k h e o' :
      (forall d, own i d = o -> fst (cexec c d) = Fail e /\ own i (snd (cexec c d)) = o') -> untouched i c ->
      blk i o' R (h e) -> blk i o R (Act (Op c) k h)
  | blk_acq o R l m k h : blk i o R (k tt) -> blk i o R (Act (Acq l m) k h)
  | blk_rel o R l k h : blk i o R (k tt) -> blk i o R (Act (Rel l) k h)
  | blk_enter o (R : list Ev -> O -> outcome A -> Prop) L m k h (es : list (nat * Ev) -> D -> list Ev)
      (q : list (nat * Ev) -> D -> prog C A) (d' : list (nat * Ev) -> D -> D) :
      main L -> reent L = false -> sec L m (k tt) ->
      (forall g d, J L g d ->
         upto L (k tt) d = Some (q g d, d' g d) /\ J L (g ++ map (pair i) (es g d)) (d' g d) /\
         (forall l g' d1, l <> L -> main l -> J l g' d1 -> J l (g' ++ map (pair i) (es g d)) d1)) ->
      (forall g d, J L g d -> blk i o (fun es' o' r => R (es g d ++ es') o' r) (q g d)) ->
      blk i o R (Act (Acq L m) k h)
  | blk_atom o (R : list Ev -> O -> outcome A -> Prop) L X (c : C X) k h (es : list (nat * Ev) -> D -> list Ev) :
      main L -> reent L = true -> reg L Ex c ->
      (forall g d, J L g d ->
         J L (g ++ map (pair i) (es g d)) (snd (cexec c d)) /\
         (forall l g' d1, l <> L -> main l -> J l g' d1 -> J l (g' ++ map (pair i) (es g d)) d1)) ->
      (forall g d x, J L g d -> fst (cexec c d) = Good x -> blk i o (fun es' o' r => R (es g d ++ es') o' r) (k x)) ->
      (forall g d e, J L g d -> fst (cexec c d) = Fail e -> blk i o (fun es' o' r => R (es g d ++ es') o' r) (h e)) ->
      blk i o R (Act (Op c) k h).

  Lemma blk_more {A} i o R (p : prog C A) : blk i o R p ->
    forall R' : list Ev -> O -> outcome A -> Prop, (forall es o' r, R es o' r -> R' es o' r) -> blk i o R' p.
  Proof.
    induction 1 as [o R a H|o R e H|o R X c k h x o' Hc Hu Hk IH|o R X c k h x o' Hc Hu Hk IH|o R l m k h Hk IH|o R l k h Hk IH
                   |o R L m k h es q d' HL Hpl Hs Hq Hb IH|o R L X c k h es HL Hre Hrg Hq Hk IHk Hh IHh]; intros R' HR.
    - apply blk_ret. auto.
    - apply blk_raise. auto.
    - eapply blk_good; eauto.
    - eapply blk_fail; eauto.
    - apply blk_acq; auto.
    - apply blk_rel; auto.
    - eapply blk_enter; eauto.
    - eapply blk_atom; eauto.
  Qed.
  Lemma blk_bind {A B} i o R (p : prog C A) : blk i o R p ->
    forall (R' : list Ev -> O -> outcome B -> Prop) (f : A -> prog C B),
    (forall es o' a, R es o' (Good a) -> blk i o' (fun es' o'' r => R' (es ++ es') o'' r) (f a)) ->
    (forall es o' e, R es o' (Fail e) -> R' es o' (Fail e)) -> blk i o R' (bind p f).
  Proof.
    induction 1 as [o R a H|o R e H|o R X c k h x o' Hc Hu Hk IH|o R X c k h x o' Hc Hu Hk IH|o R l m k h Hk IH|o R l k h Hk IH
                   |o R L m k h es q d' HL Hpl Hs Hq Hb IH|o R L X c k h es HL Hre Hrg Hq Hk IHk Hh IHh]; intros R' f Hf He; simpl.
    - apply (Hf [] o a H).
    - apply blk_raise. auto.
    - eapply blk_good; eauto.
    - eapply blk_fail; eauto.
    - apply blk_acq; auto.
    - apply blk_rel; auto.
    - apply (blk_enter i o R' L m _ _ es (fun g d => bind (q g d) f) d'); auto.
      + apply sec_bind, Hs.
      + intros g d HJ. destruct (Hq g d HJ) as (Q1 & Q2 & Q3). split; [|auto]. apply upto_bind, Q1.
      + intros g d HJ. apply (IH g d HJ).
        * intros es1 o1 a Ha. eapply blk_more; [apply (Hf _ _ _ Ha)|]. intros es2 o2 r. cbn beta. rewrite app_assoc. auto.
        * intros es1 o1 e Ha. apply He, Ha.
    - apply (blk_atom i o R' L X c _ _ es); auto.
      + intros g d x HJ Ex1. apply (IHk g d x HJ Ex1).
        * intros es1 o1 a Ha. eapply blk_more; [apply (Hf _ _ _ Ha)|]. intros es2 o2 r. cbn beta. rewrite app_assoc. auto.
        * intros es1 o1 e Ha. apply He, Ha.
      + intros g d x HJ Ex1. apply (IHh g d x HJ Ex1).
        * intros es1 o1 a Ha. eapply blk_more; [apply (Hf _ _ _ Ha)|]. intros es2 o2 r. cbn beta. rewrite app_assoc. auto.
        * intros es1 o1 e Ha. apply He, Ha.
  Qed.
  Lemma blk_attempt {A} i o R (p : prog C A) : blk i o R p ->
    forall R' : list Ev -> O -> outcome (outcome A) -> Prop, (forall es o' r, R es o' r -> R' es o' (Good r)) ->
    blk i o R' (attempt p).
  Proof.
    induction 1 as [o R a H|o R e H|o R X c k h x o' Hc Hu Hk IH|o R X c k h x o' Hc Hu Hk IH|o R l m k h Hk IH|o R l k h Hk IH
                   |o R L m k h es q d' HL Hpl Hs Hq Hb IH|o R L X c k h es HL Hre Hrg Hq Hk IHk Hh IHh]; intros R' HR; simpl.
    - apply blk_ret. auto.
    - apply blk_ret. auto.
    - eapply blk_good; eauto.
    - eapply blk_fail; eauto.
    - apply blk_acq; auto.
    - apply blk_rel; auto.
    - apply (blk_enter i o R' L m _ _ es (fun g d => attempt (q g d)) d'); auto.
      + apply sec_attempt, Hs.
      + intros g d HJ. destruct (Hq g d HJ) as (Q1 & Q2 & Q3). split; [|auto]. apply upto_attempt, Q1.
    - apply (blk_atom i o R' L X c _ _ es); auto.
      + intros g d x HJ Ex1. apply (IHk g d x HJ Ex1). intros es1 o1 r. apply HR.
      + intros g d x HJ Ex1. apply (IHh g d x HJ Ex1). intros es1 o1 r. apply HR.
  Qed.

  (** A whole section. *)
  Inductive inner {X} (L : nat) (m : lmode) : prog C X -> Prop :=
  | inner_ret a : inner L m (Ret a)
  | inner_raise e : inner L m (Raise e)
  | inner_op Y (c : C Y) k h : reg L m c ->
      (forall d x, fst (cexec c d) = Good x -> inner L m (k x)) ->
      (forall d e, fst (cexec c d) = Fail e -> inner L m (h e)) -> inner L m (Act (Op c) k h).
  Lemma inner_bind {X Y} L m (p : prog C X) (f : X -> prog C Y) : inner L m p -> (forall a, inner L m (f a)) -> inner L m (bind p f).
  Proof. intros H Hf. induction H; simpl; auto; constructor; eauto. Qed.
  Lemma inner_one {X} L m (c : C X) : reg L m c -> inner L m (op c).
  Proof. intros H. constructor; [exact H|intros; constructor..]. Qed.
  Lemma inner_sec {X} L m (p : prog C X) : inner L m p -> sec L m (try_finally p (release L)).
  Proof. induction 1; simpl; constructor; eauto. Qed.
  Lemma inner_upto {X} L m (p : prog C X) : inner L m p -> forall d,
    upto L (try_finally p (release L)) d =
      Some (match fst (srun p d) with Good a => Ret a | Fail e => Raise e | Block => Raise RuntimeError end, snd (srun p d)) /\
    fst (srun p d) <> Block.
  Proof.
    induction 1 as [a|e|Y c k h Hc Hk IHk Hh IHh]; intros d.
    - simpl. rewrite Nat.eqb_refl. split; [reflexivity|discriminate].
    - simpl. rewrite Nat.eqb_refl. split; [reflexivity|discriminate].
    - simpl. pose proof (nb _ c d) as Hnb. pose proof (IHk d) as IHk1. pose proof (IHh d) as IHh1.
      destruct (cexec c d) as [[x|e|] d1]; simpl in *; [apply IHk1; reflexivity|apply IHh1; reflexivity|congruence].
  Qed.
  Lemma blk_with {X} i o (R : list Ev -> O -> outcome X -> Prop) L m (p : prog C X) (es : list (nat * Ev) -> D -> list Ev) :
    main L -> reent L = false -> inner L m p ->
    (forall g d, J L g d ->
       J L (g ++ map (pair i) (es g d)) (snd (srun p d)) /\
       (forall l g' d1, l <> L -> main l -> J l g' d1 -> J l (g' ++ map (pair i) (es g d)) d1) /\
       R (es g d) o (fst (srun p d))) ->
    blk i o R (with_lock L m p).
  Proof.
    intros HL Hpl Hp H. unfold with_lock.
    apply (blk_enter i o R L m _ _ es
             (fun g d => match fst (srun p d) with Good a => Ret a | Fail e => Raise e | Block => Raise RuntimeError end)
             (fun g d => snd (srun p d))); auto.
    - apply inner_sec, Hp.
    - intros g d HJ. destruct (H g d HJ) as (H1 & H2 & H3). split; [|auto]. apply (proj1 (inner_upto L m p Hp d)).
    - intros g d HJ. destruct (H g d HJ) as (H1 & H2 & H3). pose proof (proj2 (inner_upto L m p Hp d)) as Hb.
      destruct (fst (srun p d)) as [a|e|]; [apply blk_ret|apply blk_raise|congruence]; rewrite app_nil_r; exact H3.
  Qed.
  Lemma blk_with_read {X} i o (R : list Ev -> O -> outcome X -> Prop) L (p : prog C X) :
    main L -> reent L = false -> inner L Sh p -> (forall g d, J L g d -> R [] o (fst (srun p d))) -> blk i o R (with_lock L Sh p).
  Proof.
    intros HL Hpl Hp H. apply (blk_with i o R L Sh p (fun _ _ => [])); auto.
    intros g d HJ. cbn [map]. rewrite app_nil_r. split; [|split; [|apply (H g d HJ)]].
    - eapply J_eq; [|exact HJ]. pose proof (proj1 (inner_upto L Sh p Hp d)) as Hu. eapply upto_sh; [apply inner_sec, Hp|exact Hu].
    - intros l g' d1 _ _. rewrite app_nil_r. auto.
  Qed.
  (** Locks taken around something that uses no shared data. *)
  Lemma blk_around {X} i o (R : list Ev -> O -> outcome X -> Prop) l m (p : prog C X) :
    blk i o R p -> blk i o R (with_lock l m p).
  Proof.
    intros H. unfold with_lock. apply blk_acq.
    induction H as [o R a H|o R e H|o R X' c k h x o' Hc Hu Hk IH|o R X' c k h x o' Hc Hu Hk IH|o R l' m' k h Hk IH|o R l' k h Hk IH
                   |o R L m' k h es q d' HL Hpl Hs Hq Hb IH|o R L X' c k h es HL Hre Hrg Hq Hk IHk Hh IHh]; simpl.
    - apply blk_rel, blk_ret, H.
    - apply blk_rel, blk_raise, H.
    - eapply blk_good; eauto.
    - eapply blk_fail; eauto.
    - apply blk_acq, IH.
    - apply blk_rel, IH.
    - assert (Hsec : forall (p : prog C X), sec L m' p -> sec L m' (try_finally p (release l))).
      { clear. induction 1; simpl; constructor; eauto. }
      assert (Hupto : forall (p : prog C X) d q0 d0, upto L p d = Some (q0, d0) ->
                upto L (try_finally p (release l)) d = Some (try_finally q0 (release l), d0)).
      { clear. induction p as [a|e|Y c k IHk h IHh]; intros d q0 d0 H; [discriminate|discriminate|]. simpl in *.
        destruct (dstep c d) as [[x|e|] d1]; [|auto|discriminate]. destruct (is_rel L c); [|auto]. injection H as <- <-. reflexivity. }
      apply (blk_enter i o R L m' _ _ es (fun g d => try_finally (q g d) (release l)) d'); auto.
      intros g d HJ. destruct (Hq g d HJ) as (Q1 & Q2 & Q3). split; [|auto]. apply Hupto, Q1.
    - apply (blk_atom i o R L X' c _ _ es); auto.
  Qed.
  (** One operation on a part without a lock. *)
  Lemma blk_one {X} i o (R : list Ev -> O -> outcome X -> Prop) L (c : C X) (es : list (nat * Ev) -> D -> list Ev) :
    main L -> reent L = true -> reg L Ex c ->
    (forall g d, J L g d ->
       J L (g ++ map (pair i) (es g d)) (snd (cexec c d)) /\
       (forall l g' d1, l <> L -> main l -> J l g' d1 -> J l (g' ++ map (pair i) (es g d)) d1) /\
       R (es g d) o (fst (cexec c d))) ->
    blk i o R (op c).
  Proof.
    intros HL Hre Hc H. apply (blk_atom i o R L X c _ _ es); auto.
    - intros g d HJ. destruct (H g d HJ) as (H1 & H2 & _). auto.
    - intros g d x HJ Ex1. destruct (H g d HJ) as (_ & _ & H3). rewrite Ex1 in H3. apply blk_ret. rewrite app_nil_r. exact H3.
    - intros g d e HJ Ex1. destruct (H g d HJ) as (_ & _ & H3). rewrite Ex1 in H3. apply blk_raise. rewrite app_nil_r. exact H3.
  Qed.
  (** ** The simulation *)
  Local Definition plain_main (l : nat) : Prop := main l /\ reent l = false.
  Local Lemma plain_main_plain l : plain_main l -> reent l = false.
  Proof. intros [_ H]. exact H. Qed.
  Section Pool.
    Context {A : Type}.
    Variable Rf : nat -> list Ev -> O -> outcome A -> Prop.

    Definition tagged (i : nat) (g : list (nat * Ev)) : list Ev := events_of i g.
    Lemma tagged_app i g g' : tagged i (g ++ g') = tagged i g ++ tagged i g'.
    Proof. unfold tagged, events_of. rewrite List.filter_app, map_app. reflexivity. Qed.
    Lemma tagged_own i es : tagged i (map (pair i) es) = es.
    Proof.
      unfold tagged, events_of. induction es as [|e es IH]; [reflexivity|]. cbn [map List.filter fst].
      rewrite Nat.eqb_refl. cbn [map snd]. rewrite IH. reflexivity.
    Qed.
    Lemma tagged_other i j es : i <> j -> tagged j (map (pair i) es) = [].
    Proof.
      intros H. unfold tagged, events_of. induction es as [|e es IH]; [reflexivity|]. cbn [map List.filter fst].
      apply Nat.eqb_neq in H. rewrite H. exact IH.
    Qed.

    Definition rest (i : nat) (g : list (nat * Ev)) : list Ev -> O -> outcome A -> Prop :=
      fun es o r => Rf i (tagged i g ++ es) o r.
    (** One process: outside of its sections, or inside one of [L]. *)
    Definition thr (i : nat) (f : option (nat * lmode)) (p : prog C A) (g : list (nat * Ev)) (d : D) (x : locks) : Prop :=
      match f with
      | None => blk i (own i d) (rest i g) p
      | Some (L, m) => (main L /\ reent L = false) /\ tab m i (x !! L) /\ sec L m p /\
          exists q d', upto L p d = Some (q, d') /\ blk i (own i d) (rest i g) q /\ (m = Ex -> J L g d')
      end.
    Record bsim (ps : list (prog C A)) (s : st D) (g : list (nat * Ev)) (ph : nat -> option (nat * lmode)) : Prop := mkbsim {
      bs_thr : forall i p, ps !! i = Some p -> thr i (ph i) p g (dat s) (lks s);
      bs_out : forall i, length ps <= i -> ph i = None;
      bs_inv : forall L, main L -> (forall i, ph i <> Some (L, Ex)) -> J L g (dat s);
      bs_evs : Forall (fun e => fst e < length ps) g }.

    Definition setph (ph : nat -> option (nat * lmode)) (i : nat) (f : option (nat * lmode)) : nat -> option (nat * lmode) :=
      fun j => if j =? i then f else ph j.
    Lemma setph_eq ph i f : setph ph i f i = f.
    Proof. unfold setph. rewrite Nat.eqb_refl. reflexivity. Qed.
    Lemma setph_ne ph i f j : j <> i -> setph ph i f j = ph j.
    Proof. intros H. unfold setph. apply Nat.eqb_neq in H. rewrite H. reflexivity. Qed.

    (** The other processes do not mind. *)
    Lemma thr_stable i f p g d x g' d' x' : thr i f p g d x ->
      own i d' = own i d -> tagged i g' = tagged i g ->
      (forall L m, f = Some (L, m) -> eqS L d d' /\ tab m i (x' !! L) /\ (m = Ex -> forall d1, J L g d1 -> J L g' d1)) ->
      thr i f p g' d' x'.
    Proof.
      intros H Ho Ht Hf. destruct f as [[L m]|]; simpl in *.
      - destruct H as (H1 & H2 & H3 & q & d1 & H4 & H5 & H6). destruct (Hf L m eq_refl) as (F1 & F2 & F3).
        destruct (upto_same L m p H3 d d' q d1 F1 H4) as (d2 & G1 & G2).
        split; [exact H1|]. split; [exact F2|]. split; [exact H3|]. exists q, d2. split; [exact G1|]. split.
        + rewrite Ho. unfold rest in *. rewrite Ht. exact H5.
        + intros Hm. eapply J_eq; [exact G2|]. apply F3; auto.
      - rewrite Ho. unfold rest in *. rewrite Ht. exact H.
    Qed.

    Definition grows (g g' : list (nat * Ev)) : Prop := exists e, g' = g ++ e.
    Lemma bsim_step held ps s g ph i ps' s' : pool_inv held ps s -> bsim ps s g ph -> cstep i (ps, s) = Some (ps', s') ->
      exists g' ph', grows g g' /\ bsim ps' s' g' ph'.
    Proof.
      assert (Hsame : grows g g) by (exists []; symmetry; apply app_nil_r).
      assert (Hmore : forall e, grows g (g ++ e)) by (intros e; exists e; reflexivity).
      intros (Hli & _ & Hwk) [Bt Bo Bi Be] Hstep. unfold cstep in Hstep. simpl in Hstep.
      destruct (ps !! i) as [p|] eqn:Ep; [|discriminate].
      destruct (pstep i p s) as [[p' s1]|] eqn:Es; [|discriminate]. injection Hstep as <- <-.
      pose proof (Bt i p Ep) as Hst. pose proof (Hwk i p Ep) as Hw.
      assert (Hi : i < length ps) by (eapply lookup_lt_Some; eauto).
      (* putting it together *)
      assert (Hgo : forall g' f',
        thr i f' p' g' (dat s1) (lks s1) ->
        (forall j, j <> i -> own j (dat s1) = own j (dat s) /\ tagged j g' = tagged j g) ->
        (forall j L m, j <> i -> ph j = Some (L, m) -> main L /\ reent L = false -> tab m j (lks s !! L) ->
           eqS L (dat s) (dat s1) /\ tab m j (lks s1 !! L) /\ (m = Ex -> forall d1, J L g d1 -> J L g' d1)) ->
        (forall L, main L -> (forall j, j <> i -> ph j <> Some (L, Ex)) -> f' <> Some (L, Ex) -> J L g' (dat s1)) ->
        Forall (fun e => fst e < length ps) g' -> grows g g' ->
        exists g' ph', grows g g' /\ bsim (<[i:=p']> ps) s1 g' ph').
      { intros g' f' H1 H2 H3 H4 H5 H6. exists g', (setph ph i f'). split; [exact H6|]. split.
        - intros j pj Hj. destruct (decide (j = i)) as [->|Hne].
          + rewrite list_lookup_insert in Hj by exact Hi. injection Hj as <-. rewrite setph_eq. exact H1.
          + rewrite list_lookup_insert_ne in Hj by auto. rewrite setph_ne by exact Hne. destruct (H2 j Hne) as [O1 O2].
            eapply thr_stable; [apply (Bt j pj Hj)|exact O1|exact O2|]. intros L m E.
            pose proof (Bt j pj Hj) as T. rewrite E in T. simpl in T. destruct T as (T1 & T2 & _). apply (H3 j L m Hne E T1 T2).
        - intros j Hj. rewrite insert_length in Hj. destruct (decide (j = i)) as [->|Hne]; [lia|].
          rewrite setph_ne by exact Hne. apply Bo, Hj.
        - intros L HL Hno. apply H4; [exact HL| |].
          + intros j Hne E. apply (Hno j). rewrite setph_ne by exact Hne. exact E.
          + intros E. apply (Hno i). rewrite setph_eq. exact E.
        - rewrite insert_length. exact H5. }
      destruct (ph i) as [[L m]|] eqn:Eph.
      - (* inside *)
        destruct Hst as (HL & Ht & Hs & q & d' & Hu & Hb & HJ).
        assert (Hothers : forall j m', j <> i -> ph j = Some (L, m') -> m = Sh).
        { intros j m' Hj Ej. destruct m; [|reflexivity]. destruct Ht as [n Ht].
          destruct (lookup_lt_is_Some_2 ps j) as [pj Hpj].
          { destruct (le_lt_dec (length ps) j) as [Hle|]; [|assumption]. rewrite (Bo j Hle) in Ej. discriminate. }
          pose proof (Bt j pj Hpj) as T. rewrite Ej in T. destruct T as (_ & T & _). rewrite Ht in T.
          destruct m'; simpl in T; destruct T as [? T]; [congruence|destruct T; discriminate]. }
        destruct Hs as [X c k h Hc Hk Hh|k h].
        + simpl in Es, Hu. pose proof (Hk (dat s)) as Hk1. pose proof (Hh (dat s)) as Hh1. destruct Hc as (R1 & R2 & R3 & R4).
          pose proof (R2) as R2'. pose proof (fun j => R3 j (dat s)) as R3'. pose proof (fun E => R4 E (dat s)) as R4'.
          assert (R2'' : forall l, l <> L -> main l -> eqS l (dat s) (snd (cexec c (dat s)))) by auto.
          destruct (cexec c (dat s)) as [[x|e|] d1] eqn:Ec; simpl in *; [| |discriminate]; injection Es as <- <-;
            (apply (Hgo g (Some (L, m)));
             [ simpl; split; [exact HL|]; split; [exact Ht|]; split; [first [apply Hk1|apply Hh1]; reflexivity|];
               exists q, d'; split; [exact Hu|]; split; [rewrite R3'; exact Hb|exact HJ]
             | intros j Hj; simpl; split; [apply R3'|reflexivity]
             | intros j L' m' Hj Ej HL' Htj; simpl; split; [|auto];
               destruct (decide (L' = L)) as [->|HL2]; [apply R4'; eapply Hothers; eauto|apply R2''; [exact HL2|exact (proj1 HL')]]
             | intros L' HL' Hno Hne; simpl;
               destruct (decide (L' = L)) as [->|HL2];
               [ destruct m; [congruence|]; eapply J_eq; [apply R4'; reflexivity|]; apply Bi; [exact (proj1 HL)|];
                 intros j; destruct (decide (j = i)) as [->|Hji]; [congruence|apply Hno, Hji]
               | eapply J_eq; [apply R2''; auto|]; apply Bi; [exact HL'|];
                 intros j; destruct (decide (j = i)) as [->|Hji]; [congruence|apply Hno, Hji] ]
             | exact Be
             | exact Hsame ]).
        + simpl in Hu. rewrite Nat.eqb_refl in Hu. injection Hu as <- <-.
          simpl in Es. destruct (lock_rel i L (lks s)) as [r k1] eqn:Er.
          destruct (wlk_rel_inv _ _ _ _ _ Hw) as [hs Hhs].
          assert (r = Good tt) by (apply (rel_inv held (lks s) i L hs r k1 Hli Hhs Er)). subst r. injection Es as <- <-.
          apply (Hgo g None); simpl.
          * exact Hb.
          * auto.
          * intros j L' m' Hj Ej HL' Htj. split; [reflexivity|]. split; [|auto]. eapply tab_rel; eauto.
          * intros L' HL' Hno _. destruct (decide (L' = L)) as [->|HL2].
            -- destruct m; [apply HJ; reflexivity|]. apply Bi; [exact (proj1 HL)|]. intros j.
               destruct (decide (j = i)) as [->|Hji]; [congruence|apply Hno, Hji].
            -- apply Bi; [exact HL'|]. intros j. destruct (decide (j = i)) as [->|Hji]; [congruence|apply Hno, Hji].
          * exact Be.
          * exact Hsame.
      - (* outside *)
        simpl in Hst. remember (own i (dat s)) as o eqn:Eo. remember (rest i g) as R eqn:ER.
        assert (Hinv : forall L, main L -> (forall j, j <> i -> ph j <> Some (L, Ex)) -> J L g (dat s)).
        { intros L HL Hno. apply Bi; [exact HL|]. intros j. destruct (decide (j = i)) as [->|Hji]; [congruence|apply Hno, Hji]. }
        destruct Hst as [o R a Hr|o R e Hr|o R X c k h x o' Hc [Hu1 Hu2] Hk|o R X c k h x o' Hc [Hu1 Hu2] Hk|o R l m k h Hk|o R l k h Hk
                        |o R L m k h es q d' HL Hpl Hs Hq Hb|o R L X c k h es HL Hre Hrg Hq Hk Hh]; [discriminate|discriminate|..]; subst R.
        + simpl in Es. destruct (Hc (dat s) (eq_sym Eo)) as [C1 C2]. pose proof (fun l => Hu1 l (dat s)) as Hu1'.
          pose proof (fun j => Hu2 j (dat s)) as Hu2'.
          destruct (cexec c (dat s)) as [r d1]; simpl in *. subst r. injection Es as <- <-.
          apply (Hgo g None); simpl; auto.
          * rewrite C2. exact Hk.
          * intros j L m' _ _ [HL _] Htj. auto.
          * intros L HL Hno _. eapply J_eq; [apply Hu1', HL|]. apply Hinv; auto.
        + simpl in Es. destruct (Hc (dat s) (eq_sym Eo)) as [C1 C2]. pose proof (fun l => Hu1 l (dat s)) as Hu1'.
          pose proof (fun j => Hu2 j (dat s)) as Hu2'.
          destruct (cexec c (dat s)) as [r d1]; simpl in *. subst r. injection Es as <- <-.
          apply (Hgo g None); simpl; auto.
          * rewrite C2. exact Hk.
          * intros j L m' _ _ [HL _] Htj. auto.
          * intros L HL Hno _. eapply J_eq; [apply Hu1', HL|]. apply Hinv; auto.
        + simpl in Es. destruct (lock_acq (reent l) i l m (lks s)) as [r k1] eqn:Ea.
          assert (Hma : may_acq (held i) l m) by (eapply wlk_acq_inv; exact Hw).
          assert (Hr : r = Good tt).
          { apply (acq_inv held (lks s) i l m r k1 Hli (proj1 Hma) Ea). intros ->. discriminate. }
          subst r. injection Es as <- <-. apply (Hgo g None); simpl; auto.
          * rewrite <- Eo. exact Hk.
          * intros j L m' Hj Ej HL Htj. split; [reflexivity|]. split; [|auto]. eapply (tab_acq plain_main plain_main_plain); eauto.
        + simpl in Es. destruct (lock_rel i l (lks s)) as [r k1] eqn:Er.
          destruct (wlk_rel_inv _ _ _ _ _ Hw) as [hs Hhs].
          assert (r = Good tt) by (apply (rel_inv held (lks s) i l hs r k1 Hli Hhs Er)). subst r. injection Es as <- <-.
          apply (Hgo g None); simpl; auto.
          * rewrite <- Eo. exact Hk.
          * intros j L m' Hj Ej HL Htj. split; [reflexivity|]. split; [|auto]. eapply tab_rel; eauto.
        + simpl in Es. destruct (lock_acq (reent L) i L m (lks s)) as [r k1] eqn:Ea.
          assert (Hma : may_acq (held i) L m) by (eapply wlk_acq_inv; exact Hw).
          assert (Hr : r = Good tt).
          { apply (acq_inv held (lks s) i L m r k1 Hli (proj1 Hma) Ea). intros ->. discriminate. }
          subst r. injection Es as <- <-.
          destruct (acq_tab plain_main plain_main_plain L i m (lks s) k1 tt (conj HL Hpl) Ea) as [T1 T2].
          assert (Hfree : forall j, j <> i -> ph j <> Some (L, Ex)).
          { intros j Hj Ej. destruct (lookup_lt_is_Some_2 ps j) as [pj Hpj].
            { destruct (le_lt_dec (length ps) j) as [Hle|]; [|assumption]. rewrite (Bo j Hle) in Ej. discriminate. }
            pose proof (Bt j pj Hpj) as T. rewrite Ej in T. destruct T as (_ & T & _). destruct (T2 j Ex T). discriminate. }
          pose proof (Hinv L HL Hfree) as HJ. destruct (Hq g (dat s) HJ) as (Q1 & Q2 & Q3). pose proof (Hb g (dat s) HJ) as Q4.
          set (g1 := g ++ map (pair i) (es g (dat s))) in *.
          apply (Hgo g1 (Some (L, m))); simpl.
          * split; [exact (conj HL Hpl)|]. split; [exact T1|]. split; [exact Hs|]. exists (q g (dat s)), (d' g (dat s)). split; [exact Q1|].
            split; [|auto]. rewrite <- Eo. eapply blk_more; [exact Q4|]. intros es' o' r. unfold rest, g1.
            rewrite tagged_app, tagged_own, <- app_assoc. auto.
          * intros j Hj. split; [reflexivity|]. unfold g1. rewrite tagged_app, tagged_other, app_nil_r by auto. reflexivity.
          * intros j L' m' Hj Ej HL' Htj. split; [reflexivity|]. split; [eapply (tab_acq plain_main plain_main_plain); eauto|]. intros -> d1 HJ1.
            apply Q3; [|exact (proj1 HL')|exact HJ1]. intros ->. exact (Hfree j Hj Ej).
          * intros L' HL' Hno Hne. destruct (decide (L' = L)) as [->|HL2].
            -- destruct m; [congruence|]. eapply J_eq; [|exact Q2]. symmetry. eapply upto_sh; eauto.
            -- apply Q3; auto.
          * apply List.Forall_app. split; [exact Be|]. apply List.Forall_map, List.Forall_forall. intros e _. exact Hi.
          * apply Hmore.
        + simpl in Es.
          assert (Hfree : forall j, j <> i -> ph j <> Some (L, Ex)).
          { intros j Hj Ej. destruct (lookup_lt_is_Some_2 ps j) as [pj Hpj].
            { destruct (le_lt_dec (length ps) j) as [Hle|]; [|assumption]. rewrite (Bo j Hle) in Ej. discriminate. }
            pose proof (Bt j pj Hpj) as T. rewrite Ej in T. destruct T as ((_ & T) & _). congruence. }
          pose proof (Hinv L HL Hfree) as HJ. destruct (Hq g (dat s) HJ) as (Q2 & Q3).
          pose proof (fun x => Hk g (dat s) x HJ) as Q4. pose proof (fun x => Hh g (dat s) x HJ) as Q5.
          destruct Hrg as (R1 & R2 & R3 & _). pose proof (fun j => R3 j (dat s)) as R3'.
          assert (R2' : forall l, l <> L -> main l -> eqS l (dat s) (snd (cexec c (dat s)))) by auto.
          set (g1 := g ++ map (pair i) (es g (dat s))) in *.
          destruct (cexec c (dat s)) as [[x|e|] d1]; cbn [fst snd] in *; [| |discriminate]; injection Es as <- <-;
            (apply (Hgo g1 None); simpl;
             [ rewrite R3', <- Eo; eapply blk_more; [first [apply Q4|apply Q5]; reflexivity|]; intros es' o' r; unfold rest, g1;
               rewrite tagged_app, tagged_own, <- app_assoc; auto
             | intros j Hj; split; [apply R3'|]; unfold g1; rewrite tagged_app, tagged_other, app_nil_r by auto; reflexivity
             | intros j L' m' Hj Ej [HL' Hp'] Htj; assert (HL2 : L' <> L) by (intros ->; congruence);
               split; [apply R2'; auto|]; split; [exact Htj|]; intros _ d2; apply Q3; auto
             | intros L' HL' Hno _; destruct (decide (L' = L)) as [->|HL2]; [exact Q2|];
               apply Q3; auto; eapply J_eq; [apply R2'; auto|]; apply Hinv; auto
             | apply List.Forall_app; split; [exact Be|]; apply List.Forall_map, List.Forall_forall; intros ? _; exact Hi
             | apply Hmore ]).
    Qed.

    Lemma bsim_sched sch : forall held ps s g ph ps' s', pool_inv held ps s -> bsim ps s g ph ->
      sched_run sch (ps, s) = Some (ps', s') -> exists g' ph' held', grows g g' /\ bsim ps' s' g' ph' /\ pool_inv held' ps' s'.
    Proof.
      induction sch as [|i sch IH]; intros held ps s g ph ps' s' Hp Hs H; simpl in H.
      - injection H as <- <-. exists g, ph, held. split; [exists []; symmetry; apply app_nil_r|auto].
      - destruct (cstep i (ps, s)) as [[ps1 s1]|] eqn:E; [|discriminate].
        destruct (bsim_step held ps s g ph i ps1 s1 Hp Hs E) as (g1 & ph1 & (e1 & ->) & Hs1).
        destruct (pool_step nb held i ps s ps1 s1 Hp E) as [held1 Hp1].
        destruct (IH _ _ _ _ _ _ _ Hp1 Hs1 H) as (g2 & ph2 & held2 & (e2 & ->) & B2).
        exists ((g ++ e1) ++ e2), ph2, held2. split; [exists (e1 ++ e2); symmetry; apply app_assoc|exact B2].
    Qed.

    Lemma bsim_ended i p ps s g ph : bsim ps s g ph -> ps !! i = Some p -> finished p = true ->
      exists r, p = match r with Good a => Ret a | Fail e => Raise e | Block => p end /\ r <> Block /\
                Rf i (tagged i g) (own i (dat s)) r.
    Proof.
      intros [Bt _ _ _] Hp Hfin. pose proof (Bt i p Hp) as T. destruct (ph i) as [[L m]|]; simpl in T.
      { destruct T as (_ & _ & Hs & _). destruct Hs; discriminate. }
      remember (own i (dat s)) as o eqn:Eo. remember (rest i g) as R eqn:ER.
      destruct T as [o R a Hr'|o R e Hr'| | | | | |]; try discriminate; subst; unfold rest in Hr'; rewrite app_nil_r in Hr'.
      - exists (Good a). split; [reflexivity|]. split; [discriminate|exact Hr'].
      - exists (Fail e). split; [reflexivity|]. split; [discriminate|exact Hr'].
    Qed.
    Lemma bsim_done ps s g ph : bsim ps s g ph -> Forall (fun p => finished p = true) ps -> forall L, main L -> J L g (dat s).
    Proof.
      intros [Bt Bo Bi _] Hfin L HL. apply Bi; [exact HL|]. intros i E.
      destruct (le_lt_dec (length ps) i) as [Hle|Hlt]; [rewrite (Bo i Hle) in E; discriminate|].
      destruct (lookup_lt_is_Some_2 ps i Hlt) as [p Hp]. pose proof (Bt i p Hp) as T. rewrite E in T.
      destruct T as (_ & _ & Hs & _). rewrite Forall_lookup in Hfin. specialize (Hfin i p Hp). destruct Hs; discriminate.
    Qed.

    Theorem blocks sch ps d ps' s' :
      Forall (wlk [] []) ps -> (forall i p, ps !! i = Some p -> blk i (own i d) (Rf i) p) ->
      (forall L, main L -> J L [] d) ->
      sched_run sch (ps, mkst d ∅) = Some (ps', s') -> Forall (fun p => finished p = true) ps' ->
      exists g, Forall (fun e => fst e < length ps') g /\
        (forall i p, ps' !! i = Some p ->
           exists r, p = match r with Good a => Ret a | Fail e => Raise e | Block => p end /\ r <> Block /\
                     Rf i (tagged i g) (own i (dat s')) r) /\
        (forall L, main L -> J L g (dat s')).
    Proof.
      intros Hw Hb HJ Hr Hfin.
      destruct (bsim_sched sch (fun _ => []) ps (mkst d ∅) [] (fun _ => None) ps' s' (pool_init ps d Hw)) as (g & ph & held & _ & B & _); auto.
      { split; auto. }
      exists g. split; [apply (bs_evs _ _ _ _ B)|]. split.
      - intros i p Hp. apply (bsim_ended i p ps' s' g ph B Hp). rewrite Forall_lookup in Hfin. eauto.
      - apply (bsim_done ps' s' g ph B Hfin).
    Qed.

    (** At any time: an account [g] of what happened so far, which continues with [g2] until
        all processes are finished. *)
    Theorem blocks_any sch ps d ps' s' :
      Forall (wlk [] []) ps -> (forall i p, ps !! i = Some p -> blk i (own i d) (Rf i) p) ->
      (forall L, main L -> J L [] d) ->
      sched_run sch (ps, mkst d ∅) = Some (ps', s') ->
      exists g g2 d2, Forall (fun e => fst e < length ps') (g ++ g2) /\
        (forall i p, ps' !! i = Some p -> finished p = true ->
           exists r, p = match r with Good a => Ret a | Fail e => Raise e | Block => p end /\ r <> Block /\
                     Rf i (tagged i g) (own i (dat s')) r) /\
        (forall L, main L -> (forall t p, ps' !! t = Some p -> finished p = false -> ~ tab Ex t (lks s' !! L)) -> J L g (dat s')) /\
        (forall i, i < length ps' -> exists o r, r <> Block /\ Rf i (tagged i (g ++ g2)) o r) /\
        (forall L, main L -> J L (g ++ g2) d2).
    Proof.
      intros Hw Hb HJ Hr.
      destruct (bsim_sched sch (fun _ => []) ps (mkst d ∅) [] (fun _ => None) ps' s' (pool_init ps d Hw)) as (g & ph & held & _ & B & Hp); auto.
      { split; auto. }
      destruct (run_to_end (ps', s')) as (sch2 & [ps2 s2] & H1 & H2).
      destruct (bsim_sched sch2 held ps' s' g ph ps2 s2 Hp B H1) as (g' & ph2 & held2 & (g2 & ->) & B2 & Hp2).
      assert (Hfin : Forall (fun p => finished p = true) ps2).
      { assert (Hr2 : sched_run (sch ++ sch2) (ps, mkst d ∅) = Some (ps2, s2)) by (eapply sched_run_app; eauto).
        destruct (lock_progress nb ps d (sch ++ sch2) ps2 s2 Hw Hr2) as [[H _]|(i & c & H)]; [exact H|]. rewrite H2 in H. discriminate. }
      assert (Hlen : length ps2 = length ps') by exact (sched_length sch2 _ _ H1).
      exists g, g2, (dat s2). split; [rewrite <- Hlen; apply (bs_evs _ _ _ _ B2)|]. split; [|split; [|split]].
      - intros i p Hpi. apply (bsim_ended i p ps' s' g ph B Hpi).
      - intros L HL Hno. apply (bs_inv _ _ _ _ B); [exact HL|]. intros i E.
        destruct (le_lt_dec (length ps') i) as [Hle|Hlt]; [rewrite (bs_out _ _ _ _ B i Hle) in E; discriminate|].
        destruct (lookup_lt_is_Some_2 ps' i Hlt) as [p Hpi]. pose proof (bs_thr _ _ _ _ B i p Hpi) as T. rewrite E in T.
        destruct T as (_ & T & Hs & _). apply (Hno i p Hpi); [destruct Hs; reflexivity|exact T].
      - intros i Hi. rewrite <- Hlen in Hi. destruct (lookup_lt_is_Some_2 ps2 i Hi) as [p Hpi].
        destruct (bsim_ended i p ps2 s2 (g ++ g2) ph2 B2 Hpi) as (r & _ & Hrb & H); [rewrite Forall_lookup in Hfin; eauto|]. eauto.
      - apply (bsim_done ps2 s2 (g ++ g2) ph2 B2 Hfin).
    Qed.
  End Pool.

  (** ** A process that makes calls *)
  Section Calls.
    Context {K R : Type}.
    Variable call : K -> prog C R.
    (** [acts c o es o' r]: the call [c] makes the events [es], gives [r] and changes what the
        process owns from [o] to [o']. *)
    Variable acts : K -> O -> list Ev -> O -> outcome R -> Prop.
    Inductive chain : list K -> O -> list Ev -> O -> list (outcome R) -> Prop :=
    | chain_nil o : chain [] o [] o []
    | chain_cons c cs o es o1 r es' o2 rs : acts c o es o1 r -> chain cs o1 es' o2 rs -> chain (c :: cs) o (es ++ es') o2 (r :: rs).
    Lemma blk_calls i cs : forall o rs0, Forall (fun c => forall o, blk i o (fun es o' r => acts c o es o' r) (call c)) cs ->
      blk i o (fun es o' r => exists rs, r = Good (rev rs0 ++ rs) /\ chain cs o es o' rs) (thread_from rs0 (map call cs)).
    Proof.
      induction cs as [|c cs IH]; intros o rs0 H; simpl.
      - apply blk_ret. exists []. rewrite app_nil_r. split; [reflexivity|constructor].
      - eapply blk_bind.
        + eapply (blk_attempt i o _ _ (List.Forall_inv H o) (fun es o' r => exists r', r = Good r' /\ acts c o es o' r')).
          intros es o' r Ha. eauto.
        + intros es o1 a (r' & E & Ha). injection E as ->. eapply blk_more; [apply (IH o1 (r' :: rs0) (List.Forall_inv_tail H))|].
          intros es' o2 r (rs & -> & Hc). exists (r' :: rs). split; [cbn [rev]; rewrite <- app_assoc; reflexivity|].
          econstructor; eauto.
        + intros es o' e (r' & E & _). discriminate.
    Qed.
  End Calls.
End Blocks.
