(** * Atomic: running a program as if locks were not there

    [srun]: the sequential effect of a program on the data alone, all lock commands being
    no-ops.  For programs that bracket their locks properly it is what [run] does when the
    locks are free. *)
From stdpp Require Import gmap.
From Coq Require Import List Bool Arith Lia.
From Verif Require Import Prog ProgFacts.
Import ListNotations.

Section Atomic.
  Context {C : Type -> Type} {D : Type} `{!Sem C D}.

  Definition sexec {X} (c : cmd C X) : D -> outcome X * D :=
    match c in cmd _ X return D -> outcome X * D with
    | Acq _ _ => fun d => (Good tt, d)
    | Rel _ => fun d => (Good tt, d)
    | Op c => cexec c
    end.

  Fixpoint srun {A} (p : prog C A) (d : D) : outcome A * D :=
    match p with
    | Ret a => (Good a, d)
    | Raise e => (Fail e, d)
    | Act c k h =>
        match sexec c d with
        | (Good x, d') => srun (k x) d'
        | (Fail e, d') => srun (h e) d'
        | (Block, d') => (Block, d')
        end
    end.

  Lemma srun_bind {A B} (p : prog C A) (f : A -> prog C B) d :
    srun (bind p f) d =
    match srun p d with
    | (Good a, d') => srun (f a) d'
    | (Fail e, d') => (Fail e, d')
    | (Block, d') => (Block, d')
    end.
  Proof.
    revert d. induction p as [a|e|X c k IHk h IHh]; intros d; simpl; try reflexivity.
    destruct (sexec c d) as [[x|e|] d']; auto.
  Qed.

  Lemma srun_op {X} (c : C X) d : srun (op c) d = cexec c d.
  Proof. simpl. destruct (cexec c d) as [[x|e|] d']; reflexivity. Qed.

  Lemma srun_try {A} (p : prog C A) l d : srun (try_finally p (release l)) d = srun p d.
  Proof.
    revert d. induction p as [a|e|X c k IHk h IHh]; intros d; simpl; try reflexivity.
    destruct (sexec c d) as [[x|e|] d']; auto.
  Qed.

  Lemma srun_with {A} l m (p : prog C A) d : srun (with_lock l m p) d = srun p d.
  Proof. unfold with_lock. simpl. apply srun_try. Qed.

  Lemma srun_attempt {A} (p : prog C A) d :
    srun (attempt p) d =
    match srun p d with
    | (Good a, d') => (Good (Good a), d')
    | (Fail e, d') => (Good (Fail e), d')
    | (Block, d') => (Block, d')
    end.
  Proof.
    revert d. induction p as [a|e|X c k IHk h IHh]; intros d; simpl; try reflexivity.
    destruct (sexec c d) as [[x|e|] d']; auto.
  Qed.

  Lemma srun_nolock {A} (p : prog C A) d : nolock p -> srun p d = drun p d.
  Proof.
    intros H. revert d. induction H as [a|e|X c k h Hk IHk Hh IHh]; intros d; simpl; auto.
    destruct (cexec c d) as [[x|e|] d']; auto.
  Qed.

  (** [bal ls p]: if the locks [ls] are free, [p] leaves the lock table as it was and has
      the effect [srun]. *)
  Definition bal {A} (ls : list nat) (p : prog C A) : Prop :=
    forall t d k, (forall l, In l ls -> k !! l = None) -> fst (srun p d) <> Block ->
    run t p (mkst d k) = (fst (srun p d), mkst (snd (srun p d)) k).

  Lemma bal_ret {A} ls (a : A) : bal ls (Ret a).
  Proof. intros t d k _ _. reflexivity. Qed.
  Lemma bal_raise {A} ls e : bal ls (Raise e : prog C A).
  Proof. intros t d k _ _. reflexivity. Qed.
  Lemma bal_op {X} ls (c : C X) : bal ls (op c).
  Proof. intros t d k _ _. rewrite run_op, srun_op. reflexivity. Qed.
  Lemma bal_bind {A B} ls (p : prog C A) (f : A -> prog C B) :
    bal ls p -> (forall a, bal ls (f a)) -> bal ls (bind p f).
  Proof.
    intros Hp Hf t d k Hk Hb. rewrite run_bind. rewrite srun_bind in *.
    assert (Hnb : fst (srun p d) <> Block) by (destruct (srun p d) as [[]]; simpl in *; congruence).
    rewrite (Hp t d k Hk Hnb). destruct (srun p d) as [[a|e|] d']; simpl; auto.
    apply Hf; assumption.
  Qed.
  Lemma bal_with {A} l m ls (p : prog C A) : bal ls p -> ~ In l ls -> bal (l :: ls) (with_lock l m p).
  Proof.
    intros Hp Hl t d k Hk Hb. rewrite srun_with in *. unfold with_lock. cbn [run exec lks dat].
    unfold lock_acq. rewrite (Hk l (or_introl eq_refl)).
    assert (Hgen : forall x, (x = Excl t 1 \/ x = Shared [t]) ->
      run t (try_finally p (release l)) (mkst d (<[l:=x]> k)) = (fst (srun p d), mkst (snd (srun p d)) k)).
    { intros x Hx. rewrite run_try_finally, Hp; [|intros l' Hl'|exact Hb].
      2: { rewrite lookup_insert_ne; [apply Hk; right; exact Hl'|]. intros <-. contradiction. }
      destruct (srun p d) as [[a|e|] d']; simpl in *; try congruence;
        unfold lock_rel; simpl; rewrite lookup_insert; destruct Hx as [-> | ->]; simpl;
          rewrite ?Nat.eqb_refl, delete_insert by (apply Hk; left; reflexivity); reflexivity. }
    destruct m; apply Hgen; auto.
  Qed.
  Lemma bal_weaken {A} ls ls' (p : prog C A) : incl ls ls' -> bal ls p -> bal ls' p.
  Proof. intros Hi Hp t d k Hk. apply Hp. intros l Hl. apply Hk, Hi, Hl. Qed.

  (** When no primitive command blocks, [srun] never blocks. *)
  Lemma srun_nb {A} : (forall X (c : C X) (d : D), fst (cexec c d) <> Block) ->
    forall (p : prog C A) d, fst (srun p d) <> Block.
  Proof.
    intros nb p. induction p as [a|e|X c k IHk h IHh]; intros d; simpl; try discriminate.
    destruct c as [l m|l|X c]; simpl; auto.
    specialize (nb _ c d). destruct (cexec c d) as [[x|e|] d']; simpl in *; auto.
  Qed.
End Atomic.
