(** * Held: execution of one thread with the locks it holds

    [hrun p d hs] executes [p] for a thread that holds the locks [hs] (innermost first),
    on the data alone, and checks the lock discipline on the way: a lock is acquired only
    if it is smaller than all held ones or re-entrant and held, and released only if it is
    the innermost one ([None] otherwise).  It gives the same result as the sequential
    semantics [run], and unlike [wlk] the check may depend on the data. *)
From stdpp Require Import gmap.
From Coq Require Import List Bool Arith Lia.
From Verif Require Import Prog ProgFacts Locks.
Import ListNotations.

Definition allowedb (hs : list nat) (l : nat) (m : lmode) : bool :=
  match m with
  | Ex => forallb (fun x => l <? x) hs || (reent l && existsb (Nat.eqb l) hs)
  | Sh => negb (reent l) && forallb (fun x => l <? x) hs
  end.

Lemma allowedb_may hs l m : allowedb hs l m = true -> may_acq hs l m.
Proof.
  unfold allowedb, may_acq. destruct m; intros H.
  - split; [discriminate|]. apply orb_prop in H. destruct H as [H|H].
    + left. rewrite forallb_forall in H. apply List.Forall_forall. intros x Hx. apply Nat.ltb_lt, H, Hx.
    + right. apply andb_prop in H. destruct H as [H1 H2]. split; [reflexivity|]. split; [exact H1|].
      rewrite existsb_exists in H2. destruct H2 as (x & Hx & E). apply Nat.eqb_eq in E. subst. exact Hx.
  - apply andb_prop in H. destruct H as [H1 H2]. split; [intros _; destruct (reent l); [discriminate|reflexivity]|].
    left. rewrite forallb_forall in H2. apply List.Forall_forall. intros x Hx. apply Nat.ltb_lt, H2, Hx.
Qed.

Section Held.
  Context {C : Type -> Type} {D : Type} `{!Sem C D}.

  Fixpoint hrun {A} (p : prog C A) (d : D) (hs : list nat) : option (outcome A * D * list nat) :=
    match p with
    | Ret a => Some (Good a, d, hs)
    | Raise e => Some (Fail e, d, hs)
    | Act c k h =>
        match c in cmd _ X return (X -> prog C A) -> (X -> D -> list nat -> option (outcome A * D * list nat)) ->
                                  option (outcome A * D * list nat) with
        | Acq l m => fun _ go => if allowedb hs l m then go tt d (l :: hs) else None
        | Rel l => fun _ go => match hs with
                               | l' :: hs' => if (l' =? l)%nat then go tt d hs' else None
                               | [] => None
                               end
        | Op c => fun _ go => match cexec c d with
                              | (Good x, d') => go x d' hs
                              | (Fail e, d') => hrun (h e) d' hs
                              | (Block, d') => Some (Block, d', hs)
                              end
        end k (fun x d' hs' => hrun (k x) d' hs')
    end.

  Lemma hrun_bind {A B} (p : prog C A) (f : A -> prog C B) : forall d hs,
    hrun (bind p f) d hs =
    match hrun p d hs with
    | Some (Good a, d', hs') => hrun (f a) d' hs'
    | Some (Fail e, d', hs') => Some (Fail e, d', hs')
    | Some (Block, d', hs') => Some (Block, d', hs')
    | None => None
    end.
  Proof.
    induction p as [a|e|X c k IHk h IHh]; intros d hs; simpl; try reflexivity.
    destruct c as [l m|l|X c].
    - destruct (allowedb hs l m); auto.
    - destruct hs as [|l' hs']; [reflexivity|]. destruct (l' =? l); auto.
    - destruct (cexec c d) as [[x|e|] d']; auto.
  Qed.

  Lemma hrun_op {X} (c : C X) d hs :
    hrun (op c) d hs = Some (fst (cexec c d), snd (cexec c d), hs).
  Proof. simpl. destruct (cexec c d) as [[x|e|] d']; reflexivity. Qed.

  Lemma hrun_nolock {A} (p : prog C A) hs : nolock p -> forall d,
    hrun p d hs = Some (fst (drun p d), snd (drun p d), hs).
  Proof.
    induction 1 as [a|e|X c k h Hk IHk Hh IHh]; intros d; simpl; auto.
    destruct (cexec c d) as [[x|e|] d']; simpl; auto.
  Qed.

  Lemma hrun_try_release {A} (p : prog C A) l : forall d hs r d' hs',
    hrun p d hs = Some (r, d', l :: hs') ->
    r <> Block ->
    hrun (try_finally p (release l)) d hs = Some (r, d', hs').
  Proof.
    induction p as [a|e|X c k IHk h IHh]; intros d hs r d' hs' Hp Hb; simpl in *.
    - injection Hp as <- <- ->. rewrite Nat.eqb_refl. reflexivity.
    - injection Hp as <- <- ->. rewrite Nat.eqb_refl. reflexivity.
    - destruct c as [l0 m|l0|X c].
      + destruct (allowedb hs l0 m); [|discriminate]. apply IHk; auto.
      + destruct hs as [|l' hs0]; [discriminate|]. destruct (l' =? l0); [|discriminate]. apply IHk; auto.
      + destruct (cexec c d) as [[x|e|] d1]; [apply IHk; auto|apply IHh; auto|].
        injection Hp as <- <- ->. congruence.
  Qed.

  Lemma hrun_with {A} l m (body : prog C A) d hs r d' :
    allowedb hs l m = true -> hrun body d (l :: hs) = Some (r, d', l :: hs) -> r <> Block ->
    hrun (with_lock l m body) d hs = Some (r, d', hs).
  Proof.
    intros Ha Hb Hr. unfold with_lock. simpl. rewrite Ha. apply hrun_try_release; assumption.
  Qed.

  Lemma hrun_try_block {A} (p : prog C A) fin : forall d hs d' hs',
    hrun p d hs = Some (Block, d', hs') -> hrun (try_finally p fin) d hs = Some (Block, d', hs').
  Proof.
    induction p as [a|e|X c k IHk h IHh]; intros d hs d' hs' Hp; simpl in *; try discriminate.
    destruct c as [l0 m|l0|X c].
    - destruct (allowedb hs l0 m); [|discriminate]. apply IHk; auto.
    - destruct hs as [|l' hs0]; [discriminate|]. destruct (l' =? l0)%nat; [|discriminate]. apply IHk; auto.
    - destruct (cexec c d) as [[x|e|] d1]; [apply IHk; auto|apply IHh; auto|].
      injection Hp as <- <-. reflexivity.
  Qed.

  (** [hok p d hs r d']: started with the locks [hs], [p] ends with outcome [r] and data
      [d'], holding [hs] again unless it blocked. *)
  Definition hok {A} (p : prog C A) (d : D) (hs : list nat) (r : outcome A) (d' : D) : Prop :=
    exists hs', hrun p d hs = Some (r, d', hs') /\ (r <> Block -> hs' = hs).

  Lemma hok_ret {A} (a : A) d hs : hok (Ret a) d hs (Good a) d.
  Proof. exists hs. auto. Qed.
  Lemma hok_raise {A} e d hs : hok (Raise e : prog C A) d hs (Fail e) d.
  Proof. exists hs. auto. Qed.
  Lemma hok_op {X} (c : C X) d hs r d' : cexec c d = (r, d') -> hok (op c) d hs r d'.
  Proof. intros E. exists hs. rewrite hrun_op, E. auto. Qed.
  Lemma hok_bind {A B} (p : prog C A) (f : A -> prog C B) d hs a d1 r d2 :
    hok p d hs (Good a) d1 -> hok (f a) d1 hs r d2 -> hok (bind p f) d hs r d2.
  Proof.
    intros (h1 & E1 & H1) (h2 & E2 & H2). exists h2. rewrite hrun_bind, E1.
    rewrite H1 by discriminate. auto.
  Qed.
  Lemma hok_bind_fail {A B} (p : prog C A) (f : A -> prog C B) d hs e d1 :
    hok p d hs (Fail e) d1 -> hok (bind p f) d hs (Fail e) d1.
  Proof. intros (h1 & E1 & H1). exists h1. rewrite hrun_bind, E1. split; [reflexivity|]. intros _. apply H1. discriminate. Qed.
  Lemma hok_bind_block {A B} (p : prog C A) (f : A -> prog C B) d hs d1 :
    hok p d hs Block d1 -> hok (bind p f) d hs Block d1.
  Proof. intros (h1 & E1 & H1). exists h1. rewrite hrun_bind, E1. split; [reflexivity|]. congruence. Qed.
  Lemma hok_with {A} l m (body : prog C A) d hs r d' :
    allowedb hs l m = true -> hok body d (l :: hs) r d' -> hok (with_lock l m body) d hs r d'.
  Proof.
    intros Ha (h1 & E1 & H1). destruct r as [a|e|].
    - exists hs. split; [|auto]. apply hrun_with; [exact Ha| |discriminate]. rewrite H1 in E1 by discriminate. exact E1.
    - exists hs. split; [|auto]. apply hrun_with; [exact Ha| |discriminate]. rewrite H1 in E1 by discriminate. exact E1.
    - exists h1. split; [|congruence]. unfold with_lock. simpl. rewrite Ha. apply hrun_try_block, E1.
  Qed.
  Lemma hok_nolock {A} (p : prog C A) d hs r d' : nolock p -> drun p d = (r, d') -> hok p d hs r d'.
  Proof. intros H E. exists hs. rewrite hrun_nolock by exact H. rewrite E. auto. Qed.

  Lemma hok_fun {A} (p : prog C A) d hs r d' r2 d2 : hok p d hs r d' -> hok p d hs r2 d2 -> r = r2 /\ d' = d2.
  Proof. intros (h1 & E1 & _) (h2 & E2 & _). rewrite E1 in E2. injection E2 as <- <- <-. auto. Qed.

  Definition only (t : nat) (hs : list nat) : nat -> list nat := fun j => if (j =? t)%nat then hs else [].

  Lemma only_upd t hs hs' : forall j, upd (only t hs) t hs' j = only t hs' j.
  Proof. intros j. unfold upd, only. destruct (j =? t)%nat; reflexivity. Qed.

  Lemma lock_inv_ext h1 h2 (k : locks) : (forall j, h1 j = h2 j) -> lock_inv h1 k -> lock_inv h2 k.
  Proof.
    intros He H l. specialize (H l). destruct (k !! l) as [[o n|os]|].
    - rewrite <- He. destruct H as (H1 & H2 & H3). repeat split; auto. intros j Hj. rewrite <- He. auto.
    - destruct H as (H0 & H1 & H2). repeat split; auto. intros j. rewrite <- He. auto.
    - intros j. rewrite <- He. auto.
  Qed.

  (** The acquisition of an allowed lock succeeds when the other threads hold nothing. *)
  Lemma acq_free held (k : locks) t l m :
    lock_inv held k -> may_acq (held t) l m ->
    (forall j, j <> t -> count_occ Nat.eq_dec (held j) l = 0) ->
    exists k', lock_acq (reent l) t l m k = (Good tt, k').
  Proof.
    intros Hl [Hsh Hm] Ho. unfold lock_acq. pose proof (Hl l) as Hll.
    destruct Hm as [Hlt|(-> & Hre & Hin)].
    - assert (Hno : ~ In l (held t)) by (intros Hin; rewrite List.Forall_forall in Hlt; specialize (Hlt l Hin); lia).
      assert (Hz : forall j, count_occ Nat.eq_dec (held j) l = 0).
      { intros j. destruct (decide (j = t)) as [->|Hj]; [apply count_occ_not_In, Hno|auto]. }
      destruct (k !! l) as [[o n|os]|].
      + destruct Hll as (H1 & H2 & _). rewrite Hz in H2. lia.
      + destruct Hll as (_ & H1 & H2). destruct os as [|y os]; [congruence|].
        specialize (H2 y). rewrite Hz, cnt_cons_eq in H2. discriminate.
      + destruct m; eauto.
    - assert (Hpos : 1 <= count_occ Nat.eq_dec (held t) l) by (apply count_occ_In, Hin).
      destruct (k !! l) as [[o n|os]|].
      + destruct Hll as (H1 & H2 & H3). destruct (decide (t = o)) as [<-|Hne]; [|rewrite (H3 t Hne) in Hpos; lia].
        rewrite Nat.eqb_refl, Hre. simpl. eauto.
      + destruct Hll as (H0 & _). congruence.
      + eauto.
  Qed.

  Lemma hrun_run_gen {A} t (p : prog C A) : forall d hs r d' hs' k,
    hrun p d hs = Some (r, d', hs') -> lock_inv (only t hs) k ->
    exists k', run t p (mkst d k) = (r, mkst d' k') /\ lock_inv (only t hs') k'.
  Proof.
    induction p as [a|e|X c k0 IHk h IHh]; intros d hs r d' hs' k Hp Hl; simpl in *.
    - injection Hp as <- <- <-. eauto.
    - injection Hp as <- <- <-. eauto.
    - assert (Hot : only t hs t = hs) by (unfold only; rewrite Nat.eqb_refl; reflexivity).
      destruct c as [l m|l|X c]; simpl.
      + destruct (allowedb hs l m) eqn:Ea; [|discriminate]. apply allowedb_may in Ea.
        rewrite <- Hot in Ea.
        destruct (acq_free (only t hs) k t l m Hl Ea) as [k1 E1].
        { intros j Hj. unfold only. apply Nat.eqb_neq in Hj. rewrite Hj. reflexivity. }
        rewrite E1. destruct (acq_inv _ _ _ _ _ _ _ Hl (proj1 Ea) E1 ltac:(discriminate)) as [_ Hl1].
        rewrite Hot in Hl1. apply (IHk tt d (l :: hs)); [exact Hp|].
        eapply lock_inv_ext; [|exact Hl1]. apply only_upd.
      + destruct hs as [|l' hs0]; [discriminate|]. destruct (Nat.eqb_spec l' l) as [->|]; [|discriminate].
        destruct (lock_rel t l k) as [r1 k1] eqn:E1.
        destruct (rel_inv _ _ _ _ hs0 _ _ Hl Hot E1) as [-> Hl1].
        apply (IHk tt d hs0); [exact Hp|]. eapply lock_inv_ext; [|exact Hl1]. apply only_upd.
      + destruct (cexec c d) as [[x|e|] d1]; [eauto|eauto|]. injection Hp as <- <- <-. eauto.
  Qed.

  Theorem hrun_run {A} t (p : prog C A) d r d' :
    hrun p d [] = Some (r, d', []) ->
    run t p (mkst d stdpp.base.empty) = (r, mkst d' stdpp.base.empty).
  Proof.
    intros Hp. assert (Hl : lock_inv (only t []) (stdpp.base.empty : locks)).
    { intros l. rewrite lookup_empty. intros i. unfold only. destruct (i =? t)%nat; reflexivity. }
    destruct (hrun_run_gen t p _ _ _ _ _ _ Hp Hl) as (k' & -> & Hl').
    rewrite (held_none (only t []) k' Hl'); [reflexivity|].
    intros i. unfold only. destruct (i =? t)%nat; reflexivity.
  Qed.

  Lemma hok_run {A} t (p : prog C A) d r d' : hok p d [] r d' ->
    exists k', run t p (mkst d stdpp.base.empty) = (r, mkst d' k') /\ (r <> Block -> k' = stdpp.base.empty).
  Proof.
    intros (hs & E & Hh). assert (Hl : lock_inv (only t []) (stdpp.base.empty : locks)).
    { intros l. rewrite lookup_empty. intros i. unfold only. destruct (i =? t)%nat; reflexivity. }
    destruct (hrun_run_gen t p _ _ _ _ _ _ E Hl) as (k' & E' & Hl').
    exists k'. split; [exact E'|]. intros Hr. rewrite (Hh Hr) in Hl'.
    apply (held_none (only t []) k' Hl'). intros i. unfold only. destruct (i =? t)%nat; reflexivity.
  Qed.
End Held.

(** Lifting into a larger command language; the component may exist only in part of the
    larger data ([valid]). *)
Section HLift.
  Context {C C' : Type -> Type} {D D' : Type} `{!Sem C D} `{!Sem C' D'}.
  Context (e : forall X, C X -> C' X) (get : D' -> D) (put : D -> D' -> D') (valid : D' -> Prop).
  Hypothesis get_put : forall d d', valid d' -> get (put d d') = d.
  Hypothesis put_put : forall d1 d2 d', put d1 (put d2 d') = put d1 d'.
  Hypothesis put_get : forall d', valid d' -> put (get d') d' = d'.
  Hypothesis valid_put : forall d d', valid d' -> valid (put d d').
  Hypothesis exec_e : forall X (c : C X) d', valid d' ->
    cexec (e X c) d' = (fst (cexec c (get d')), put (snd (cexec c (get d'))) d').

  Lemma hrun_lift {A} (p : prog C A) : forall d' hs, valid d' ->
    hrun (lift e p) d' hs =
    match hrun p (get d') hs with
    | Some (r, d, hs') => Some (r, put d d', hs')
    | None => None
    end.
  Proof.
    induction p as [a|x|X c k IHk h IHh]; intros d' hs Hv; simpl.
    - rewrite put_get by exact Hv. reflexivity.
    - rewrite put_get by exact Hv. reflexivity.
    - destruct c as [l m|l|X c]; simpl.
      + destruct (allowedb hs l m); auto.
      + destruct hs as [|l' hs']; [reflexivity|]. destruct (l' =? l)%nat; auto.
      + rewrite exec_e by exact Hv. destruct (cexec c (get d')) as [[x|x|] d1]; simpl.
        * rewrite IHk, get_put by auto. destruct (hrun (k x) d1 hs) as [[[]]|]; [|reflexivity].
          rewrite put_put. reflexivity.
        * rewrite IHh, get_put by auto. destruct (hrun (h x) d1 hs) as [[[]]|]; [|reflexivity].
          rewrite put_put. reflexivity.
        * reflexivity.
  Qed.
End HLift.

(** ** Termination: a pool of programs cannot run forever. *)
Section Term.
  Context {C : Type -> Type} {D : Type} `{!Sem C D}.

  (** [c'] is reached from [c] by one command of some thread. *)
  Definition steps_to {A} (c' c : config (C:=C) (D:=D) A) : Prop := exists i, cstep i c = Some c'.

  Definition child {A} (q p : prog C A) : Prop :=
    match p with
    | Act c k h => (exists x, q = k x) \/ (exists e, q = h e)
    | _ => False
    end.

  Lemma child_wf {A} (p : prog C A) : Acc child p.
  Proof.
    induction p as [a|e|X c k IHk h IHh]; constructor; intros q Hq; simpl in Hq; [contradiction..|].
    destruct Hq as [[x ->]|[e ->]]; auto.
  Qed.

  Definition lchild {A} (qs ps : list (prog C A)) : Prop :=
    exists i p q, ps !! i = Some p /\ child q p /\ qs = <[i := q]> ps.

  Lemma lchild_wf {A} (ps : list (prog C A)) : Acc lchild ps.
  Proof.
    induction ps as [|p ps IH].
    - constructor. intros qs (i & p & q & H & _). destruct i; discriminate.
    - revert p ps IH.
      assert (H : forall p, Acc child p -> forall ps, Acc (lchild (A:=A)) ps -> Acc lchild (p :: ps)).
      { intros p Hp. induction Hp as [p _ IHp]. intros ps Hps. induction Hps as [ps Hps IHps].
        constructor. intros qs (i & p0 & q & Hi & Hc & ->). destruct i as [|i]; simpl in *.
        - injection Hi as <-. apply IHp; [exact Hc|]. constructor. exact Hps.
        - apply IHps. exists i, p0, q. auto. }
      intros p ps IH. apply H; [apply child_wf|exact IH].
  Qed.

  Lemma steps_child {A} i (c c' : config (C:=C) (D:=D) A) : cstep i c = Some c' -> lchild (fst c') (fst c).
  Proof.
    unfold cstep. destruct (fst c !! i) as [p|] eqn:Ep; [|discriminate].
    destruct (pstep i p (snd c)) as [[p' s']|] eqn:Es; [|discriminate]. intros [= <-]. simpl.
    exists i, p, p'. split; [exact Ep|]. split; [|reflexivity].
    destruct p as [a|e|X cc k h]; simpl in Es; try discriminate.
    destruct (exec i cc (snd c)) as [[x|e|] s1]; try discriminate; injection Es as <- <-; simpl; eauto.
  Qed.

  Theorem no_infinite_execution {A} : well_founded (steps_to (A:=A)).
  Proof.
    intros c. remember (fst c) as ps eqn:E. revert c E.
    induction (lchild_wf ps) as [ps _ IH]. intros c ->. constructor. intros c' [i Hi].
    apply (IH (fst c')); [|reflexivity]. eapply steps_child, Hi.
  Qed.

  (** Hence every execution can be continued until no thread can move. *)
  Lemma run_to_end {A} (c : config (C:=C) (D:=D) A) :
    exists sch c', sched_run sch c = Some c' /\ forall i, cstep i c' = None.
  Proof.
    induction (no_infinite_execution c) as [c _ IH].
    assert (Hd : (exists i c', cstep i c = Some c') \/ forall i, cstep i c = None).
    { assert (H : forall n, (exists i c', cstep i c = Some c') \/ forall i, i < n -> cstep i c = None).
      { induction n as [|n [Hn|Hn]]; [right; intros; lia|left; exact Hn|].
        destruct (cstep n c) as [c'|] eqn:E; [left; eauto|]. right. intros i Hi.
        destruct (Nat.eq_dec i n) as [->|]; [exact E|apply Hn; lia]. }
      destruct (H (length (fst c))) as [Hl|Hr]; [left; exact Hl|right]. intros i.
      destruct (le_lt_dec (length (fst c)) i) as [Hle|Hlt]; [|auto].
      unfold cstep. rewrite (proj2 (lookup_ge_None (fst c) i) Hle). reflexivity. }
    destruct Hd as [(i & c' & Hi)|Hn].
    - destruct (IH c' (ex_intro _ i Hi)) as (sch & c2 & H1 & H2).
      exists (i :: sch), c2. split; [simpl; rewrite Hi; exact H1|exact H2].
    - exists [], c. split; [reflexivity|exact Hn].
  Qed.
End Term.

Lemma no_infinite {C D A} `{!Sem C D} (f : nat -> config (C:=C) (D:=D) A) :
  ~ forall n, exists j, cstep j (f n) = Some (f (S n)).
Proof.
  intros H. assert (G : forall c, forall n, f n <> c).
  { intros c. induction (no_infinite_execution c) as [c _ IH]. intros n E. subst c. destruct (H n) as [j Hj].
    apply (IH (f (S n))) with (S n); [exists j; exact Hj|reflexivity]. }
  apply (G (f 0) 0). reflexivity.
Qed.
