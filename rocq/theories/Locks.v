(** * Locks: programs that use locks in a disciplined way cannot deadlock

    [wlk b hs p]: started while holding the locks [hs] (innermost first), the program [p]
    acquires a lock only if it is smaller than all the locks it holds (or is re-entrant and
    already held), releases the innermost one, and on every normal or exceptional exit
    holds exactly [b].  Any number of such threads, interleaved in any way, always has a
    thread that can move, and no lock is held when all are finished. *)
From stdpp Require Import gmap.
From Coq Require Import List Bool Arith Lia.
From Verif Require Import Prog ProgFacts.
Import ListNotations.

Section Locks.
  Context {C : Type -> Type} {D : Type} `{!Sem C D}.

  Definition may_acq (hs : list nat) (l : nat) (m : lmode) : Prop :=
    (m = Sh -> reent l = false) /\
    (Forall (fun x => l < x) hs \/ (m = Ex /\ reent l = true /\ In l hs)).

  Inductive wlk {A} (b : list nat) : list nat -> prog C A -> Prop :=
  | wlk_ret a : wlk b b (Ret a)
  | wlk_raise e : wlk b b (Raise e)
  | wlk_op hs X (c : C X) k h :
      (forall x, wlk b hs (k x)) -> (forall e, wlk b hs (h e)) -> wlk b hs (Act (Op c) k h)
  | wlk_acq hs l m k h :
      may_acq hs l m -> wlk b (l :: hs) (k tt) -> wlk b hs (Act (Acq l m) k h)
  | wlk_rel hs l k h : wlk b hs (k tt) -> wlk b (l :: hs) (Act (Rel l) k h).

  Lemma wlk_bind {A B} b hs (p : prog C A) (f : A -> prog C B) :
    wlk b hs p -> (forall a, wlk b b (f a)) -> wlk b hs (bind p f).
  Proof. intros H Hf. induction H; simpl; auto; constructor; auto. Qed.

  Lemma wlk_nolock {A} b (p : prog C A) : nolock p -> wlk b b p.
  Proof. induction 1; constructor; auto. Qed.

  Lemma wlk_try {A} l b hs (p : prog C A) :
    wlk (l :: b) hs p -> wlk b hs (try_finally p (release l)).
  Proof. intros H. induction H; simpl; [apply wlk_rel; constructor|apply wlk_rel; constructor|constructor; auto..]. Qed.

  Lemma wlk_with {A} l m b (body : prog C A) :
    may_acq b l m -> wlk (l :: b) (l :: b) body -> wlk b b (with_lock l m body).
  Proof. intros Hm H. constructor; [exact Hm|]. apply wlk_try, H. Qed.

  Lemma wlk_attempt {A} b hs (p : prog C A) : wlk b hs p -> wlk b hs (attempt p).
  Proof. induction 1; simpl; constructor; auto. Qed.

  Lemma wlk_thread {A} b (cs : list (prog C A)) : Forall (wlk b b) cs ->
    forall rs, wlk b b (thread_from rs cs).
  Proof.
    induction 1 as [|c cs Hc _ IH]; intros rs; simpl; [constructor|].
    apply wlk_bind; [apply wlk_attempt, Hc|auto].
  Qed.

  (** No primitive command blocks. *)
  Hypothesis nb : forall X (c : C X) (d : D), fst (cexec c d) <> Block.

  (** The lock table says exactly what the threads hold. *)
  Notation cnt := (count_occ Nat.eq_dec).
  Definition lock_inv (held : nat -> list nat) (k : locks) : Prop :=
    forall l, match k !! l with
              | None => forall i, cnt (held i) l = 0
              | Some (Excl o n) => 1 <= n /\ cnt (held o) l = n /\ (forall i, i <> o -> cnt (held i) l = 0)
              | Some (Shared os) => reent l = false /\ os <> [] /\ forall i, cnt (held i) l = cnt os i
              end.

  Definition upd (held : nat -> list nat) (i : nat) (hs : list nat) : nat -> list nat :=
    fun j => if (j =? i)%nat then hs else held j.
  Lemma upd_eq held i hs : upd held i hs i = hs.
  Proof. unfold upd. rewrite Nat.eqb_refl. reflexivity. Qed.
  Lemma upd_ne held i j hs : j <> i -> upd held i hs j = held j.
  Proof. intros H. unfold upd. apply Nat.eqb_neq in H. rewrite H. reflexivity. Qed.

  Lemma cnt_cons_eq l hs : cnt (l :: hs) l = S (cnt hs l).
  Proof. apply count_occ_cons_eq. reflexivity. Qed.
  Lemma cnt_cons_ne l l' hs : l' <> l -> cnt (l' :: hs) l = cnt hs l.
  Proof. intros H. apply count_occ_cons_neq, H. Qed.

  Lemma acq_inv held k i l m r k' :
    lock_inv held k -> (m = Sh -> reent l = false) -> lock_acq (reent l) i l m k = (r, k') -> r <> Block ->
    r = Good tt /\ lock_inv (upd held i (l :: held i)) k'.
  Proof.
    intros Hinv Hsh Ha Hb. unfold lock_acq in Ha. pose proof (Hinv l) as Hl.
    assert (Hother : forall ls, k' = <[l := ls]> k ->
      match ls with
      | Excl o n => 1 <= n /\ cnt (upd held i (l :: held i) o) l = n /\
                    (forall j, j <> o -> cnt (upd held i (l :: held i) j) l = 0)
      | Shared os => reent l = false /\ os <> [] /\ forall j, cnt (upd held i (l :: held i) j) l = cnt os j
      end -> lock_inv (upd held i (l :: held i)) k').
    { intros ls -> Hls l'. destruct (decide (l' = l)) as [->|Hne].
      - rewrite lookup_insert. exact Hls.
      - rewrite lookup_insert_ne by auto. specialize (Hinv l').
        assert (Hc : forall j, cnt (upd held i (l :: held i) j) l' = cnt (held j) l').
        { intros j. destruct (decide (j = i)) as [->|Hj]; [rewrite upd_eq, cnt_cons_ne by auto|rewrite upd_ne by auto]; reflexivity. }
        destruct (k !! l') as [[o n|os]|].
        + rewrite Hc. destruct Hinv as (H1 & H2 & H3). repeat split; auto. intros j Hj. rewrite Hc. auto.
        + destruct Hinv as (H0 & H1 & H2). repeat split; auto. intros j. rewrite Hc. auto.
        + intros j. rewrite Hc. auto. }
    destruct (k !! l) as [[o n|os]|] eqn:El; destruct m.
    - destruct (reent l) eqn:Er; simpl in Ha; [|injection Ha as <- <-; congruence].
      destruct (Nat.eqb_spec o i) as [->|]; [|injection Ha as <- <-; congruence].
      injection Ha as <- <-. split; [reflexivity|]. destruct Hl as (H1 & H2 & H3).
      eapply Hother; [reflexivity|]. simpl. rewrite upd_eq, cnt_cons_eq. repeat split; [lia|lia|].
      intros j Hj. rewrite upd_ne by auto. auto.
    - injection Ha as <- <-. congruence.
    - injection Ha as <- <-. congruence.
    - injection Ha as <- <-. split; [reflexivity|]. destruct Hl as (H0 & H1 & H2).
      eapply Hother; [reflexivity|]. simpl. repeat split; [exact H0|discriminate|]. intros j.
      destruct (decide (j = i)) as [->|Hj].
      + rewrite upd_eq, cnt_cons_eq, (H2 i). destruct (Nat.eq_dec i i); congruence.
      + rewrite upd_ne by auto. rewrite (H2 j). destruct (Nat.eq_dec i j); congruence.
    - injection Ha as <- <-. split; [reflexivity|]. eapply Hother; [reflexivity|]. simpl.
      rewrite upd_eq, cnt_cons_eq, (Hl i). repeat split; auto. intros j Hj. rewrite upd_ne by auto. auto.
    - injection Ha as <- <-. split; [reflexivity|]. eapply Hother; [reflexivity|]. simpl.
      repeat split; [auto|discriminate|]. intros j. destruct (decide (j = i)) as [->|Hj].
      + rewrite upd_eq, cnt_cons_eq, (Hl i). destruct (Nat.eq_dec i i); congruence.
      + rewrite upd_ne by auto. rewrite (Hl j). destruct (Nat.eq_dec i j); congruence.
  Qed.

  Lemma cnt_remove1 t os i :
    cnt (remove1 t os) i = if Nat.eq_dec t i then pred (cnt os i) else cnt os i.
  Proof.
    induction os as [|x os IH]; simpl.
    - destruct (Nat.eq_dec t i); reflexivity.
    - destruct (Nat.eqb_spec x t) as [->|Hx].
      + destruct (Nat.eq_dec t i); reflexivity.
      + simpl. destruct (Nat.eq_dec x i) as [->|]; [|exact IH].
        destruct (Nat.eq_dec t i) as [->|]; [congruence|]. rewrite IH. reflexivity.
  Qed.

  Lemma rel_inv held k i l hs r k' :
    lock_inv held k -> held i = l :: hs -> lock_rel i l k = (r, k') ->
    r = Good tt /\ lock_inv (upd held i hs) k'.
  Proof.
    intros Hinv Hh Hr. unfold lock_rel in Hr. pose proof (Hinv l) as Hl.
    assert (Hpos : cnt (held i) l = S (cnt hs l)) by (rewrite Hh; apply cnt_cons_eq).
    assert (Hc : forall j l', l' <> l -> cnt (upd held i hs j) l' = cnt (held j) l').
    { intros j l' Hne. destruct (decide (j = i)) as [->|Hj];
        [rewrite upd_eq, Hh, cnt_cons_ne by auto|rewrite upd_ne by auto]; reflexivity. }
    assert (Hother : forall k1, (forall l', l' <> l -> k1 !! l' = k !! l') ->
      match k1 !! l with
      | None => forall j, cnt (upd held i hs j) l = 0
      | Some (Excl o n) => 1 <= n /\ cnt (upd held i hs o) l = n /\
                    (forall j, j <> o -> cnt (upd held i hs j) l = 0)
      | Some (Shared os) => reent l = false /\ os <> [] /\ forall j, cnt (upd held i hs j) l = cnt os j
      end -> lock_inv (upd held i hs) k1).
    { intros k1 Hk1 Hls l'. destruct (decide (l' = l)) as [->|Hne]; [exact Hls|].
      rewrite Hk1 by auto. specialize (Hinv l').
      destruct (k !! l') as [[o n|os]|].
      - rewrite Hc by auto. destruct Hinv as (H1 & H2 & H3). repeat split; auto. intros j Hj. rewrite Hc by auto. auto.
      - destruct Hinv as (H0 & H1 & H2). repeat split; auto. intros j. rewrite Hc by auto. auto.
      - intros j. rewrite Hc by auto. auto. }
    destruct (k !! l) as [[o n|os]|] eqn:El.
    - destruct Hl as (H1 & H2 & H3). destruct (decide (i = o)) as [<-|Hio].
      2: { rewrite (H3 i Hio) in Hpos. discriminate. }
      destruct n as [|[|n]]; [lia| |]; injection Hr as <- <-; (split; [reflexivity|]); apply Hother.
      + intros l' Hne. apply lookup_delete_ne. auto.
      + rewrite lookup_delete. intros j. destruct (decide (j = i)) as [->|Hj]; [rewrite upd_eq; lia|].
        rewrite upd_ne by auto. auto.
      + intros l' Hne. apply lookup_insert_ne. auto.
      + rewrite lookup_insert, upd_eq. repeat split; [lia|lia|]. intros j Hj. rewrite upd_ne by auto. auto.
    - destruct Hl as (H0 & H1 & H2).
      assert (Hrem : forall j, cnt (upd held i hs j) l = cnt (remove1 i os) j).
      { intros j. rewrite cnt_remove1. destruct (Nat.eq_dec i j) as [<-|Hij].
        - rewrite upd_eq, <- H2. lia.
        - rewrite upd_ne by auto. apply H2. }
      destruct (remove1 i os) as [|x os'] eqn:Eo; injection Hr as <- <-; (split; [reflexivity|]); apply Hother.
      + intros l' Hne. apply lookup_delete_ne. auto.
      + rewrite lookup_delete. intros j. rewrite Hrem. reflexivity.
      + intros l' Hne. apply lookup_insert_ne. auto.
      + rewrite lookup_insert. repeat split; [exact H0|discriminate|exact Hrem].
    - rewrite (Hl i) in Hpos. discriminate.
  Qed.

  (** The invariant of a pool. *)
  Definition pool_inv {A} (held : nat -> list nat) (ps : list (prog C A)) (s : st D) : Prop :=
    lock_inv held (lks s) /\
    (forall i, length ps <= i -> held i = []) /\
    (forall i p, ps !! i = Some p -> wlk [] (held i) p).

  Lemma pool_step {A} held i (ps : list (prog C A)) s ps' s' :
    pool_inv held ps s -> cstep i (ps, s) = Some (ps', s') ->
    exists held', pool_inv held' ps' s'.
  Proof.
    intros (Hl & Hout & Hw) Hs. unfold cstep in Hs. simpl in Hs.
    destruct (ps !! i) as [p|] eqn:Ep; [|discriminate].
    destruct (pstep i p s) as [[p' s1]|] eqn:Es; [|discriminate]. injection Hs as <- <-.
    pose proof (lookup_lt_Some _ _ _ Ep) as Hlt.
    assert (Hgo : forall hs', lock_inv (upd held i hs') (lks s1) -> wlk [] hs' p' ->
                  pool_inv (upd held i hs') (<[i:=p']> ps) s1).
    { intros hs' H1 H2. split; [exact H1|]. rewrite insert_length. split.
      - intros j Hj. rewrite upd_ne by lia. auto.
      - intros j q Hq. destruct (decide (j = i)) as [->|Hne].
        + rewrite list_lookup_insert in Hq by exact Hlt. injection Hq as <-. rewrite upd_eq. exact H2.
        + rewrite list_lookup_insert_ne in Hq by auto. rewrite upd_ne by auto. auto. }
    pose proof (Hw i p Ep) as Hwi.
    assert (Hsame : forall k, lock_inv held k -> lock_inv (upd held i (held i)) k).
    { intros k Hk l. specialize (Hk l).
      assert (Hc : forall j, upd held i (held i) j = held j).
      { intros j. destruct (decide (j = i)) as [->|]; [apply upd_eq|apply upd_ne; auto]. }
      destruct (k !! l) as [[o n|os]|].
      - rewrite Hc. destruct Hk as (H1 & H2 & H3). repeat split; auto. intros j Hj. rewrite Hc. auto.
      - destruct Hk as (H0 & H1 & H2). repeat split; auto. intros j. rewrite Hc. auto.
      - intros j. rewrite Hc. auto. }
    remember (held i) as hs eqn:Ehs.
    destruct Hwi as [a|e|hs X c k h Hk Hh|hs l m k h Hm Hk|hs l k h Hk]; simpl in Es; try discriminate.
    - pose proof (nb X c (dat s)) as Hnb. destruct (cexec c (dat s)) as [[x|e|] d1]; simpl in *; try congruence;
        injection Es as <- <-; exists (upd held i hs); apply Hgo; simpl; auto.
    - destruct (lock_acq (reent l) i l m (lks s)) as [r k1] eqn:Ea.
      destruct r as [u|e|]; [| |discriminate].
      + injection Es as <- <-. rewrite Ehs in Hm.
        destruct (acq_inv held (lks s) i l m _ k1 Hl (proj1 Hm) Ea ltac:(discriminate)) as [_ H].
        exists (upd held i (l :: hs)). apply Hgo; simpl; [rewrite Ehs; exact H|]. destruct u. exact Hk.
      + rewrite Ehs in Hm.
        destruct (acq_inv held (lks s) i l m _ k1 Hl (proj1 Hm) Ea ltac:(discriminate)) as [H _]. discriminate.
    - destruct (lock_rel i l (lks s)) as [r k1] eqn:Ea.
      destruct (rel_inv held (lks s) i l hs r k1 Hl (eq_sym Ehs) Ea) as [-> H].
      injection Es as <- <-. exists (upd held i hs). apply Hgo; simpl; auto.
  Qed.

  Lemma pool_sched {A} sch : forall held (ps : list (prog C A)) s ps' s',
    pool_inv held ps s -> sched_run sch (ps, s) = Some (ps', s') ->
    exists held', pool_inv held' ps' s'.
  Proof.
    induction sch as [|i sch IH]; intros held ps s ps' s' Hi Hr; simpl in Hr.
    - injection Hr as <- <-. eauto.
    - destruct (cstep i (ps, s)) as [[ps1 s1]|] eqn:E; [|discriminate].
      destruct (pool_step held i ps s ps1 s1 Hi E) as [held1 Hi1]. eauto.
  Qed.

  Lemma pool_init {A} (ps : list (prog C A)) d :
    Forall (wlk [] []) ps -> pool_inv (fun _ => []) ps (mkst d stdpp.base.empty).
  Proof.
    intros H. split; [|split].
    - intros l. simpl. rewrite lookup_empty. reflexivity.
    - reflexivity.
    - intros i p Hp. rewrite Forall_lookup in H. eauto.
  Qed.

  Lemma min_key (k : locks) : k <> stdpp.base.empty ->
    exists l x, k !! l = Some x /\ forall l', is_Some (k !! l') -> l <= l'.
  Proof.
    induction k as [|l x k Hl IH] using map_ind; [congruence|]. intros _.
    destruct (decide (k = stdpp.base.empty)) as [->|Hk].
    - exists l, x. rewrite lookup_insert. split; [reflexivity|]. intros l' [y Hy].
      destruct (decide (l' = l)) as [->|Hne]; [lia|]. rewrite lookup_insert_ne, lookup_empty in Hy by auto. discriminate.
    - destruct (IH Hk) as (l1 & x1 & H1 & H2). destruct (le_lt_dec l1 l) as [Hle|Hlt].
      + exists l1, x1. split.
        * destruct (decide (l = l1)) as [->|]; [congruence|]. rewrite lookup_insert_ne by auto. exact H1.
        * intros l' [y Hy]. destruct (decide (l' = l)) as [->|Hne]; [lia|].
          rewrite lookup_insert_ne in Hy by auto. apply H2. eauto.
      + exists l, x. rewrite lookup_insert. split; [reflexivity|]. intros l' [y Hy].
        destruct (decide (l' = l)) as [->|Hne]; [lia|]. rewrite lookup_insert_ne in Hy by auto.
        specialize (H2 l' ltac:(eauto)). lia.
  Qed.

  Lemma cnt_pos_In hs l : 1 <= cnt hs l -> In l hs.
  Proof. intros H. apply (count_occ_In Nat.eq_dec). lia. Qed.

  (** A thread that holds the minimal held lock can move; if no lock is held, any
      unfinished thread can move. *)
  Lemma can_move {A} held (ps : list (prog C A)) s i p :
    pool_inv held ps s -> ps !! i = Some p -> finished p = false ->
    (forall l, is_Some (lks s !! l) -> exists x, In x (held i) /\ x <= l) ->
    exists c', cstep i (ps, s) = Some c'.
  Proof.
    intros (Hl & Hout & Hw) Hp Hf Hmax. unfold cstep. simpl. rewrite Hp.
    pose proof (Hw i p Hp) as Hwi. remember (held i) as hs eqn:Ehs.
    destruct Hwi as [a|e|hs X c k h Hk Hh|hs l m k h Hm Hk|hs l k h Hk]; try discriminate; simpl.
    - pose proof (nb X c (dat s)) as Hnb. destruct (cexec c (dat s)) as [[x|e|] d1]; simpl in *; try congruence; eauto.
    - destruct (lock_acq (reent l) i l m (lks s)) as [r k1] eqn:Ea.
      destruct r as [u|e|]; [eauto|eauto|]. exfalso. unfold lock_acq in Ea.
      destruct Hm as [Hsh [Hlt|(-> & Hre & Hin)]].
      + destruct (lks s !! l) as [ls|] eqn:El.
        * destruct (Hmax l ltac:(eauto)) as (x & Hx & Hle).
          rewrite List.Forall_forall in Hlt. specialize (Hlt x Hx). lia.
        * destruct m; discriminate.
      + pose proof (Hl l) as Hll. rewrite Hre in Ea. 
        assert (Hpos : 1 <= cnt (held i) l) by (rewrite <- Ehs; apply count_occ_In, Hin).
        destruct (lks s !! l) as [[o n|os]|].
        * destruct Hll as (H1 & H2 & H3). destruct (decide (i = o)) as [<-|Hne]; [|rewrite (H3 i Hne) in Hpos; lia].
          rewrite Nat.eqb_refl in Ea. discriminate.
        * destruct Hll as (H0 & _). congruence.
        * discriminate.
    - destruct (lock_rel i l (lks s)) as [r k1] eqn:Ea.
      destruct (rel_inv held (lks s) i l hs r k1 Hl (eq_sym Ehs) Ea) as [-> H]. eauto.
  Qed.

  Lemma wlk_finished {A} hs (p : prog C A) : wlk [] hs p -> finished p = true -> hs = [].
  Proof. intros H Hf. destruct H; try discriminate; reflexivity. Qed.

  Lemma held_none held k : lock_inv held k -> (forall i, held i = []) -> k = stdpp.base.empty.
  Proof.
    intros Hl Hn. apply map_eq. intros l. rewrite lookup_empty. specialize (Hl l).
    destruct (k !! l) as [[o n|os]|]; [| |reflexivity]; exfalso.
    - destruct Hl as (H1 & H2 & _). rewrite Hn in H2. simpl in H2. lia.
    - destruct Hl as (_ & H1 & H2). destruct os as [|x os]; [congruence|].
      specialize (H2 x). rewrite Hn in H2. simpl in H2. destruct (Nat.eq_dec x x); [discriminate|congruence].
  Qed.

  Theorem lock_progress {A} (ps : list (prog C A)) d sch ps' s' :
    Forall (wlk [] []) ps ->
    sched_run sch (ps, mkst d stdpp.base.empty) = Some (ps', s') ->
    (Forall (fun p => finished p = true) ps' /\ lks s' = stdpp.base.empty) \/
    (exists i c', cstep i (ps', s') = Some c').
  Proof.
    intros Hps Hr. destruct (pool_sched sch _ _ _ _ _ (pool_init ps d Hps) Hr) as (held & Hi).
    pose proof Hi as (Hl & Hout & Hw).
    destruct (decide (Forall (fun p => finished p = true) ps')) as [Hf|Hf].
    - left. split; [exact Hf|]. apply (held_none held); [exact Hl|]. intros i.
      destruct (le_lt_dec (length ps') i) as [Hle|Hlt]; [auto|].
      destruct (lookup_lt_is_Some_2 ps' i Hlt) as [p Hp]. rewrite Forall_lookup in Hf.
      apply (wlk_finished (held i) p); eauto.
    - right. destruct (decide (lks s' = stdpp.base.empty)) as [He|He].
      + apply not_Forall_Exists in Hf; [|apply _]. apply Exists_exists in Hf.
        destruct Hf as (p & Hp & Hnf). apply elem_of_list_In, elem_of_list_lookup in Hp.
        destruct Hp as [i Hp]. exists i. apply (can_move held ps' s' i p Hi Hp).
        * apply not_true_is_false, Hnf.
        * intros l [x Hx]. rewrite He, lookup_empty in Hx. discriminate.
      + destruct (min_key (lks s') He) as (l & x & Hx & Hmax).
        assert (exists i, In l (held i)) as [i Hin].
        { pose proof (Hl l) as Hll. rewrite Hx in Hll. destruct x as [o n|os].
          - destruct Hll as (H1 & H2 & _). exists o. apply cnt_pos_In. lia.
          - destruct Hll as (_ & H1 & H2). destruct os as [|y os]; [congruence|]. exists y.
            apply cnt_pos_In. rewrite H2. rewrite cnt_cons_eq. lia. }
        destruct (le_lt_dec (length ps') i) as [Hle|Hlt]; [rewrite Hout in Hin by exact Hle; destruct Hin|].
        destruct (lookup_lt_is_Some_2 ps' i Hlt) as [p Hp].
        exists i. apply (can_move held ps' s' i p Hi Hp).
        * destruct (finished p) eqn:Efp; [|reflexivity]. rewrite (wlk_finished (held i) p) in Hin by eauto. destruct Hin.
        * intros l' Hl'. exists l. split; [exact Hin|]. apply Hmax, Hl'.
  Qed.

  (** A single thread: every call ends with all locks released. *)
  Lemma wlk_run {A} t : forall hs (p : prog C A) held s r s',
    wlk [] hs p -> lock_inv held (lks s) -> held t = hs -> (forall j, j <> t -> held j = []) ->
    run t p s = (r, s') -> r <> Block /\ lks s' = stdpp.base.empty.
  Proof.
    intros hs p held s r s' H. revert held s r s'.
    induction H as [a|e|hs X c k h Hk IHk Hh IHh|hs l m k h Hm Hk IHk|hs l k h Hk IHk];
      intros held s r s' Hl Ht Ho Hr; simpl in Hr.
    - injection Hr as <- <-. split; [discriminate|]. apply (held_none held); [exact Hl|].
      intros j. destruct (decide (j = t)) as [->|]; auto.
    - injection Hr as <- <-. split; [discriminate|]. apply (held_none held); [exact Hl|].
      intros j. destruct (decide (j = t)) as [->|]; auto.
    - pose proof (nb X c (dat s)) as Hnb. destruct (cexec c (dat s)) as [[x|e|] d1]; simpl in *; try congruence.
      + apply (IHk x held (mkst d1 (lks s)) r s'); auto.
      + apply (IHh e held (mkst d1 (lks s)) r s'); auto.
    - destruct (lock_acq (reent l) t l m (lks s)) as [r1 k1] eqn:Ea.
      rewrite <- Ht in Hm.
      assert (Hnb : r1 <> Block).
      { intros ->. unfold lock_acq in Ea. pose proof (Hl l) as Hll.
        destruct Hm as [Hsh [Hlt|(-> & Hre & Hin)]].
        - assert (Hno : ~ In l (held t)) by (intros Hin; rewrite List.Forall_forall in Hlt; specialize (Hlt l Hin); lia).
          assert (Hz : forall j, cnt (held j) l = 0).
          { intros j. destruct (decide (j = t)) as [->|Hj]; [apply count_occ_not_In, Hno|rewrite Ho by auto; reflexivity]. }
          destruct (lks s !! l) as [[o n|os]|].
          + destruct Hll as (H1 & H2 & _). rewrite Hz in H2. lia.
          + destruct Hll as (_ & H1 & H2). destruct os as [|y os]; [congruence|].
            specialize (H2 y). rewrite Hz, cnt_cons_eq in H2. discriminate.
          + destruct m; discriminate.
        - assert (Hpos : 1 <= cnt (held t) l) by (apply count_occ_In, Hin). rewrite Hre in Ea.
          destruct (lks s !! l) as [[o n|os]|].
          + destruct Hll as (H1 & H2 & H3). destruct (decide (t = o)) as [<-|Hne]; [|rewrite (H3 t Hne) in Hpos; lia].
            rewrite Nat.eqb_refl in Ea. discriminate.
          + destruct Hll as (H0 & _). congruence.
          + discriminate. }
      destruct (acq_inv held (lks s) t l m r1 k1 Hl (proj1 Hm) Ea Hnb) as [-> Hl1].
      rewrite Ht in Hl1. apply (IHk (upd held t (l :: hs)) (mkst (dat s) k1) r s'); auto.
      + apply upd_eq.
      + intros j Hj. rewrite upd_ne by auto. auto.
    - destruct (lock_rel t l (lks s)) as [r1 k1] eqn:Ea.
      destruct (rel_inv held (lks s) t l hs r1 k1 Hl Ht Ea) as [-> Hl1].
      apply (IHk (upd held t hs) (mkst (dat s) k1) r s'); auto.
      + apply upd_eq.
      + intros j Hj. rewrite upd_ne by auto. auto.
  Qed.

  Theorem lock_released {A} t (p : prog C A) d r s' :
    wlk [] [] p -> run t p (mkst d stdpp.base.empty) = (r, s') ->
    r <> Block /\ lks s' = stdpp.base.empty.
  Proof.
    intros H Hr. eapply (wlk_run t [] p (fun _ => [])); eauto.
    intros l. simpl. rewrite lookup_empty. reflexivity.
  Qed.
End Locks.
