(** * KillLock: a lock whose holder makes no more steps

    Threads that release only locks that they hold.  If the holder of an exclusive lock
    never goes on, the lock stays as it is, and what comes after its acquisition is never
    reached by the others. *)
From stdpp Require Import gmap.
From Coq Require Import List Bool Arith Lia.
From Verif Require Import Prog ProgFacts Locks FlakyFacts FlakyCalls.
Import ListNotations.
Local Open Scope nat_scope.

Section Balanced.
  Context {C : Type -> Type} {D : Type} `{!Sem C D}.

  Inductive bal {A} (b : list nat) : list nat -> prog C A -> Prop :=
  | bal_ret a : bal b b (Ret a)
  | bal_raise e : bal b b (Raise e)
  | bal_op hs X (c : C X) k h : (forall x, bal b hs (k x)) -> (forall e, bal b hs (h e)) -> bal b hs (Act (Op c) k h)
  | bal_acq hs l k h : bal b (l :: hs) (k tt) -> bal b hs (Act (Acq l Ex) k h)
  | bal_rel hs l k h : bal b hs (k tt) -> bal b (l :: hs) (Act (Rel l) k h).
  Lemma unw_bal {A} e b hs (p : prog C A) : unwound e b hs p -> bal b hs p.
  Proof. induction 1; constructor; auto. Qed.
  Lemma uw_bal {A} b hs (p : prog C A) : uw exq b hs p -> bal b hs p.
  Proof.
    induction 1 as [a|e|hs X c k h _ IH Hh|hs l m k h Hm _ IH _|hs l k h _ IH].
    - constructor.
    - constructor.
    - constructor; [exact IH|]. intros e. eapply unw_bal, Hh.
    - unfold exq in Hm. subst m. constructor. exact IH.
    - constructor. exact IH.
  Qed.
  Lemma bal_bind {A B} b hs (p : prog C A) (f : A -> prog C B) : bal b hs p -> (forall a, bal b b (f a)) -> bal b hs (bind p f).
  Proof. intros H Hf. induction H; cbn [bind]; auto; constructor; auto. Qed.
  Lemma bal_attempt {A} b hs (p : prog C A) : bal b hs p -> bal b hs (attempt p).
  Proof. induction 1; cbn [attempt]; constructor; auto. Qed.
  Lemma bal_thread {A} b (cs : list (prog C A)) : Forall (bal b b) cs -> forall rs, bal b b (thread_from rs cs).
  Proof.
    induction 1 as [|c cs Hc _ IH]; intros rs; cbn [thread_from]; [constructor|].
    apply bal_bind; [apply bal_attempt, Hc|auto].
  Qed.
  Definition bal_shape {A} (hs : list nat) (p : prog C A) : Prop :=
    match p with
    | @Act _ _ X c k h =>
        match c in cmd _ X return (X -> prog C A) -> Prop with
        | Op c => fun k => (forall x, bal [] hs (k x)) /\ forall e, bal [] hs (h e)
        | Acq l m => fun k => m = Ex /\ bal [] (l :: hs) (k tt)
        | Rel l => fun k => exists hs', hs = l :: hs' /\ bal [] hs' (k tt)
        end k
    | _ => True
    end.
  Lemma bal_shaped {A} hs (p : prog C A) : bal [] hs p -> bal_shape hs p.
  Proof. destruct 1; simpl; eauto. Qed.

  Definition pool_bal {A} (held : nat -> list nat) (ps : list (prog C A)) (s : st D) : Prop :=
    lock_inv held (lks s) /\ (forall i, length ps <= i -> held i = []) /\
    (forall i p, ps !! i = Some p -> bal [] (held i) p).
  Lemma pool_bal_init {A} (ps : list (prog C A)) d : Forall (bal [] []) ps -> pool_bal (fun _ => []) ps (mkst d ∅).
  Proof.
    intros H. split; [|split].
    - intros l. simpl. rewrite lookup_empty. reflexivity.
    - reflexivity.
    - intros i p Hp. rewrite Forall_lookup in H. eauto.
  Qed.
  Lemma pool_bal_more {A} held (ps qs : list (prog C A)) s : pool_bal held ps s -> Forall (bal [] []) qs -> pool_bal held (ps ++ qs) s.
  Proof.
    intros (H1 & H2 & H3) Hq. split; [exact H1|]. split.
    - intros i Hi. apply H2. rewrite app_length in Hi. lia.
    - intros i p Hp. apply lookup_app_Some in Hp as [Hp|[Hi Hp]]; [eauto|].
      rewrite (H2 i Hi). rewrite Forall_lookup in Hq. eauto.
  Qed.
  Lemma bal_step {A} held i (ps : list (prog C A)) s ps' s' : pool_bal held ps s -> cstep i (ps, s) = Some (ps', s') ->
    exists held', pool_bal held' ps' s'.
  Proof.
    intros (Hl & Hout & Hw) Hs. unfold cstep in Hs. simpl in Hs.
    destruct (ps !! i) as [p|] eqn:Ep; [|discriminate].
    destruct (pstep i p s) as [[p' s1]|] eqn:Es; [|discriminate]. injection Hs as <- <-.
    pose proof (lookup_lt_Some _ _ _ Ep) as Hlt.
    assert (Hgo : forall hs', lock_inv (upd held i hs') (lks s1) -> bal [] hs' p' -> exists held', pool_bal held' (<[i:=p']> ps) s1).
    { intros hs' H1 H2. exists (upd held i hs'). split; [exact H1|]. split.
      - intros j Hj. rewrite insert_length in Hj. rewrite upd_ne by lia. auto.
      - intros j q Hq. destruct (decide (j = i)) as [->|Hne].
        + rewrite list_lookup_insert in Hq by exact Hlt. injection Hq as <-. rewrite upd_eq. exact H2.
        + rewrite list_lookup_insert_ne in Hq by auto. rewrite upd_ne by auto. eauto. }
    pose proof (bal_shaped _ _ (Hw i p Ep)) as Hb.
    destruct p as [a|e|X c k h]; [discriminate|discriminate|]. cbn [bal_shape] in Hb. simpl in Es.
    destruct c as [l m|l|X c]; simpl in Es.
    - destruct Hb as [-> Hb]. destruct (lock_acq (reent l) i l Ex (lks s)) as [r lk] eqn:El.
      destruct r as [x|e|]; [| |discriminate].
      + injection Es as <- <-. destruct x. destruct (acq_inv held (lks s) i l Ex _ _ Hl ltac:(discriminate) El ltac:(discriminate)) as [_ H].
        apply (Hgo (l :: held i)); assumption.
      + destruct (acq_inv held (lks s) i l Ex _ _ Hl ltac:(discriminate) El ltac:(discriminate)) as [H _]. discriminate.
    - destruct Hb as (hs' & Eh & Hb). destruct (lock_rel i l (lks s)) as [r lk] eqn:El.
      destruct (rel_inv held (lks s) i l hs' _ _ Hl Eh El) as [-> H]. injection Es as <- <-. apply (Hgo hs'); assumption.
    - destruct Hb as [Hk Hh]. assert (Hsame : lock_inv (upd held i (held i)) (lks s)).
      { intros l. specialize (Hl l). assert (Hc : forall j, upd held i (held i) j = held j).
        { intros j. unfold upd. destruct (Nat.eqb_spec j i) as [->|]; reflexivity. }
        destruct (lks s !! l) as [[o n|os]|].
        - rewrite Hc. destruct Hl as (A1 & A2 & A3). repeat split; auto. intros j Hj. rewrite Hc. auto.
        - destruct Hl as (A1 & A2 & A3). repeat split; auto. intros j. rewrite Hc. auto.
        - intros j. rewrite Hc. auto. }
      destruct (cexec c (dat s)) as [[x|e|] d']; [..|discriminate]; injection Es as <- <-; apply (Hgo (held i)); auto.
  Qed.

  (** The lock [L] is held by [k], which makes no step. *)
  Lemma kept_step {A} held i (ps : list (prog C A)) s ps' s' L k n : pool_bal held ps s -> cstep i (ps, s) = Some (ps', s') ->
    lks s !! L = Some (Excl k n) -> i <> k -> lks s' !! L = Some (Excl k n).
  Proof.
    intros (Hl & Hout & Hw) Hs HL Hne. unfold cstep in Hs. simpl in Hs.
    destruct (ps !! i) as [p|] eqn:Ep; [|discriminate].
    destruct (pstep i p s) as [[p' s1]|] eqn:Es; [|discriminate]. injection Hs as <- <-.
    pose proof (bal_shaped _ _ (Hw i p Ep)) as Hb.
    destruct p as [a|e|X c kk h]; [discriminate|discriminate|]. cbn [bal_shape] in Hb. simpl in Es.
    destruct c as [l m|l|X c]; simpl in Es.
    - destruct Hb as [-> _]. unfold lock_acq in Es. destruct (decide (l = L)) as [->|Hl'].
      + rewrite HL in Es. destruct (Nat.eqb_spec k i) as [->|_]; [congruence|]. rewrite andb_false_r in Es. discriminate.
      + destruct (lks s !! l) as [[o n'|os]|]; [destruct (reent l && (o =? i))|..]; try discriminate;
          injection Es as _ <-; simpl; rewrite lookup_insert_ne by auto; exact HL.
    - destruct Hb as (hs' & Eh & _). assert (Hl' : l <> L).
      { intros ->. specialize (Hl L). rewrite HL in Hl. destruct Hl as (_ & _ & H3). specialize (H3 i Hne).
        rewrite Eh, cnt_cons_eq in H3. discriminate. }
      unfold lock_rel in Es. destruct (lks s !! l) as [[o [|[|n']]|os]|]; [..|destruct (remove1 i os)|];
        injection Es as _ <-; simpl; rewrite ?lookup_delete_ne, ?lookup_insert_ne by auto; exact HL.
    - destruct (cexec c (dat s)) as [[x|e|] d']; [..|discriminate]; injection Es as _ <-; exact HL.
  Qed.
End Balanced.

(** ** Programs that never get past the lock [L] *)
Section Behind.
  Context {C : Type -> Type}.
  Variables (L : nat) (res : forall X, C X -> X -> Prop).
  (** If [p] returns without having acquired [L], its result satisfies [R]. *)
  Inductive behind {A} (R : A -> Prop) : prog C A -> Prop :=
  | be_ret a : R a -> behind R (Ret a)
  | be_raise e : behind R (Raise e)
  | be_acq l m k h : (l <> L -> behind R (k tt)) -> (forall e, behind R (h e)) -> behind R (Act (Acq l m) k h)
  | be_rel l k h : behind R (k tt) -> (forall e, behind R (h e)) -> behind R (Act (Rel l) k h)
  | be_op X (c : C X) k h : (forall x, res X c x -> behind R (k x)) -> (forall e, behind R (h e)) -> behind R (Act (Op c) k h).
  Definition be_shape {A} (R : A -> Prop) (q : prog C A) : Prop :=
    match q with
    | Ret a => R a
    | Raise _ => True
    | @Act _ _ X c k h =>
        match c in cmd _ X return (X -> prog C A) -> Prop with
        | Op c => fun k => forall x, res _ c x -> behind R (k x)
        | Acq l _ => fun k => l <> L -> behind R (k tt)
        | Rel _ => fun k => behind R (k tt)
        end k /\ forall e, behind R (h e)
    end.
  Lemma be_shaped {A} (R : A -> Prop) q : behind R q -> be_shape R q.
  Proof. destruct 1; simpl; auto. Qed.
  Lemma be_more {A} (R R' : A -> Prop) p : behind R p -> (forall a, R a -> R' a) -> behind R' p.
  Proof. intros H HR. induction H; constructor; auto. Qed.
  Lemma be_any {A} (p : prog C A) : behind (fun _ => True) p.
  Proof. induction p as [a|e|X [l m|l|X' c] k IHk h IHh]; constructor; auto. Qed.
  Lemma be_bind {A B} (R : A -> Prop) (R' : B -> Prop) p f : behind R p -> (forall a, R a -> behind R' (f a)) -> behind R' (bind p f).
  Proof. intros H Hf. induction H; cbn [bind]; auto; constructor; auto. Qed.
  Lemma be_then {A B} (R' : B -> Prop) (p : prog C A) f : (forall a, behind R' (f a)) -> behind R' (bind p f).
  Proof. intros H. eapply be_bind; [apply be_any|]. auto. Qed.
  Lemma be_cmd {X} (R : X -> Prop) (c : C X) : (forall x, res X c x -> R x) -> behind R (op c).
  Proof. intros H. unfold op. apply be_op; [intros x Hx; constructor; auto|intros e; constructor]. Qed.
  Lemma be_with {A} (R : A -> Prop) l m p : (l <> L -> behind R p) -> behind R (with_lock l m p).
  Proof.
    intros Hp. unfold with_lock. constructor; [|intros; constructor]. intros Hl. specialize (Hp Hl).
    induction Hp as [a Ha|e|l0 m0 k h _ IHk _ IHh|l0 k h _ IHk _ IHh|X c k h _ IHk _ IHh]; cbn [try_finally].
    - unfold release. cbn [bind]. constructor; [constructor; exact Ha|intros; constructor].
    - unfold release. cbn [bind]. constructor; [constructor|intros; constructor].
    - constructor; auto.
    - constructor; auto.
    - apply be_op; auto.
  Qed.
  Definition stopped {A} (R : A -> Prop) (o : outcome A) : Prop :=
    match o with Good a => R a | Fail _ => True | Block => False end.
  Lemma be_attempt {A} (R : A -> Prop) p : behind R p -> behind (stopped R) (attempt p).
  Proof. induction 1; cbn [attempt]; constructor; simpl; auto. Qed.
  Lemma be_thread {A K} (R : K -> A -> Prop) (call : K -> prog C A) (cs : list K) : (forall c, behind (R c) (call c)) ->
    behind (fun rs => Forall2 (fun c o => stopped (R c) o) cs rs) (thread (map call cs)).
  Proof.
    intros H. unfold thread.
    assert (G : forall cs done rs, Forall2 (fun c o => stopped (R c) o) done (rev rs) ->
      behind (fun rs' => Forall2 (fun c o => stopped (R c) o) (done ++ cs) rs') (thread_from rs (map call cs))).
    { clear cs. induction cs as [|c cs IH]; intros done rs Hd; cbn [map thread_from].
      - constructor. rewrite app_nil_r. exact Hd.
      - eapply be_bind; [apply be_attempt, (H c)|]. intros o Ho. rewrite (cons_middle c), app_assoc. apply IH.
        cbn [rev]. apply Forall2_app; [exact Hd|]. constructor; [exact Ho|constructor]. }
    apply (G cs [] []). constructor.
  Qed.

  Context {D : Type} `{!Sem C D}.
  Variable I : D -> Prop.
  Hypothesis Hcmd : forall X (c : C X) d r d', I d -> cexec c d = (r, d') -> I d' /\ forall x, r = Good x -> res X c x.
  Lemma behind_sched {A} k n sch : forall held (ps : list (prog C A)) s ps' s',
    pool_bal held ps s -> lks s !! L = Some (Excl k n) -> I (dat s) -> ~ In k sch -> sched_run sch (ps, s) = Some (ps', s') ->
    lks s' !! L = Some (Excl k n) /\
    forall i p (R : A -> Prop), i <> k -> ps !! i = Some p -> behind R p -> exists p', ps' !! i = Some p' /\ behind R p'.
  Proof using Hcmd.
    induction sch as [|j sch IH]; intros held ps s ps' s' Hb HL Hi Hk Hr; simpl in Hr; [injection Hr as <- <-; split; eauto|].
    destruct (cstep j (ps, s)) as [[ps1 s1]|] eqn:E; [|discriminate].
    assert (Hjk : j <> k) by (intros ->; apply Hk; left; reflexivity).
    destruct (bal_step _ _ _ _ _ _ Hb E) as [held1 Hb1].
    pose proof (kept_step _ _ _ _ _ _ _ _ _ Hb E HL Hjk) as HL1.
    assert (Hone : I (dat s1) /\ forall i p (R : A -> Prop), ps !! i = Some p -> behind R p -> exists p', ps1 !! i = Some p' /\ behind R p').
    { clear IH Hr. unfold cstep in E. simpl in E. destruct (ps !! j) as [q|] eqn:Eq; [|discriminate].
      destruct (pstep j q s) as [[q1 s2]|] eqn:Es; [|discriminate]. injection E as <- <-.
      assert (Hq : I (dat s2) /\ forall R, behind R q -> behind R q1).
      { destruct q as [a|e|X c kk h]; [discriminate|discriminate|]. simpl in Es.
        destruct c as [l m|l|X c]; simpl in Es.
        - destruct (lock_acq (reent l) j l m (lks s)) as [[x|e|] k'] eqn:El; [..|discriminate]; injection Es as <- <-; (split; [exact Hi|]);
            intros R HR; apply be_shaped in HR; destruct HR as [H1 H2]; [|apply H2].
          destruct x. apply H1. intros ->. unfold lock_acq in El. rewrite HL in El. destruct m; [|discriminate].
          destruct (Nat.eqb_spec k j) as [|_]; [congruence|]. rewrite andb_false_r in El. discriminate.
        - destruct (lock_rel j l (lks s)) as [[x|e|] k'] eqn:El; [..|discriminate]; injection Es as <- <-; (split; [exact Hi|]);
            intros R HR; apply be_shaped in HR; destruct HR as [H1 H2]; [|apply H2]. destruct x. exact H1.
        - destruct (cexec c (dat s)) as [[x|e|] d'] eqn:Ec; [..|discriminate]; injection Es as <- <-;
            destruct (Hcmd _ _ _ _ _ Hi Ec) as [Hi' Hx]; (split; [exact Hi'|]);
            intros R HR; apply be_shaped in HR; destruct HR as [H1 H2]; [apply H1, Hx; reflexivity|apply H2]. }
      destruct Hq as [Hi1 Hq]. split; [exact Hi1|]. intros i p R Hp HR. destruct (decide (i = j)) as [->|Hne].
      - rewrite Eq in Hp. injection Hp as <-. exists q1. split; [|auto]. apply list_lookup_insert. eapply lookup_lt_Some, Eq.
      - exists p. rewrite list_lookup_insert_ne by auto. auto. }
    destruct Hone as [Hi1 Hone].
    destruct (IH held1 ps1 s1 ps' s' Hb1 HL1 Hi1 ltac:(intros H; apply Hk; right; exact H) Hr) as [H1 H2].
    split; [exact H1|]. intros i p R Hik Hp HR. destruct (Hone i p R Hp HR) as (p1 & Hp1 & HR1). eauto.
  Qed.
End Behind.
