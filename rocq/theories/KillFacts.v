(** * KillFacts: reasoning about executions with kills *)
From stdpp Require Import gmap.
From Coq Require Import List Bool Arith Lia.
From Verif Require Import Prog ProgFacts Locks Kill.
Import ListNotations.
Local Open Scope nat_scope.

(** The steps of an execution, without the kills. *)
Definition steps_of (es : list event) : list nat :=
  flat_map (fun e => match e with Step t => [t] | Kill _ => [] end) es.

Lemma is_dead_in dead t : is_dead dead t = true <-> In t dead.
Proof.
  unfold is_dead. rewrite existsb_exists. split.
  - intros (x & Hx & E). apply Nat.eqb_eq in E. subst. exact Hx.
  - intros H. exists t. rewrite Nat.eqb_refl. auto.
Qed.
Lemma is_dead_out dead t : is_dead dead t = false <-> ~ In t dead.
Proof. rewrite <- is_dead_in. destruct (is_dead dead t); intuition congruence. Qed.

Section Facts.
  Context {C : Type -> Type} {D : Type} `{!Sem C D}.

  (** If locks stay locked, a killed process is one that is never chosen again. *)
  Lemma locks_stay t k : locks_after (fun _ => true) t k = k.
  Proof. apply map_eq. intros l. unfold locks_after. rewrite map_lookup_imap. destruct (k !! l); reflexivity. Qed.
  Lemma killed_is_stopped {A} es : forall (c : config (C:=C) (D:=D) A) dead c' dead',
    krun (fun _ => true) es (c, dead) = Some (c', dead') -> sched_run (steps_of es) c = Some c'.
  Proof.
    induction es as [|e es IH]; intros c dead c' dead' H; simpl in H.
    - injection H as <- <-. reflexivity.
    - destruct c as [ps s]. destruct e as [t|t]; simpl in *.
      + destruct (is_dead dead t); [discriminate|].
        destruct (cstep t (ps, s)) as [c1|]; [|discriminate]. eauto.
      + destruct (ps !! t) as [p|]; [|discriminate]. destruct (finished p || is_dead dead t); [discriminate|].
        rewrite locks_stay in H. destruct s as [d k]. simpl in H. eauto.
  Qed.

  (** The killed processes: they exist, were not finished, and are killed once. *)
  Lemma dead_unfinished {A} stays es : forall (ps : list (prog C A)) s dead ps' s' dead',
    krun stays es ((ps, s), dead) = Some ((ps', s'), dead') ->
    (forall t, In t dead -> exists p, ps !! t = Some p /\ finished p = false) -> List.NoDup dead ->
    (forall t, In t dead' -> exists p, ps' !! t = Some p /\ finished p = false) /\ List.NoDup dead' /\ (forall t, In t dead -> In t dead') /\
    length ps' = length ps.
  Proof.
    induction es as [|e es IH]; intros ps s dead ps' s' dead' H Hd Hn; simpl in H.
    - injection H as <- <- <-. auto.
    - destruct e as [t|t]; simpl in H.
      + destruct (is_dead dead t) eqn:Ed; [discriminate|].
        destruct (cstep t (ps, s)) as [[ps1 s1]|] eqn:Es; [|discriminate].
        apply is_dead_out in Ed. unfold cstep in Es. simpl in Es.
        destruct (ps !! t) as [p|] eqn:Ep; [|discriminate]. destruct (pstep t p s) as [[p1 s2]|]; [|discriminate].
        injection Es as <- <-. destruct (IH _ _ _ _ _ _ H) as (H1 & H2 & H3 & H4); auto.
        * intros u Hu. destruct (decide (t = u)) as [->|Hne]; [contradiction|].
          rewrite list_lookup_insert_ne by auto. auto.
        * rewrite insert_length in H4. auto.
      + destruct (ps !! t) as [p|] eqn:Ep; [|discriminate]. destruct (finished p || is_dead dead t) eqn:Ef; [discriminate|].
        apply orb_false_iff in Ef. destruct Ef as [Ef Ed]. apply is_dead_out in Ed.
        destruct (IH _ _ _ _ _ _ H) as (H1 & H2 & H3 & H4); auto.
        * intros u [<-|Hu]; [eauto|auto].
        * constructor; auto.
        * repeat split; auto. intros u Hu. apply H3. right. exact Hu.
  Qed.

  (** ** Progress *)
  Hypothesis nb : forall X (c : C X) (d : D), fst (cexec c d) <> Block.

  (** The pool in which every killed process is a finished program. *)
  Definition alive_pool {A} (ps : list (prog C A)) (dead : list nat) : list (prog C A) :=
    imap (fun i p => if is_dead dead i then Raise OutOfFuel else p) ps.
  Lemma alive_lookup {A} (ps : list (prog C A)) dead i :
    alive_pool ps dead !! i = (fun p => if is_dead dead i then Raise OutOfFuel else p) <$> ps !! i.
  Proof. unfold alive_pool. rewrite list_lookup_imap. reflexivity. Qed.
  Lemma alive_length {A} (ps : list (prog C A)) dead : length (alive_pool ps dead) = length ps.
  Proof. apply imap_length. Qed.
  Lemma alive_step {A} (ps : list (prog C A)) dead i s c :
    is_dead dead i = false -> cstep i (ps, s) = Some c ->
    cstep i (alive_pool ps dead, s) = Some (alive_pool (fst c) dead, snd c).
  Proof.
    intros Hd. unfold cstep. simpl. rewrite alive_lookup. destruct (ps !! i) as [p|] eqn:Ep; [|discriminate].
    simpl. rewrite Hd. destruct (pstep i p s) as [[p' s']|]; [|discriminate]. intros [= <-]. simpl. f_equal. f_equal.
    apply list_eq. intros j. rewrite alive_lookup. destruct (decide (i = j)) as [<-|Hne].
    - rewrite !list_lookup_insert by (rewrite ?alive_length; eapply lookup_lt_Some; exact Ep). simpl. rewrite Hd. reflexivity.
    - rewrite !list_lookup_insert_ne by auto. apply alive_lookup.
  Qed.
  Lemma alive_back {A} (ps : list (prog C A)) dead i s c :
    cstep i (alive_pool ps dead, s) = Some c -> is_dead dead i = false /\ exists c', cstep i (ps, s) = Some c'.
  Proof.
    unfold cstep. simpl. rewrite alive_lookup. destruct (ps !! i) as [p|]; [|discriminate]. simpl.
    destruct (is_dead dead i); [discriminate|]. destruct (pstep i p s) as [[p' s']|]; [|discriminate]. eauto.
  Qed.

  Notation cnt := (count_occ Nat.eq_dec).
  Lemma cnt_filter t os i : cnt (List.filter (fun o => negb (o =? t)) os) i = if i =? t then 0 else cnt os i.
  Proof.
    destruct (Nat.eqb_spec i t) as [E|Hi].
    - subst i. induction os as [|x os IH]; simpl; [reflexivity|]. destruct (Nat.eqb_spec x t) as [|Hx]; simpl; [exact IH|].
      destruct (Nat.eq_dec x t); [congruence|exact IH].
    - induction os as [|x os IH]; simpl; [reflexivity|]. destruct (Nat.eqb_spec x t) as [->|Hx]; simpl; rewrite IH; [|reflexivity].
      destruct (Nat.eq_dec t i); [congruence|reflexivity].
  Qed.
  Lemma drop_inv held k t : lock_inv held k -> lock_inv (upd held t []) (locks_after (fun _ => false) t k).
  Proof.
    intros Hinv l. specialize (Hinv l). unfold locks_after. rewrite map_lookup_imap.
    destruct (k !! l) as [[o n|os]|]; simpl.
    - destruct Hinv as (H1 & H2 & H3). destruct (Nat.eqb_spec o t) as [->|Ho].
      + intros i. destruct (decide (i = t)) as [->|Hi]; [rewrite upd_eq; reflexivity|rewrite upd_ne by auto; auto].
      + rewrite upd_ne by auto. repeat split; auto. intros i Hi.
        destruct (decide (i = t)) as [->|Hit]; [rewrite upd_eq; reflexivity|rewrite upd_ne by auto; auto].
    - destruct Hinv as (H0 & H1 & H2).
      assert (Hc : forall i, cnt (upd held t [] i) l = cnt (List.filter (fun o => negb (o =? t)) os) i).
      { intros i. rewrite cnt_filter. destruct (Nat.eqb_spec i t) as [->|Hi]; [rewrite upd_eq; reflexivity|].
        rewrite upd_ne by auto. apply H2. }
      destruct (List.filter (fun o => negb (o =? t)) os) as [|x os'] eqn:E.
      + intros i. rewrite Hc. reflexivity.
      + repeat split; [exact H0|discriminate|exact Hc].
    - intros i. destruct (decide (i = t)) as [->|Hi]; [rewrite upd_eq; reflexivity|rewrite upd_ne by auto; auto].
  Qed.

  Lemma kill_sched {A} es : forall held (ps : list (prog C A)) s dead ps' s' dead',
    pool_inv held (alive_pool ps dead) s -> krun (fun _ => false) es ((ps, s), dead) = Some ((ps', s'), dead') ->
    exists held', pool_inv held' (alive_pool ps' dead') s'.
  Proof.
    induction es as [|e es IH]; intros held ps s dead ps' s' dead' Hi H; simpl in H.
    - injection H as <- <- <-. eauto.
    - destruct e as [t|t]; simpl in H.
      + destruct (is_dead dead t) eqn:Ed; [discriminate|].
        destruct (cstep t (ps, s)) as [[ps1 s1]|] eqn:Es; [|discriminate].
        apply (alive_step ps dead) in Es; [|exact Ed].
        destruct (pool_step nb held t _ _ _ _ Hi Es) as [held1 Hi1]. simpl in Hi1. eauto.
      + destruct (ps !! t) as [p|] eqn:Ep; [|discriminate]. destruct (finished p || is_dead dead t); [discriminate|].
        apply (IH (upd held t []) _ _ _ _ _ _) in H; [exact H|]. destruct Hi as (Hl & Hout & Hw).
        split; [|split]; simpl.
        * apply drop_inv, Hl.
        * intros i Hlt. rewrite alive_length in Hlt. destruct (decide (i = t)) as [->|Hne]; [apply upd_eq|].
          rewrite upd_ne by auto. apply Hout. rewrite alive_length. exact Hlt.
        * intros i q Hq. rewrite alive_lookup in Hq. destruct (ps !! i) as [q0|] eqn:Eq; [|discriminate].
          simpl in Hq. destruct (Nat.eqb_spec i t) as [->|Hne].
          -- simpl in Hq. injection Hq as <-. rewrite upd_eq. constructor.
          -- rewrite upd_ne by auto. apply Hw. rewrite alive_lookup, Eq. simpl. f_equal. injection Hq as <-. reflexivity.
  Qed.

  (** If the system releases the locks of killed processes: either every process is finished
      or killed, and no lock is held, or some process that was not killed can go on. *)
  Theorem kill_progress {A} (ps : list (prog C A)) d es ps' s' dead' :
    Forall (wlk [] []) ps ->
    krun (fun _ => false) es ((ps, mkst d stdpp.base.empty), []) = Some ((ps', s'), dead') ->
    ((forall i p, ps' !! i = Some p -> In i dead' \/ finished p = true) /\ lks s' = stdpp.base.empty) \/
    (exists i c', ~ In i dead' /\ cstep i (ps', s') = Some c').
  Proof.
    intros Hps Hr.
    assert (E0 : alive_pool ps [] = ps).
    { apply list_eq. intros i. rewrite alive_lookup. destruct (ps !! i); reflexivity. }
    assert (H0 := pool_init ps d Hps). rewrite <- E0 in H0 at 1.
    destruct (kill_sched es _ _ _ _ _ _ _ H0 Hr) as (held & Hi).
    set (qs := alive_pool ps' dead') in *.
    assert (Hgo : (Forall (fun p => finished p = true) qs /\ lks s' = stdpp.base.empty) \/ (exists i c', cstep i (qs, s') = Some c')).
    { clearbody qs. pose proof Hi as (Hl & Hout & Hw).
      destruct (decide (Forall (fun p => finished p = true) qs)) as [Hf|Hf].
      - left. split; [exact Hf|]. apply (held_none held); [exact Hl|]. intros i.
        destruct (le_lt_dec (length qs) i) as [Hle|Hlt]; [auto|].
        destruct (lookup_lt_is_Some_2 qs i Hlt) as [p Hp]. rewrite Forall_lookup in Hf.
        apply (wlk_finished (held i) p); eauto.
      - right. destruct (decide (lks s' = stdpp.base.empty)) as [He|He].
        + apply not_Forall_Exists in Hf; [|apply _]. apply Exists_exists in Hf.
          destruct Hf as (p & Hp & Hnf). apply elem_of_list_In, elem_of_list_lookup in Hp.
          destruct Hp as [i Hp]. exists i. apply (can_move nb held qs s' i p Hi Hp).
          * apply not_true_is_false, Hnf.
          * intros l [x Hx]. rewrite He, lookup_empty in Hx. discriminate.
        + destruct (min_key (lks s') He) as (l & x & Hx & Hmax).
          assert (exists i, In l (held i)) as [i Hin].
          { pose proof (Hl l) as Hll. rewrite Hx in Hll. destruct x as [o n|os].
            - destruct Hll as (H1 & H2 & _). exists o. apply cnt_pos_In. lia.
            - destruct Hll as (_ & H1 & H2). destruct os as [|y os]; [congruence|]. exists y.
              apply cnt_pos_In. rewrite H2. rewrite cnt_cons_eq. lia. }
          destruct (le_lt_dec (length qs) i) as [Hle|Hlt]; [rewrite Hout in Hin by exact Hle; destruct Hin|].
          destruct (lookup_lt_is_Some_2 qs i Hlt) as [p Hp].
          exists i. apply (can_move nb held qs s' i p Hi Hp).
          * destruct (finished p) eqn:Efp; [|reflexivity]. rewrite (wlk_finished (held i) p) in Hin by eauto. destruct Hin.
          * intros l' Hl'. exists l. split; [exact Hin|]. apply Hmax, Hl'. }
    destruct Hgo as [[Hf He]|(i & c & Hc)].
    - left. split; [|exact He]. intros i p Hp. destruct (is_dead dead' i) eqn:Ed; [left; apply is_dead_in, Ed|right].
      rewrite Forall_lookup in Hf. apply (Hf i). unfold qs. rewrite alive_lookup, Hp. simpl. rewrite Ed. reflexivity.
    - right. destruct (alive_back _ _ _ _ _ Hc) as [Ed [c' Hc']]. exists i, c'. split; [apply is_dead_out, Ed|exact Hc'].
  Qed.
End Facts.
