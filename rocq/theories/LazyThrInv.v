(** * LazyThrInv: what is always true of lazy modules that threads use *)
From stdpp Require Import gmap strings.
From Coq Require Import String.
From Coq Require Import List Bool Arith Lia.
From Verif Require Import Prog ProgFacts Rely Lazy LazyThr LazyThrSpec.
Import ListNotations.
Local Open Scope nat_scope.

(** How often thread [t] holds the lock of module [i]. *)
Definition depth (t i : nat) (k : locks) : nat :=
  match k !! lk i with Some (Excl o n) => if o =? t then n else 0 | _ => 0 end.

Section Inv.
  Variable code : nat -> list tstmt.
  Variable mods0 : list (gmap string nat * list nat).
  Variable las0 : list (nat * string).

  Definition mod_ok (i : nat) (m : tmod) (l : option lockst) : Prop :=
    exists ats ds, mods0 !! i = Some (ats, ds) /\
    t_loading m = match t_run m with Fresh => false | _ => true end /\
    (forall d, In d (t_deps m) -> In d ds) /\
    match t_run m with
    | Fresh => t_attrs m = ats /\ t_cls m <> KMod
    | Running => t_cls m = KImp /\ exists o n, l = Some (Excl o (S n))
    | Over true => t_attrs m = loaded (code i) ats /\ t_cls m <> KUtils
    | Over false => t_cls m = KImp /\ exists pre post, code i = pre ++ post /\ t_attrs m = defs pre ats
    end.
  Definition settled (m : tmod) : Prop := exists b, t_run m = Over b.
  Definition value_ok (mods : list tmod) (i : nat) (a : string) (v : lval) : Prop :=
    exists m, mods !! i = Some m /\ settled m /\ (a <> "__class__"%string -> says (t_attrs m) a (Good v)).
  Definition la_ok (mods : list tmod) (k : nat) (l : tla) : Prop :=
    las0 !! k = Some (la_mod l, la_attr l) /\
    (opens (la_attr l) -> forall v, la_obj l = Some v \/ la_pub l = Some v -> value_ok mods (la_mod l) (la_attr l) v).
  Definition lock_ok (l : option lockst) : Prop :=
    match l with None => True | Some (Excl _ n) => 1 <= n | Some (Shared _) => False end.

  Record inv (s : st tworld) : Prop := mkinv {
    i_locks : forall i, lock_ok (lks s !! lk i);
    i_mods : forall i m, t_mods (dat s) !! i = Some m -> mod_ok i m (lks s !! lk i);
    i_las : forall k l, t_las (dat s) !! k = Some l -> la_ok (t_mods (dat s)) k l;
    i_nodup : List.NoDup (begun (dat s));
    i_begun : forall i, In i (begun (dat s)) <-> exists m, t_mods (dat s) !! i = Some m /\ t_run m <> Fresh;
  }.

  (** What may happen to a module while a thread holds its lock [d] times. *)
  Definition mrel (d : nat) (m m' : tmod) : Prop :=
    (0 < d -> t_run m' = t_run m /\ t_attrs m' = t_attrs m /\ (t_cls m = KImp -> t_cls m' = KImp)) /\
    (settled m -> t_run m' = t_run m /\ t_attrs m' = t_attrs m /\ (t_cls m = KImp -> t_cls m' = KImp)) /\
    (t_run m <> Fresh -> t_run m' <> Fresh) /\
    (t_cls m <> KUtils -> t_cls m' <> KUtils).
  Definition mods_rel (d : nat -> nat) (w w' : tworld) : Prop :=
    forall i m, t_mods w !! i = Some m -> exists m', t_mods w' !! i = Some m' /\ mrel (d i) m m'.
  Definition same_size (w w' : tworld) : Prop :=
    length (t_mods w') = length (t_mods w) /\ length (t_las w') = length (t_las w).

  (** What thread [u] may see the others do. *)
  Definition TR (u : nat) (s s' : st tworld) : Prop :=
    inv s -> inv s' /\ (forall i, depth u i (lks s') = depth u i (lks s)) /\
             mods_rel (fun i => depth u i (lks s)) (dat s) (dat s') /\ same_size (dat s) (dat s').

  Lemma mrel_refl d m : mrel d m m.
  Proof using. split; [auto|]. split; [auto|]. split; auto. Qed.
  Lemma mrel_trans d d' m1 m2 m3 : (0 < d -> 0 < d') -> mrel d m1 m2 -> mrel d' m2 m3 -> mrel d m1 m3.
  Proof using.
    intros Hd (A1 & A2 & A3 & A4) (B1 & B2 & B3 & B4). split; [|split; [|split]]; auto.
    - intros H. destruct (A1 H) as (E1 & E2 & E3). destruct (B1 (Hd H)) as (F1 & F2 & F3).
      split; [congruence|]. split; [congruence|auto].
    - intros H. destruct (A2 H) as (E1 & E2 & E3). destruct H as [b Hb].
      destruct (B2 (ex_intro _ b (eq_trans E1 Hb))) as (F1 & F2 & F3).
      split; [congruence|]. split; [congruence|auto].
  Qed.
  Lemma mods_rel_trans (d d' : nat -> nat) w1 w2 w3 : (forall i, 0 < d i -> 0 < d' i) ->
    mods_rel d w1 w2 -> mods_rel d' w2 w3 -> mods_rel d w1 w3.
  Proof using.
    intros Hd H1 H2 i m Hm. destruct (H1 i m Hm) as (m2 & E2 & R2). destruct (H2 i m2 E2) as (m3 & E3 & R3).
    exists m3. split; [exact E3|]. eapply mrel_trans; [apply Hd|exact R2|exact R3].
  Qed.
  Lemma same_size_trans w1 w2 w3 : same_size w1 w2 -> same_size w2 w3 -> same_size w1 w3.
  Proof using. intros [A1 A2] [B1 B2]. split; congruence. Qed.

  Lemma TR_refl u s : TR u s s.
  Proof.
    intros H. split; [exact H|]. split; [reflexivity|]. split; [|split; reflexivity].
    intros i m Hm. exists m. split; [exact Hm|apply mrel_refl].
  Qed.
  Lemma TR_trans u s1 s2 s3 : TR u s1 s2 -> TR u s2 s3 -> TR u s1 s3.
  Proof.
    intros H1 H2 Hi. destruct (H1 Hi) as (I2 & D2 & M2 & Z2). destruct (H2 I2) as (I3 & D3 & M3 & Z3).
    split; [exact I3|]. split; [intros i; rewrite D3; apply D2|]. split; [|eapply same_size_trans; eauto].
    eapply mods_rel_trans; [|exact M2|exact M3]. intros i. simpl. rewrite D2. auto.
  Qed.

  Lemma value_ok_rel d mods mods' i a v :
    (forall j m, mods !! j = Some m -> exists m', mods' !! j = Some m' /\ mrel (d j) m m') ->
    value_ok mods i a v -> value_ok mods' i a v.
  Proof.
    intros HM (m & Hm & Hs & Hv). destruct (HM i m Hm) as (m' & Hm' & (_ & H2 & _)).
    destruct (H2 Hs) as (E1 & E2 & _). exists m'. split; [exact Hm'|]. split.
    - destruct Hs as [b Hb]. exists b. congruence.
    - rewrite E2. exact Hv.
  Qed.

  (** ** Commands *)
  Notation G := (guar TR).

  Lemma guar_same t s : G t s s.
  Proof. intros u _. apply TR_refl. Qed.

  (** Reading a module leaves the world as it is. *)
  Lemma on_mod_read {X} i (f : tmod -> outcome X) w :
    on_mod i (fun m => (f m, m)) w = (match t_mods w !! i with Some m => f m | None => Fail AttributeError end, w).
  Proof.
    unfold on_mod. destruct (t_mods w !! i) as [m|] eqn:E; [|reflexivity].
    rewrite list_insert_id by exact E. destruct w; reflexivity.
  Qed.

  (** Thread [t] changes module [i]. *)
  Definition put_mod (i : nat) (m' : tmod) (b : list nat) (s : st tworld) : st tworld :=
    mkst (mktw (<[i := m']> (t_mods (dat s))) (t_las (dat s)) b) (lks s).
  Lemma put_mod_lookup i m m' b s j : t_mods (dat s) !! i = Some m ->
    t_mods (dat (put_mod i m' b s)) !! j = if decide (j = i) then Some m' else t_mods (dat s) !! j.
  Proof.
    intros Hm. simpl. destruct (decide (j = i)) as [->|Hne].
    - apply list_lookup_insert, lookup_lt_Some in Hm || (apply list_lookup_insert; eapply lookup_lt_Some; exact Hm).
    - apply list_lookup_insert_ne. auto.
  Qed.
  Lemma put_mod_rel i m m' b s (d : nat -> nat) : t_mods (dat s) !! i = Some m -> mrel (d i) m m' ->
    mods_rel d (dat s) (dat (put_mod i m' b s)) /\ same_size (dat s) (dat (put_mod i m' b s)).
  Proof.
    intros Hm Hr. split.
    - intros j mj Hj. rewrite (put_mod_lookup i m) by exact Hm. destruct (decide (j = i)) as [->|Hne].
      + rewrite Hm in Hj. injection Hj as <-. eauto.
      + exists mj. split; [exact Hj|apply mrel_refl].
    - split; simpl; [apply insert_length|reflexivity].
  Qed.
  Lemma put_mod_inv i m m' b s : inv s -> t_mods (dat s) !! i = Some m -> mrel 0 m m' ->
    mod_ok i m' (lks s !! lk i) ->
    b = (match t_run m, t_run m' with Fresh, Fresh => begun (dat s) | Fresh, _ => begun (dat s) ++ [i] | _, _ => begun (dat s) end) ->
    inv (put_mod i m' b s).
  Proof.
    intros Hi Hm Hr Ho ->. destruct Hi as [HL HM HA HN HB].
    pose proof (fun b => put_mod_rel i m m' b s (fun _ => 0) Hm Hr) as HR.
    assert (Hnew : forall j, (exists mj, t_mods (dat s) !! j = Some mj /\ t_run mj <> Fresh) \/ (j = i /\ t_run m' <> Fresh) <->
                   exists mj, (if decide (j = i) then Some m' else t_mods (dat s) !! j) = Some mj /\ t_run mj <> Fresh).
    { intros j. destruct (decide (j = i)) as [->|Hne].
      - split; [|intros (mj & E & H); injection E as ->; auto]. intros [(mj & E & H)|[_ H]]; [|eauto].
        rewrite Hm in E. injection E as <-. exists m'. split; [reflexivity|]. apply Hr, H.
      - split; [|eauto]. intros [H|[H _]]; [exact H|contradiction]. }
    constructor; simpl.
    - exact HL.
    - intros j mj Hj. pose proof (put_mod_lookup i m m' [] s j Hm) as E. simpl in E. rewrite E in Hj.
      destruct (decide (j = i)) as [->|Hne]; [injection Hj as <-; exact Ho|auto].
    - intros k l Hl. destruct (HA k l Hl) as [E Hv]. split; [exact E|]. intros Ho' v Hvv.
      eapply (value_ok_rel (fun _ => 0)); [|apply (Hv Ho' v Hvv)]. exact (proj1 (HR [])).
    - destruct (t_run m) eqn:E1; [|exact HN..]. destruct (t_run m') eqn:E2; [exact HN|..].
      all: apply NoDup_ListNoDup, NoDup_app; split; [apply NoDup_ListNoDup, HN|]; split; [|apply NoDup_singleton].
      all: intros x Hx Hx'; apply elem_of_list_singleton in Hx'; subst x; apply elem_of_list_In in Hx.
      all: apply HB in Hx; destruct Hx as (mj & Hj & Hf); rewrite Hm in Hj; congruence.
    - intros j. pose proof (put_mod_lookup i m m' [] s j Hm) as E. simpl in E. rewrite E, <- Hnew, <- HB.
      assert (Hold : t_run m <> Fresh -> In i (begun (dat s))) by (intros H; apply HB; eauto).
      destruct (t_run m) eqn:E1.
      + destruct (t_run m') eqn:E2; [split; [auto|intros [H|[-> H]]; [exact H|congruence]]|..];
          rewrite in_app_iff; simpl; split; (intros [H|H]; [left; exact H|right]).
        all: first [destruct H as [->|[]]; split; [reflexivity|congruence]|destruct H as [-> _]; auto].
      + split; [auto|]. intros [H|[-> _]]; [exact H|apply Hold; congruence].
      + split; [auto|]. intros [H|[-> _]]; [exact H|apply Hold; congruence].
  Qed.
  (** The thread [t] holds the lock of [i] if it changes what others must not see. *)
  Lemma put_mod_guar t i m m' b s : inv s -> t_mods (dat s) !! i = Some m ->
    (forall u, u <> t -> mrel (depth u i (lks s)) m m') -> mod_ok i m' (lks s !! lk i) ->
    b = (match t_run m, t_run m' with Fresh, Fresh => begun (dat s) | Fresh, _ => begun (dat s) ++ [i] | _, _ => begun (dat s) end) ->
    G t s (put_mod i m' b s).
  Proof.
    intros Hi Hm Hr Ho Hb u Hu _. specialize (Hr u Hu). split.
    - eapply put_mod_inv; eauto. eapply mrel_trans; [|apply mrel_refl|exact Hr]. lia.
    - split; [reflexivity|]. apply (put_mod_rel i m m' b s _ Hm Hr).
  Qed.
  (** A thread other than the holder of a lock does not hold it. *)
  Lemma depth_other t u i (k : locks) : 0 < depth t i k -> u <> t -> depth u i k = 0.
  Proof.
    unfold depth. intros H Hu. destruct (k !! lk i) as [[o n|os]|]; auto.
    destruct (Nat.eqb_spec o t) as [->|]; [|lia]. destruct (Nat.eqb_spec t u); [congruence|reflexivity].
  Qed.
  Lemma lk_inj i j : lk i = lk j -> i = j.
  Proof. unfold lk. lia. Qed.

  (** Acquiring. *)
  Lemma acq_spec t i s r s' : inv s -> exec t (Acq (lk i) Ex) s = (r, s') ->
    r = Block \/ (r = Good tt /\ dat s' = dat s /\ inv s' /\ G t s s' /\
                  depth t i (lks s') = S (depth t i (lks s)) /\
                  (forall j, j <> i -> depth t j (lks s') = depth t j (lks s)) /\
                  (depth t i (lks s) = 0 -> lks s !! lk i = None) /\
                  (exists n, lks s' !! lk i = Some (Excl t (S n)))).
  Proof.
    intros Hi He. simpl in He. unfold lock_acq in He. pose proof (i_locks s Hi i) as Hl.
    destruct Hi as [HL HM HA HN HB].
    assert (Hre : reent (lk i) = true).
    { unfold reent, lk. rewrite Nat.add_1_r, Nat.odd_succ. rewrite Nat.even_mul. reflexivity. }
    rewrite Hre in He.
    assert (Hgo : forall n, lks s !! lk i = None /\ n = 0 \/ lks s !! lk i = Some (Excl t n) /\ 1 <= n ->
      s' = mkst (dat s) (<[lk i := Excl t (S n)]> (lks s)) ->
      dat s' = dat s /\ inv s' /\ G t s s' /\
                  depth t i (lks s') = S (depth t i (lks s)) /\
                  (forall j, j <> i -> depth t j (lks s') = depth t j (lks s)) /\
                  (depth t i (lks s) = 0 -> lks s !! lk i = None) /\
                  (exists n, lks s' !! lk i = Some (Excl t (S n)))).
    { intros n Hn ->. simpl.
      assert (Hi' : inv (mkst (dat s) (<[lk i := Excl t (S n)]> (lks s)))).
      { constructor; simpl; auto.
        - intros j. destruct (decide (j = i)) as [->|Hne]; [rewrite lookup_insert; simpl; lia|].
          rewrite lookup_insert_ne by (intros E; apply lk_inj in E; congruence). apply HL.
        - intros j m Hm. destruct (decide (j = i)) as [->|Hne].
          + rewrite lookup_insert. destruct (HM i m Hm) as (ats & ds & H0 & H1 & H2 & H3).
            exists ats, ds. split; [exact H0|]. split; [exact H1|]. split; [exact H2|].
            destruct (t_run m) as [| |[]]; [exact H3| |exact H3|exact H3]. split; [apply H3|eauto].
          + rewrite lookup_insert_ne by (intros E; apply lk_inj in E; congruence). auto. }
      split; [reflexivity|]. split; [exact Hi'|]. split; [|split; [|split; [|split]]].
      - intros u Hu _. split; [exact Hi'|]. split; [|split; [|split; reflexivity]].
        + intros j. simpl. unfold depth. destruct (decide (j = i)) as [->|Hne].
          * rewrite lookup_insert. destruct (Nat.eqb_spec t u); [congruence|].
            destruct Hn as [[-> _]|[-> _]]; [reflexivity|]. destruct (Nat.eqb_spec t u); [congruence|reflexivity].
          * rewrite lookup_insert_ne by (intros E; apply lk_inj in E; congruence). reflexivity.
        + intros j m Hm. exists m. split; [exact Hm|apply mrel_refl].
      - unfold depth. rewrite lookup_insert, Nat.eqb_refl. destruct Hn as [[-> ->]|[-> _]]; [reflexivity|].
        rewrite Nat.eqb_refl. reflexivity.
      - intros j Hne. unfold depth. rewrite lookup_insert_ne by (intros E; apply lk_inj in E; congruence). reflexivity.
      - unfold depth. intros H. destruct Hn as [[Hn _]|[Hn H1]]; [exact Hn|]. rewrite Hn, Nat.eqb_refl in H. lia.
      - exists n. apply lookup_insert. }
    destruct (lks s !! lk i) as [[o n|os]|] eqn:El.
    - simpl in He. destruct (Nat.eqb_spec o t) as [->|Hne]; injection He as <- <-; [|left; reflexivity].
      right. split; [reflexivity|]. apply (Hgo n); [right; split; [reflexivity|exact Hl]|reflexivity].
    - destruct Hl.
    - injection He as <- <-. right. split; [reflexivity|]. apply (Hgo 0); auto.
  Qed.

  (** Releasing; the code of the module must not be running if this was the last one. *)
  Lemma rel_spec t i s d : inv s -> depth t i (lks s) = S d ->
    (d = 0 -> forall m, t_mods (dat s) !! i = Some m -> t_run m <> Running) ->
    exists s', exec t (Rel (lk i)) s = (Good tt, s') /\ dat s' = dat s /\ inv s' /\ G t s s' /\
      depth t i (lks s') = d /\ (forall j, j <> i -> depth t j (lks s') = depth t j (lks s)).
  Proof.
    intros Hi Hd Hrun. pose proof Hi as [HL HM HA HN HB].
    assert (Hl : lks s !! lk i = Some (Excl t (S d))).
    { unfold depth in Hd. destruct (lks s !! lk i) as [[o n|os]|]; try discriminate.
      destruct (Nat.eqb_spec o t); [congruence|discriminate]. }
    pose (k' := match d with O => delete (lk i) (lks s) | S _ => <[lk i := Excl t d]> (lks s) end).
    assert (Hk' : k' !! lk i = match d with O => None | S _ => Some (Excl t d) end).
    { unfold k'. destruct d; [apply lookup_delete|apply lookup_insert]. }
    assert (Hk'' : forall l, l <> lk i -> k' !! l = lks s !! l).
    { intros l Hne. unfold k'. destruct d; [apply lookup_delete_ne|apply lookup_insert_ne]; auto. }
    exists (mkst (dat s) k'). split.
    { simpl. unfold lock_rel. rewrite Hl. unfold k'. destruct d; reflexivity. }
    assert (Hi' : inv (mkst (dat s) k')).
    { constructor; simpl; auto.
      - intros j. destruct (decide (j = i)) as [->|Hne]; [rewrite Hk'; destruct d; simpl; [exact I|lia]|].
        rewrite Hk'' by (intros E; apply lk_inj in E; congruence). apply HL.
      - intros j m Hm. destruct (decide (j = i)) as [->|Hne].
        + destruct (HM i m Hm) as (ats & ds & H0 & H1 & H2 & H3).
          exists ats, ds. split; [exact H0|]. split; [exact H1|]. split; [exact H2|].
          destruct (t_run m) as [| |[]] eqn:Er; [exact H3| |exact H3|exact H3]. split; [apply H3|].
          rewrite Hk'. destruct d; [|eauto]. destruct (Hrun eq_refl m Hm Er).
        + rewrite Hk'' by (intros E; apply lk_inj in E; congruence). auto. }
    split; [reflexivity|]. split; [exact Hi'|]. split; [|split].
    - intros u Hu _. split; [exact Hi'|]. split; [|split; [|split; reflexivity]].
      + intros j. simpl. unfold depth. destruct (decide (j = i)) as [->|Hne].
        * rewrite Hk', Hl. destruct (Nat.eqb_spec t u); [congruence|]. destruct d; [reflexivity|].
          destruct (Nat.eqb_spec t u); [congruence|reflexivity].
        * rewrite Hk'' by (intros E; apply lk_inj in E; congruence). reflexivity.
      + intros j m Hm. exists m. split; [exact Hm|apply mrel_refl].
    - simpl. unfold depth. rewrite Hk'. destruct d; [reflexivity|]. rewrite Nat.eqb_refl. reflexivity.
    - intros j Hne. simpl. unfold depth. rewrite Hk'' by (intros E; apply lk_inj in E; congruence). reflexivity.
  Qed.
End Inv.
