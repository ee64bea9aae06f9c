(** * Stable: reasoning about threads by assertions that the other threads do not break

    [tri phi p Q]: when [phi] holds, whatever the other threads do between the commands of
    [p] (they only do [Rel]-steps and keep [I]), [p] keeps [I] and makes only [Rel]-steps,
    and [Q] holds of its result and the data when it ends.  Locks are ignored: what is
    proved this way holds without them. *)
From stdpp Require Import gmap.
From Coq Require Import List Bool Arith Lia.
From Verif Require Import Prog ProgFacts.
Import ListNotations.

(** Every primitive command of a program satisfies [P]. *)
Section Allops.
  Context {C : Type -> Type} (P : forall X, C X -> Prop).
  Fixpoint allops {A} (p : prog C A) : Prop :=
    match p with
    | Ret _ | Raise _ => True
    | Act c k h => match c with Op c => P _ c | _ => True end /\ (forall x, allops (k x)) /\ (forall e, allops (h e))
    end.
  Lemma allops_bind {A B} (p : prog C A) (f : A -> prog C B) : allops p -> (forall a, allops (f a)) -> allops (bind p f).
  Proof. intros Hp Hf. induction p as [a|e|X c k IHk h IHh]; simpl in *; [auto|auto|]. destruct Hp as (H1 & H2 & H3). auto. Qed.
  Lemma allops_op {X} (c : C X) : P X c -> allops (op c).
  Proof. intros H. simpl. auto. Qed.
  Lemma allops_finally {A} (p : prog C A) l : allops p -> allops (try_finally p (release l)).
  Proof. intros Hp. induction p as [a|e|X c k IHk h IHh]; simpl in *; [auto|auto|]. destruct Hp as (H1 & H2 & H3). auto. Qed.
  Lemma allops_with {A} (p : prog C A) l m : allops p -> allops (with_lock l m p).
  Proof. intros Hp. simpl. split; [exact Logic.I|]. split; [intros _; apply allops_finally, Hp|auto]. Qed.
End Allops.

Section Stable.
  Context {C : Type -> Type} {D : Type} `{!Sem C D}.
  Variable I : D -> Prop.
  Variable Rel : D -> D -> Prop.

  Definition stable (phi : D -> Prop) : Prop := forall d d', I d -> I d' -> Rel d d' -> phi d -> phi d'.

  Fixpoint tri {A} (phi : D -> Prop) (p : prog C A) (Q : outcome A -> D -> Prop) : Prop :=
    match p with
    | Ret a => forall d, I d -> phi d -> Q (Good a) d
    | Raise e => forall d, I d -> phi d -> Q (Fail e) d
    | Act c k h =>
        match c in cmd _ X return (X -> (D -> Prop) -> Prop) -> ((exn -> (D -> Prop) -> Prop)) -> Prop with
        | Acq _ _ | Prog.Rel _ => fun tk th => tk tt phi /\ forall e, th e phi
        | Op c => fun tk th =>
            (forall d r d', I d -> phi d -> cexec c d = (r, d') -> I d' /\ Rel d d') /\
            (forall x, exists psi, stable psi /\ (forall d d', I d -> phi d -> cexec c d = (Good x, d') -> psi d') /\ tk x psi) /\
            (forall e, exists psi, stable psi /\ (forall d d', I d -> phi d -> cexec c d = (Fail e, d') -> psi d') /\ th e psi)
        end (fun x psi => tri psi (k x) Q) (fun e psi => tri psi (h e) Q)
    end.

  Lemma tri_weaken {A} (p : prog C A) : forall (phi phi' : D -> Prop) (Q Q' : outcome A -> D -> Prop),
    tri phi p Q -> (forall d, I d -> phi' d -> phi d) -> (forall r d, I d -> Q r d -> Q' r d) -> tri phi' p Q'.
  Proof.
    induction p as [a|e|X c k IHk h IHh]; intros phi phi' Q Q' H H1 H2; simpl in *; [eauto|eauto|].
    destruct c as [l m|l|X c].
    - destruct H as [Ha Hb]. split; [eapply IHk; eauto|intros e; eapply IHh; eauto].
    - destruct H as [Ha Hb]. split; [eapply IHk; eauto|intros e; eapply IHh; eauto].
    - destruct H as (H & Hx & He). split; [|split].
      + intros d r d' Hd Hp. apply H; auto.
      + intros x. destruct (Hx x) as (psi & Hs & Hi & Ht). exists psi. split; [exact Hs|].
        split; [intros d d' Hd Hp; apply Hi; auto|]. eapply IHk; [exact Ht|auto|exact H2].
      + intros e. destruct (He e) as (psi & Hs & Hi & Ht). exists psi. split; [exact Hs|].
        split; [intros d d' Hd Hp; apply Hi; auto|]. eapply IHh; [exact Ht|auto|exact H2].
  Qed.

  Lemma tri_bind {A B} (p : prog C A) (f : A -> prog C B) : forall phi Q Q',
    tri phi p Q -> (forall a, tri (Q (Good a)) (f a) Q') -> (forall e d, I d -> Q (Fail e) d -> Q' (Fail e) d) ->
    tri phi (bind p f) Q'.
  Proof.
    induction p as [a|e|X c k IHk h IHh]; intros phi Q Q' H Hf He; simpl in *.
    - eapply tri_weaken; [apply Hf|exact H|auto].
    - intros d Hd Hp. apply He; auto.
    - destruct c as [l m|l|X c].
      + destruct H as [Ha Hb]. split; [eapply IHk; eauto|intros e; eapply IHh; eauto].
      + destruct H as [Ha Hb]. split; [eapply IHk; eauto|intros e; eapply IHh; eauto].
      + destruct H as (H & Hx & Hy). split; [exact H|split].
        * intros x. destruct (Hx x) as (psi & Hs & Hi & Ht). exists psi. split; [exact Hs|]. split; [exact Hi|]. eapply IHk; eauto.
        * intros e. destruct (Hy e) as (psi & Hs & Hi & Ht). exists psi. split; [exact Hs|]. split; [exact Hi|]. eapply IHh; eauto.
  Qed.

  (** A [Ret]/[Raise] needs a stable assertion: the data may change before it is looked at. *)
  Lemma tri_finally {A} (p : prog C A) l : forall phi Q, tri phi p Q -> tri phi (try_finally p (release l)) (fun r d => Q r d \/ exists e, r = Fail e).
  Proof.
    induction p as [a|e|X c k IHk h IHh]; intros phi Q H; simpl in *.
    - split; [intros d Hd Hp; left; apply H; auto|]. intros e d Hd Hp. right. eauto.
    - split; [intros d Hd Hp; left; apply H; auto|]. intros e' d Hd Hp. right. eauto.
    - destruct c as [l' m|l'|X c].
      + destruct H as [Ha Hb]. split; [apply IHk, Ha|intros e; apply IHh, Hb].
      + destruct H as [Ha Hb]. split; [apply IHk, Ha|intros e; apply IHh, Hb].
      + destruct H as (H & Hx & Hy). split; [exact H|split].
        * intros x. destruct (Hx x) as (psi & Hs & Hi & Ht). exists psi. split; [exact Hs|]. split; [exact Hi|]. apply IHk, Ht.
        * intros e. destruct (Hy e) as (psi & Hs & Hi & Ht). exists psi. split; [exact Hs|]. split; [exact Hi|]. apply IHh, Ht.
  Qed.
  Lemma tri_with {A} (p : prog C A) l m phi Q : tri phi p Q ->
    tri phi (with_lock l m p) (fun r d => Q r d \/ exists e, r = Fail e).
  Proof. intros H. split; [apply tri_finally, H|]. intros e d Hd Hp. right. eauto. Qed.

  Lemma tri_attempt {A} (p : prog C A) : forall phi Q, tri phi p Q ->
    tri phi (attempt p) (fun r d => exists r', r = Good r' /\ Q r' d).
  Proof.
    induction p as [a|e|X c k IHk h IHh]; intros phi Q H; simpl in *; [eauto|eauto|].
    destruct c as [l' m|l'|X c].
    + destruct H as [Ha Hb]. split; [apply IHk, Ha|intros e; apply IHh, Hb].
    + destruct H as [Ha Hb]. split; [apply IHk, Ha|intros e; apply IHh, Hb].
    + destruct H as (H & Hx & Hy). split; [exact H|split].
      * intros x. destruct (Hx x) as (psi & Hs & Hi & Ht). exists psi. split; [exact Hs|]. split; [exact Hi|]. apply IHk, Ht.
      * intros e. destruct (Hy e) as (psi & Hs & Hi & Ht). exists psi. split; [exact Hs|]. split; [exact Hi|]. apply IHh, Ht.
  Qed.

  (** One command; [Q] stable. *)
  Lemma tri_op {X} (c : C X) (phi : D -> Prop) (Q : outcome X -> D -> Prop) :
    (forall d r d', I d -> phi d -> cexec c d = (r, d') -> I d' /\ Rel d d' /\ Q r d') ->
    (forall r, stable (Q r)) -> tri phi (op c) Q.
  Proof.
    intros H Hs. simpl. split; [|split].
    - intros d r d' Hd Hp E. destruct (H d r d' Hd Hp E) as (H1 & H2 & _). auto.
    - intros x. exists (Q (Good x)). split; [apply Hs|]. split; [|auto].
      intros d d' Hd Hp E. apply (H d _ d' Hd Hp E).
    - intros e. exists (Q (Fail e)). split; [apply Hs|]. split; [|auto].
      intros d d' Hd Hp E. apply (H d _ d' Hd Hp E).
  Qed.

  (** Programs all of whose commands keep [I] and [Rel]. *)
  Lemma tri_allops {A} (p : prog C A) : 
    allops (fun X c => forall d r d', I d -> cexec c d = (r, d') -> I d' /\ Rel d d') p ->
    tri (fun _ => True) p (fun _ _ => True).
  Proof.
    induction p as [a|e|X c k IHk h IHh]; simpl; [auto|auto|]. intros (H1 & H2 & H3).
    destruct c as [l m|l|X c]; [split; auto|split; auto|].
    split; [intros d r d' Hd _; apply H1, Hd|]. split.
    - intros x. exists (fun _ => True). split; [intros d d' _ _ _ _; exact Logic.I|]. split; [auto|apply IHk, H2].
    - intros e. exists (fun _ => True). split; [intros d d' _ _ _ _; exact Logic.I|]. split; [auto|apply IHh, H3].
  Qed.

  (** A stable assertion is kept by everybody. *)
  Lemma tri_frame {A} (p : prog C A) : forall phi Q psi, stable psi -> tri phi p Q ->
    tri (fun d => phi d /\ psi d) p (fun r d => Q r d /\ psi d).
  Proof.
    induction p as [a|e|X c k IHk h IHh]; intros phi Q psi Hp H; simpl in *;
      [intros d Hd [H1 H2]; split; auto|intros d Hd [H1 H2]; split; auto|].
    destruct c as [l m|l|X c].
    - destruct H as [Ha Hb]. split; [apply IHk; auto|intros e; apply IHh; auto].
    - destruct H as [Ha Hb]. split; [apply IHk; auto|intros e; apply IHh; auto].
    - destruct H as (H & Hx & Hy). split; [intros d r d' Hd [H1 H2]; apply H; auto|split].
      + intros x. destruct (Hx x) as (ps & Hs & Hi & Ht). exists (fun d => ps d /\ psi d).
        split; [intros d d' Hd Hd' Hr [H1 H2]; split; [exact (Hs d d' Hd Hd' Hr H1)|exact (Hp d d' Hd Hd' Hr H2)]|].
        split; [|apply IHk; auto]. intros d d' Hd [H1 H2] E. split; [eapply Hi; eauto|].
        destruct (H d _ d' Hd H1 E) as [G1 G2]. exact (Hp d d' Hd G1 G2 H2).
      + intros e. destruct (Hy e) as (ps & Hs & Hi & Ht). exists (fun d => ps d /\ psi d).
        split; [intros d d' Hd Hd' Hr [H1 H2]; split; [exact (Hs d d' Hd Hd' Hr H1)|exact (Hp d d' Hd Hd' Hr H2)]|].
        split; [|apply IHh; auto]. intros d d' Hd [H1 H2] E. split; [eapply Hi; eauto|].
        destruct (H d _ d' Hd H1 E) as [G1 G2]. exact (Hp d d' Hd G1 G2 H2).
  Qed.

  (** Calls of a thread and their results. *)
  Context {K R : Type} (impl : K -> prog C R).
  Variable Post : K -> outcome R -> D -> Prop.
  Hypothesis Post_stable : forall c r, stable (Post c r).
  Hypothesis impl_tri : forall c, tri (fun _ => True) (impl c) (Post c).

  Lemma tri_thread cs : forall ds rs,
    tri (fun d => Forall2 (fun c r => Post c r d) (rev ds) (rev rs)) (thread_from rs (map impl cs))
        (fun r d => exists l, r = Good l /\ Forall2 (fun c r => Post c r d) (rev ds ++ cs) l).
  Proof.
    assert (Hst : forall ds rs, stable (fun d => Forall2 (fun c r => Post c r d) ds rs)).
    { intros ds rs d d' Hd Hd' Hr HF. eapply Forall2_impl; [exact HF|]. intros c r. apply Post_stable; auto. }
    induction cs as [|c cs IH]; intros ds rs; cbn [map thread_from].
    - intros d Hd HF. exists (rev rs). rewrite app_nil_r. auto.
    - eapply tri_bind.
      + eapply (tri_weaken _ _ _ _ _ (tri_frame _ _ _ _ (Hst (rev ds) (rev rs)) (tri_attempt _ _ _ (impl_tri c)))); auto.
        intros r d Hd H. exact H.
      + intros r. eapply tri_weaken; [apply (IH (c :: ds) (r :: rs))| |].
        * intros d Hd [(r' & E & HP) HF]. injection E as <-. simpl. apply Forall2_app; [exact HF|]. constructor; [exact HP|constructor].
        * intros r' d Hd (l & -> & HF). exists l. split; [reflexivity|]. simpl in HF. rewrite <- app_assoc in HF. exact HF.
      + intros e d Hd [(r' & E & _) _]. discriminate.
  Qed.

  (** The threads at any moment of an execution. *)
  Definition owed (cs : list K) (p : prog C (list (outcome R))) (d : D) : Prop :=
    exists phi, stable phi /\ phi d /\
      tri phi p (fun r d => exists l, r = Good l /\ Forall2 (fun c r => Post c r d) cs l).

  Hypothesis Rel_refl : forall d, Rel d d.
  Lemma exec_I {A} i (p : prog C A) s p' s' (phi : D -> Prop) Q :
    I (dat s) -> phi (dat s) -> stable phi -> tri phi p Q -> pstep i p s = Some (p', s') ->
    I (dat s') /\ Rel (dat s) (dat s') /\ exists psi, stable psi /\ psi (dat s') /\ tri psi p' Q.
  Proof.
    intros Hi Hp Hs Ht E. destruct p as [a|e|X c k h]; [discriminate|discriminate|]. simpl in Ht, E.
    destruct c as [l m|l|X c]; simpl in E.
    - destruct (lock_acq _ _ _ _ _) as [[[]|e|] lk]; try discriminate; injection E as <- <-; simpl; firstorder.
    - destruct (lock_rel _ _ _) as [[[]|e|] lk]; try discriminate; injection E as <- <-; simpl; firstorder.
    - destruct Ht as (H & Hx & Hy). destruct (cexec c (dat s)) as [r d'] eqn:Ec.
      destruct (H _ _ _ Hi Hp Ec) as [H1 H2].
      destruct r as [x|e|]; try discriminate; injection E as <- <-; simpl; (split; [exact H1|]; split; [exact H2|]).
      + destruct (Hx x) as (psi & G1 & G2 & G3). exists psi. eauto.
      + destruct (Hy e) as (psi & G1 & G2 & G3). exists psi. eauto.
  Qed.

  Lemma stable_sched sch : forall css ps s ps' s',
    I (dat s) -> Forall2 (fun cs p => owed cs p (dat s)) css ps ->
    sched_run sch (ps, s) = Some (ps', s') ->
    I (dat s') /\ rtc Rel (dat s) (dat s') /\ Forall2 (fun cs p => owed cs p (dat s')) css ps'.
  Proof.
    induction sch as [|i sch IH]; intros css ps s ps' s' Hi HF Hr; simpl in Hr.
    - injection Hr as <- <-. split; [exact Hi|]. split; [apply rtc_refl|exact HF].
    - unfold cstep in Hr. simpl in Hr. destruct (ps !! i) as [p|] eqn:Ep; [|discriminate].
      destruct (pstep i p s) as [[p1 s1]|] eqn:Es; [|discriminate].
      destruct (Forall2_lookup_r _ _ _ _ _ HF Ep) as (cs & Ec & phi & Hst & Hphi & Ht).
      destruct (exec_I i p s p1 s1 phi _ Hi Hphi Hst Ht Es) as (H1 & H2 & psi & G1 & G2 & G3).
      destruct (IH css (<[i:=p1]> ps) s1 ps' s' H1) as (J1 & J2 & J3).
      + apply Forall2_same_length_lookup. split; [rewrite insert_length; eapply Forall2_length, HF|].
        intros j cs' p' Hc Hp. destruct (decide (i = j)) as [<-|Hne].
        * rewrite Ec in Hc. injection Hc as <-.
          rewrite list_lookup_insert in Hp by (eapply lookup_lt_Some, Ep). injection Hp as <-.
          exists psi. auto.
        * rewrite list_lookup_insert_ne in Hp by exact Hne.
          destruct (Forall2_lookup_lr _ _ _ _ _ _ HF Hc Hp) as (ph & F1 & F2 & F3).
          exists ph. split; [exact F1|]. split; [eapply F1; eauto|exact F3].
      + exact Hr.
      + split; [exact J1|]. split; [eapply rtc_l; eauto|exact J3].
  Qed.

  Theorem stable_pool css sch d0 lk ps' s' :
    I d0 -> sched_run sch (map (fun cs => thread (map impl cs)) css, mkst d0 lk) = Some (ps', s') ->
    I (dat s') /\ rtc Rel d0 (dat s') /\
    forall i cs rs, css !! i = Some cs -> ps' !! i = Some (Ret rs) ->
      Forall2 (fun c r => Post c r (dat s')) cs rs.
  Proof.
    intros Hi Hr. unshelve epose proof (stable_sched sch css _ (mkst d0 lk) _ _ Hi _ Hr) as (H1 & H2 & H3).
    - apply Forall2_same_length_lookup. split; [symmetry; apply map_length|].
      intros j cs p Hc Hp. rewrite list_lookup_fmap, Hc in Hp. injection Hp as <-.
      exists (fun d => Forall2 (fun c r => Post c r d) (rev []) (rev [])). split; [|split].
      + intros d d' _ _ _ _. constructor.
      + constructor.
      + apply (tri_thread cs [] []).
    - split; [exact H1|]. split; [exact H2|]. intros i cs rs Hc Hp.
      destruct (Forall2_lookup_lr _ _ _ _ _ _ H3 Hc Hp) as (phi & F1 & F2 & F3). simpl in F3.
      destruct (F3 _ H1 F2) as (l & E & HF). injection E as <-. exact HF.
  Qed.
End Stable.
