(** * FlakyFacts: calls with exceptions from outside, in general *)
From stdpp Require Import gmap.
From Coq Require Import List Bool Arith Lia.
From Verif Require Import Prog ProgFacts Locks Flaky FlakySpec.
Import ListNotations.

(** ** Programs that give every exception on, after releasing the locks that they hold *)
Section Unwind.
  Context {C : Type -> Type}.
  Variable Q : list nat -> nat -> lmode -> Prop.

  Inductive unwound {A} (e : exn) (b : list nat) : list nat -> prog C A -> Prop :=
  | unw_raise : unwound e b b (Raise e)
  | unw_rel l hs k h : unwound e b hs (k tt) -> unwound e b (l :: hs) (Act (Rel l) k h).
  (** [uw b hs p]: while holding [hs], [p] acquires locks as [Q] allows, releases the
      innermost one, ends with [b], and after an exception of a command only releases the
      locks above [b] and raises the same exception. *)
  Inductive uw {A} (b : list nat) : list nat -> prog C A -> Prop :=
  | uw_ret a : uw b b (Ret a)
  | uw_raise e : uw b b (Raise e)
  | uw_op hs X (c : C X) k h : (forall x, uw b hs (k x)) -> (forall e, unwound e b hs (h e)) -> uw b hs (Act (Op c) k h)
  | uw_acq hs l m k h : Q hs l m -> uw b (l :: hs) (k tt) -> (forall e, unwound e b hs (h e)) -> uw b hs (Act (Acq l m) k h)
  | uw_rel hs l k h : uw b hs (k tt) -> uw b (l :: hs) (Act (Rel l) k h).

  Lemma unw_bind {A B} e b hs (p : prog C A) (f : A -> prog C B) : unwound e b hs p -> unwound e b hs (bind p f).
  Proof. induction 1; cbn [bind]; constructor; auto. Qed.
  Lemma unw_try {A} e b hs (p : prog C A) l : unwound e (l :: b) hs p -> unwound e b hs (try_finally p (release l)).
  Proof. induction 1; cbn [try_finally bind]; [unfold release; cbn [bind]|]; constructor; auto; constructor. Qed.
  Lemma uw_bind {A B} b hs (p : prog C A) (f : A -> prog C B) : uw b hs p -> (forall a, uw b b (f a)) -> uw b hs (bind p f).
  Proof. intros H Hf. induction H; cbn [bind]; auto; try (constructor; auto using unw_bind). Qed.
  Lemma uw_one {X} b (c : C X) : uw b b (op c).
  Proof. constructor; intros; constructor. Qed.
  Lemma uw_try {A} b hs (p : prog C A) l : uw (l :: b) hs p -> uw b hs (try_finally p (release l)).
  Proof.
    induction 1; cbn [try_finally]; try (unfold release; cbn [bind]; repeat constructor; fail).
    - constructor; [auto|]. intros e. apply unw_try. auto.
    - constructor; [auto|auto|]. intros e. apply unw_try. auto.
    - constructor. auto.
  Qed.
  Lemma uw_with {A} b l m (p : prog C A) : Q b l m -> uw (l :: b) (l :: b) p -> uw b b (with_lock l m p).
  Proof. intros Hq H. constructor; [exact Hq| |intros; constructor]. apply uw_try, H. Qed.
End Unwind.
Definition anyq (hs : list nat) (l : nat) (m : lmode) : Prop := True.
Lemma uw_any {C A} Q b hs (p : prog C A) : uw Q b hs p -> uw anyq b hs p.
Proof. induction 1; constructor; auto. exact I. Qed.

(** ** The locks *)
Lemma wlk_unwound {C A} e b hs (p : prog C A) : unwound e b hs p -> wlk b hs (flaky p).
Proof. induction 1; cbn; constructor; auto. Qed.
Lemma wlk_flaky {C A} b hs (p : prog C A) : uw may_acq b hs p -> wlk b hs (flaky p).
Proof.
  induction 1; cbn [flaky may_fail lift_cmd]; try (constructor; auto; fail).
  - constructor; [intros _|intros e; eapply wlk_unwound; eauto]. constructor; [auto|]. intros e. eapply wlk_unwound; eauto.
  - constructor; [intros _|intros e; eapply wlk_unwound; eauto]. constructor; auto.
Qed.
Lemma wlk_flaky_call {C A} b (p : prog C A) : uw may_acq b b p -> wlk b b (flaky_call p).
Proof. intros H. apply wlk_bind; [apply wlk_flaky, H|]. intros a. constructor; intros; constructor. Qed.
Lemma flexec_nb {C D} `{!Sem C D} : (forall X (c : C X) d, fst (cexec c d) <> Block) -> forall X (c : fl C X) w, fst (cexec c w) <> Block.
Proof.
  intros H X c w. destruct c as [X c|]; cbn.
  - specialize (H X c (fst w)). destruct (cexec c (fst w)) as [r d]. exact H.
  - destruct (snd w) as [|[e|] fs]; discriminate.
Qed.

(** ** One call *)
Lemma wfk_empty : wfk ∅. Proof. intros l. rewrite lookup_empty. exact I. Qed.
Lemma acq_rel t l m k k' : wfk k -> lock_acq (reent l) t l m k = (Good tt, k') -> wfk k' /\ lock_rel t l k' = (Good tt, k).
Proof.
  intros Hw. unfold lock_acq, lock_rel. pose proof (Hw l) as Hl.
  assert (Hins : forall x, match x with Excl _ 0 | Shared [] => False | _ => True end -> wfk (<[l := x]> k)).
  { intros x Hx l'. destruct (decide (l = l')) as [<-|Hne]; [rewrite lookup_insert; exact Hx|rewrite lookup_insert_ne by exact Hne; apply Hw]. }
  destruct (k !! l) as [[o n|os]|] eqn:Hk, m.
  - destruct (reent l && (o =? t)); [|discriminate]. intros [= <-]. split; [apply Hins; exact I|]. rewrite lookup_insert.
    destruct n as [|n]; [destruct Hl|]. f_equal. rewrite insert_insert. apply insert_id, Hk.
  - discriminate.
  - discriminate.
  - intros [= <-]. split; [apply Hins; exact I|]. rewrite lookup_insert. cbn [remove1]. rewrite Nat.eqb_refl.
    destruct os as [|o os]; [destruct Hl|]. f_equal. rewrite insert_insert. apply insert_id, Hk.
  - intros [= <-]. split; [apply Hins; exact I|]. rewrite lookup_insert. f_equal. apply delete_insert, Hk.
  - intros [= <-]. split; [apply Hins; exact I|]. rewrite lookup_insert. cbn [remove1]. rewrite Nat.eqb_refl. f_equal. apply delete_insert, Hk.
Qed.

(** [back t hs k k0]: releasing [hs] leads from [k] to [k0]. *)
Fixpoint back (t : nat) (hs : list nat) (k k0 : locks) : Prop :=
  match hs with
  | [] => k = k0
  | l :: hs => exists k', wfk k' /\ lock_rel t l k = (Good tt, k') /\ back t hs k' k0
  end.

Section Run.
  Context {C : Type -> Type} {D : Type} `{!Sem C D}.

  Lemma run_unwound {A} e hs (p : prog C A) : unwound e [] hs p -> forall t d fs k k0, back t hs k k0 ->
    run t (flaky p) (mkst (d, fs) k) = (Fail e, mkst (d, fs) k0).
  Proof.
    induction 1 as [|l hs k h Hk IH]; intros t d fs k1 k0 Hb; cbn [flaky may_fail run lift_cmd exec lks dat].
    - cbn in Hb. subst. reflexivity.
    - destruct Hb as (k' & Hw & Hr & Hb). rewrite Hr. apply IH, Hb.
  Qed.

  Lemma run_flaky {A} hs (p : prog C A) : uw anyq [] hs p -> forall t d fs k k0, wfk k -> back t hs k k0 ->
    cut t p d k k0 fs (fst (run t (flaky p) (mkst (d, fs) k))) (snd (run t (flaky p) (mkst (d, fs) k))).
  Proof.
    assert (Hchk : forall B (q : prog (fl C) B) hdl t d fs k0 (P : outcome B -> st (D * faults) -> Prop),
      (forall fs', fs = None :: fs' \/ fs = [] /\ fs' = [] -> P (fst (run t q (mkst (d, fs') k0))) (snd (run t q (mkst (d, fs') k0)))) ->
      (forall e fs', fs = Some e :: fs' -> P (fst (run t (hdl e) (mkst (d, fs') k0))) (snd (run t (hdl e) (mkst (d, fs') k0)))) ->
      P (fst (run t (Act (Op Chk) (fun _ => q) hdl) (mkst (d, fs) k0))) (snd (run t (Act (Op Chk) (fun _ => q) hdl) (mkst (d, fs) k0)))).
    { intros B q hdl t d fs k0 P H1 H2. cbn [run exec cexec flsem flexec dat snd fst lks]. destruct fs as [|[e|] fs]; cbn [snd fst]; auto. }
    assert (Hpre : forall A t (p q : prog C A) d d' k k' k0 fs fs' r s', (fs = None :: fs' \/ fs = [] /\ fs' = []) ->
      run t p (mkst d k) = run t q (mkst d' k') -> (forall j, prefix_run t (S j) p (mkst d k) = prefix_run t j q (mkst d' k')) ->
      cut t q d' k' k0 fs' r s' -> cut t p d k k0 fs r s').
    { intros A0 t p0 q d d' k k' k0 fs fs' r s' Hfs Hrun Hpr (pre & He & Hc). destruct Hfs as [->|[-> ->]].
      - exists (None :: pre). split; [rewrite He; reflexivity|]. destruct Hc as [[H1 H2]|(pre0 & e & j & -> & H1 & H2 & H3 & H4)].
        + left. split; [constructor; auto|]. rewrite Hrun. exact H2.
        + right. exists (None :: pre0), e, (S j). split; [reflexivity|]. split; [constructor; auto|]. rewrite Hpr. auto.
      - exists pre. split; [exact He|]. destruct Hc as [[H1 H2]|(pre0 & e & j & -> & H1 & H2 & H3 & H4)].
        + left. split; [exact H1|]. rewrite Hrun. exact H2.
        + right. exists pre0, e, (S j). split; [reflexivity|]. rewrite Hpr. auto. }
    assert (Hhit : forall A t e hs (p q : prog C A) d k k0 fs', unwound e [] hs q -> back t hs k k0 ->
      cut t p d k k0 (Some e :: fs') (fst (run t (flaky q) (mkst (d, fs') k))) (snd (run t (flaky q) (mkst (d, fs') k)))).
    { intros A0 t e hs0 p0 q d k k0 fs' Hu Hb. rewrite (run_unwound e hs0 q Hu t d fs' k k0 Hb). cbn [fst snd]. exists [Some e]. split; [reflexivity|].
      right. exists [], e, 0. repeat split. constructor. }
    induction 1 as [a|e|hs X c kk h Hk IHk Hh|hs l m kk h HQ Hk IHk Hh|hs l kk h Hk IHk]; intros t d fs k k0 Hw Hb.
    - cbn. exists []. split; [reflexivity|]. left. split; [constructor|reflexivity].
    - cbn. exists []. split; [reflexivity|]. left. split; [constructor|reflexivity].
    - cbn [flaky may_fail lift_cmd]. apply Hchk.
      + intros fs' Hfs. cbn [run exec cexec flsem flexec dat lks fst snd].
        destruct (cexec c d) as [[x|e|] d'] eqn:Hc; cbn [fst snd].
        * eapply Hpre; [exact Hfs| | |apply IHk; eauto]; [cbn [run exec]|intros j; cbn [prefix_run pstep exec]]; cbn [dat lks]; rewrite Hc; reflexivity.
        * rewrite (run_unwound e hs (h e) (Hh e) t d' fs' k k0 Hb). cbn [fst snd].
          exists (match fs with [] => [] | _ => [None] end). split; [destruct Hfs as [->|[-> ->]]; reflexivity|]. left. split; [destruct fs; repeat constructor|].
          cbn [run exec dat lks]. rewrite Hc. cbn [fst snd dat lks]. clear -Hh Hb. specialize (Hh e). revert k Hb.
          induction Hh as [|l hs k1 h1 Hk1 IH]; intros k Hb; cbn [run exec lks dat]; [cbn in Hb; subst; reflexivity|].
          destruct Hb as (k' & Hw & Hr & Hb). rewrite Hr. apply IH, Hb.
        * exists (match fs with [] => [] | _ => [None] end). split; [destruct Hfs as [->|[-> ->]]; reflexivity|]. left. split; [destruct fs; repeat constructor|].
          cbn [run exec dat lks]. rewrite Hc. reflexivity.
      + intros e fs' ->. eapply Hhit; eauto.
    - cbn [flaky may_fail lift_cmd]. apply Hchk.
      + intros fs' Hfs. cbn [run exec dat lks fst snd].
        destruct (lock_acq (reent l) t l m k) as [[[]|e|] k'] eqn:Ha; cbn [fst snd].
        * destruct (acq_rel t l m k k' Hw Ha) as [Hw' Hr].
          eapply Hpre; [exact Hfs| | |apply IHk; [exact Hw'|exists k; eauto]]; [cbn [run exec]|intros j; cbn [prefix_run pstep exec]]; cbn [dat lks]; rewrite Ha; reflexivity.
        * exfalso. unfold lock_acq in Ha. destruct (k !! l) as [[o n|os]|], m; try discriminate. destruct (_ && _); discriminate.
        * exists (match fs with [] => [] | _ => [None] end). split; [destruct Hfs as [->|[-> ->]]; reflexivity|]. left. split; [destruct fs; repeat constructor|].
          cbn [run exec dat lks]. rewrite Ha. reflexivity.
      + intros e fs' ->. eapply Hhit; eauto.
    - destruct Hb as (k' & Hw' & Hr & Hb). cbn [flaky may_fail lift_cmd run exec dat lks]. rewrite Hr.
      destruct (IHk t d fs k' k0 Hw' Hb) as (pre & He & Hc). exists pre. split; [exact He|].
      destruct Hc as [[H1 H2]|(pre0 & e & j & -> & H1 & H2 & H3 & H4)].
      + left. split; [exact H1|]. cbn [run exec dat lks]. rewrite Hr. exact H2.
      + right. exists pre0, e, (S j). split; [reflexivity|]. cbn [prefix_run pstep exec dat lks]. rewrite Hr. auto.
  Qed.

  Lemma prefix_end {A} t (p : prog C A) : forall s a s', run t p s = (Good a, s') -> exists j, prefix_run t j p s = s'.
  Proof.
    induction p as [a|e|X c k IHk h IHh]; intros s a0 s' H; cbn [run] in H.
    - injection H as _ <-. exists 0. reflexivity.
    - discriminate.
    - destruct (exec t c s) as [[x|e|] s1] eqn:He; [|  |discriminate].
      + destruct (IHk x s1 a0 s' H) as [j Hj]. exists (S j). cbn [prefix_run pstep]. rewrite He. exact Hj.
      + destruct (IHh e s1 a0 s' H) as [j Hj]. exists (S j). cbn [prefix_run pstep]. rewrite He. exact Hj.
  Qed.
  Lemma run_back {A} hs (p : prog C A) : uw anyq [] hs p -> forall t d k k0 a s', wfk k -> back t hs k k0 -> run t p (mkst d k) = (Good a, s') -> lks s' = k0.
  Proof.
    assert (Hunw : forall A e hs (p : prog C A), unwound e [] hs p -> forall t d k k0, back t hs k k0 -> run t p (mkst d k) = (Fail e, mkst d k0)).
    { intros A0 e hs0 p0. induction 1 as [|l hs1 k h Hk IH]; intros t d k1 k0 Hb; cbn [run exec lks dat]; [cbn in Hb; subst; reflexivity|].
      destruct Hb as (k' & Hw & Hr & Hb). rewrite Hr. apply IH, Hb. }
    induction 1 as [a|e|hs X c kk h Hk IHk Hh|hs l m kk h HQ Hk IHk Hh|hs l kk h Hk IHk]; intros t d k k0 a0 s' Hw Hb H; cbn [run exec dat lks] in H.
    - injection H as _ <-. exact Hb.
    - discriminate.
    - destruct (cexec c d) as [[x|e|] d'] eqn:Hc; [eapply IHk; eauto| |discriminate]. rewrite (Hunw _ e hs (h e) (Hh e) t d' k k0 Hb) in H. discriminate.
    - destruct (lock_acq (reent l) t l m k) as [[[]|e|] k'] eqn:Ha; [| |discriminate].
      + destruct (acq_rel t l m k k' Hw Ha) as [Hw' Hr]. eapply (IHk t d k' k0); [exact Hw'|exists k; eauto|exact H].
      + rewrite (Hunw _ e hs (h e) (Hh e) t d k' k0) in H; [discriminate|]. unfold lock_acq in Ha. destruct (k !! l) as [[o n|os]|], m; try discriminate. destruct (_ && _); discriminate.
    - destruct Hb as (k' & Hw' & Hr & Hb). rewrite Hr in H. eapply IHk; eauto.
  Qed.
  Lemma run_flaky_call {A} (p : prog C A) t d fs k : uw anyq [] [] p -> wfk k ->
    cut t p d k k fs (fst (run t (flaky_call p) (mkst (d, fs) k))) (snd (run t (flaky_call p) (mkst (d, fs) k))).
  Proof.
    intros Hu Hw. unfold flaky_call. rewrite run_bind. pose proof (run_flaky [] p Hu t d fs k k Hw eq_refl) as Hc.
    destruct (run t (flaky p) (mkst (d, fs) k)) as [[a|e|] [[d' fs'] k']]; cbn [fst snd] in Hc |- *; try exact Hc.
    cbn [run bind op exec cexec flsem flexec dat snd fst lks]. destruct Hc as (pre & He & Hc). cbn [fst snd dat lks] in He, Hc.
    destruct Hc as [[H1 H2]|(pre0 & e & j & -> & H1 & H2 & H3 & H4)]; [|discriminate].
    destruct fs' as [|[e|] fs']; cbn [fst snd run].
    - exists pre. split; [exact He|]. left. auto.
    - exists (pre ++ [Some e]). split; [rewrite <- app_assoc; exact He|]. right. destruct (prefix_end t p _ _ _ H2) as [j Hj].
      exists pre, e, j. split; [reflexivity|]. split; [exact H1|]. split; [reflexivity|]. cbn [lks dat fst]. rewrite Hj. split; [|reflexivity].
      apply (run_back [] p Hu t d k k a _ Hw eq_refl H2).
    - exists (pre ++ [None]). split; [rewrite <- app_assoc; exact He|]. left. split; [apply List.Forall_app; auto|exact H2].
  Qed.
  (** Every point of a call can be hit. *)
  Lemma unw_run {A} e hs (p : prog C A) : unwound e [] hs p -> forall t d k k0, back t hs k k0 -> run t p (mkst d k) = (Fail e, mkst d k0).
  Proof.
    induction 1 as [|l hs k h Hk IH]; intros t d k1 k0 Hb; cbn [run exec lks dat]; [cbn in Hb; subst; reflexivity|].
    destruct Hb as (k' & Hw & Hr & Hb). rewrite Hr. apply IH, Hb.
  Qed.
  Lemma hit {A} hs (p : prog C A) : uw anyq [] hs p -> forall t d k k0 j e a s1, wfk k -> back t hs k k0 -> run t p (mkst d k) = (Good a, s1) ->
    exists n, let o := run t (flaky p) (mkst (d, repeat None n ++ [Some e]) k) in
      o = (Fail e, mkst (dat (prefix_run t j p (mkst d k)), []) k0) \/
      (o = (Good a, mkst (dat s1, [Some e]) (lks s1)) /\ dat (prefix_run t j p (mkst d k)) = dat s1).
  Proof.
    induction 1 as [a|e|hs X c kk h Hk IHk Hh|hs l m kk h HQ Hk IHk Hh|hs l kk h Hk IHk]; intros t d k k0 j ex a0 s1 Hw Hb H; cbn [run exec dat lks] in H.
    - injection H as <- <-. exists 0. right. destruct j; auto.
    - discriminate.
    - destruct j as [|j].
      + exists 0. left. cbn [flaky may_fail lift_cmd run exec cexec flsem flexec dat snd fst lks repeat app].
        rewrite (run_unwound ex hs (h ex) (Hh ex) t d [] k k0 Hb). reflexivity.
      + destruct (cexec c d) as [[x|e|] d'] eqn:Hc; [| |discriminate].
        * destruct (IHk x t d' k k0 j ex a0 s1 Hw Hb H) as [n Hn]. exists (S n). revert Hn.
          cbn [flaky may_fail lift_cmd run exec cexec flsem flexec dat snd fst lks repeat app prefix_run pstep]. rewrite Hc. auto.
        * rewrite (unw_run e hs (h e) (Hh e) t d' k k0 Hb) in H. discriminate.
    - destruct j as [|j].
      + exists 0. left. cbn [flaky may_fail lift_cmd run exec cexec flsem flexec dat snd fst lks repeat app].
        rewrite (run_unwound ex hs (h ex) (Hh ex) t d [] k k0 Hb). reflexivity.
      + destruct (lock_acq (reent l) t l m k) as [[[]|e|] k'] eqn:Ha; [| |discriminate].
        * destruct (acq_rel t l m k k' Hw Ha) as [Hw' Hr].
          destruct (IHk t d k' k0 j ex a0 s1 Hw' (ex_intro _ k (conj Hw (conj Hr Hb))) H) as [n Hn]. exists (S n). revert Hn.
          cbn [flaky may_fail lift_cmd run exec cexec flsem flexec dat snd fst lks repeat app prefix_run pstep]. rewrite Ha. auto.
        * exfalso. unfold lock_acq in Ha. destruct (k !! l) as [[o n|os]|], m; try discriminate. destruct (_ && _); discriminate.
    - destruct Hb as (k' & Hw' & Hr & Hb). rewrite Hr in H.
      destruct (IHk t d k' k0 (Nat.pred j) ex a0 s1 Hw' Hb H) as [n Hn]. exists n. revert Hn.
      cbn [flaky may_fail lift_cmd run exec dat lks]. rewrite Hr.
      assert (E : dat (prefix_run t j (Act (Rel l) kk h) (mkst d k)) = dat (prefix_run t (Nat.pred j) (kk tt) (mkst d k'))).
      { destruct j as [|j]; [reflexivity|]. cbn [prefix_run pstep exec dat lks]. rewrite Hr. reflexivity. }
      rewrite E. auto.
  Qed.
  Lemma hit_call {A} (p : prog C A) t d k j e a s1 : uw anyq [] [] p -> wfk k -> run t p (mkst d k) = (Good a, s1) ->
    exists n, run t (flaky_call p) (mkst (d, repeat None n ++ [Some e]) k) = (Fail e, mkst (dat (prefix_run t j p (mkst d k)), []) k).
  Proof.
    intros Hu Hw H. destruct (hit [] p Hu t d k k j e a s1 Hw eq_refl H) as [n Hn]. exists n. unfold flaky_call. rewrite run_bind.
    destruct Hn as [->|[-> ->]]; [reflexivity|]. cbn [run bind op exec cexec flsem flexec dat snd fst lks].
    rewrite (run_back [] p Hu t d k k a s1 Hw eq_refl H). reflexivity.
  Qed.
  (** The data at the end is one that occurs on the way. *)
  Lemma prefix_final {A} t (p : prog C A) : forall s r s', run t p s = (r, s') -> r <> Block -> exists j, prefix_run t j p s = s'.
  Proof.
    induction p as [a|e|X c k IHk h IHh]; intros s r s' H Hr; cbn [run] in H.
    - injection H as _ <-. exists 0. reflexivity.
    - injection H as _ <-. exists 0. reflexivity.
    - destruct (exec t c s) as [[x|e|] s1] eqn:He; [| |injection H as <- _; destruct (Hr eq_refl)].
      + destruct (IHk x s1 r s' H Hr) as [j Hj]. exists (S j). cbn [prefix_run pstep]. rewrite He. exact Hj.
      + destruct (IHh e s1 r s' H Hr) as [j Hj]. exists (S j). cbn [prefix_run pstep]. rewrite He. exact Hj.
  Qed.
  Lemma cut_prefix {A} t (p : prog C A) d k fs r s' : cut t p d k k fs r s' -> r <> Block -> exists j, fst (dat s') = dat (prefix_run t j p (mkst d k)).
  Proof.
    intros (pre & _ & [[_ H]|(pre0 & e & j & _ & _ & _ & _ & H)]) Hr; [|eauto].
    destruct (prefix_final t p _ _ _ H Hr) as [j Hj]. exists j. rewrite Hj. reflexivity.
  Qed.
  Lemma pool_flaky {A} (css : list (list (prog C A))) : Forall (Forall (uw may_acq [] [])) css -> Forall (wlk [] []) (fl_pool css).
  Proof.
    intros H. unfold fl_pool. apply List.Forall_map. eapply List.Forall_impl; [|exact H]. intros cs Hcs. cbv beta.
    apply wlk_thread, List.Forall_map. eapply List.Forall_impl; [|exact Hcs]. intros p Hp. apply wlk_flaky_call, Hp.
  Qed.
  Lemma no_deadlock {A} (css : list (list (prog C A))) d sch ps' s' : (forall X (c : C X) d, fst (cexec c d) <> Block) ->
    Forall (Forall (uw may_acq [] [])) css -> sched_run sch (fl_pool css, mkst d ∅) = Some (ps', s') ->
    (Forall (fun p => finished p = true) ps' /\ lks s' = ∅) \/ exists i c', cstep i (ps', s') = Some c'.
  Proof. intros Hnb H. apply lock_progress; [apply flexec_nb, Hnb|]. apply pool_flaky, H. Qed.
End Run.
