(** * ReentConc: sections of a re-entrant lock, for the reduction theorem of Conc.v *)
From stdpp Require Import gmap.
From Coq Require Import List Bool Arith Lia.
From Verif Require Import Prog ProgFacts Conc.
Import ListNotations.
Local Open Scope nat_scope.
Local Open Scope prog_scope.

Definition fin {C A} (r : outcome A) : prog C A :=
  match r with Good a => Ret a | Fail e => Raise e | Block => Raise OutOfFuel end.

Section Hold.
  Context {C : Type -> Type} {D : Type} `{!Sem C D}.
  Variables (L : nat) (St : D -> bool) (Inv : D -> Prop).
  Hypothesis Inv_St : forall d, Inv d -> St d = true.
  Notation free := (stdpp.base.empty : locks).

  (** Steps of thread [t] during which the lock [L] is held and [St] holds. *)
  Inductive hsteps {A} (t : nat) : prog C A -> st D -> prog C A -> st D -> Prop :=
  | h_refl p s : hsteps t p s p s
  | h_step p s p1 s1 p' s' :
      pstep t p s = Some (p1, s1) -> St (dat s1) = true -> lks s1 !! L <> None ->
      hsteps t p1 s1 p' s' -> hsteps t p s p' s'.

  Lemma hsteps_trans {A} t (p : prog C A) s p1 s1 p' s' :
    hsteps t p s p1 s1 -> hsteps t p1 s1 p' s' -> hsteps t p s p' s'.
  Proof. induction 1; [auto|]. intros Hx. eapply h_step; eauto. Qed.

  Lemma pstep_bind {A B} t (p : prog C A) (f : A -> prog C B) s p1 s1 :
    pstep t p s = Some (p1, s1) -> pstep t (bind p f) s = Some (bind p1 f, s1).
  Proof.
    destruct p as [a|e|X c k h]; simpl; try discriminate.
    destruct (exec t c s) as [[x|e|] s']; try discriminate; intros H; injection H as <- <-; reflexivity.
  Qed.
  Lemma pstep_try {A} t (p : prog C A) q s p1 s1 :
    pstep t p s = Some (p1, s1) -> pstep t (try_finally p q) s = Some (try_finally p1 q, s1).
  Proof.
    destruct p as [a|e|X c k h]; simpl; try discriminate.
    destruct (exec t c s) as [[x|e|] s']; try discriminate; intros H; injection H as <- <-; reflexivity.
  Qed.
  Lemma hsteps_bind {A B} t (p : prog C A) (f : A -> prog C B) s p' s' :
    hsteps t p s p' s' -> hsteps t (bind p f) s (bind p' f) s'.
  Proof. induction 1; [constructor|]. eapply h_step; eauto using pstep_bind. Qed.
  Lemma hsteps_try {A} t (p : prog C A) q s p' s' :
    hsteps t p s p' s' -> hsteps t (try_finally p q) s (try_finally p' q) s'.
  Proof. induction 1; [constructor|]. eapply h_step; eauto using pstep_try. Qed.

  Lemma hsteps_sec {A} t (p : prog C A) s p' s' :
    hsteps t p s p' s' -> sec L St t p s = sec L St t p' s'.
  Proof.
    induction 1 as [|p s p1 s1 p' s' H1 H2 H3 H4 IH]; [reflexivity|]. rewrite <- IH.
    destruct p as [a|e|X c k h]; simpl in *; try discriminate.
    destruct (exec t c s) as [[x|e|] s2]; try discriminate; injection H1 as -> ->;
      rewrite H2; destruct (lks s1 !! L); congruence.
  Qed.
  Lemma hsteps_run {A} t (p : prog C A) s p' s' :
    hsteps t p s p' s' -> run t p s = run t p' s'.
  Proof.
    induction 1 as [|p s p1 s1 p' s' H1 H2 H3 H4 IH]; [reflexivity|]. rewrite <- IH.
    destruct p as [a|e|X c k h]; simpl in *; try discriminate.
    destruct (exec t c s) as [[x|e|] s2]; try discriminate; injection H1 as -> ->; reflexivity.
  Qed.

  (** A program that, with [L] held and the locks [ls] free, runs to its end, keeps the
      invariant and leaves the locks as they were. *)
  Definition good {A} (ls : list nat) (p : prog C A) : Prop :=
    forall t d k n, k !! L = Some (Excl t (S n)) -> (forall l, In l ls -> k !! l = None) -> Inv d ->
    exists r d', r <> Block /\ Inv d' /\ hsteps t p (mkst d k) (fin r) (mkst d' k).

  Lemma good_ret {A} ls (a : A) : good ls (Ret a).
  Proof. intros t d k n Hk Hl Hd. exists (Good a), d. split; [discriminate|]. split; [exact Hd|constructor]. Qed.
  Lemma good_raise {A} ls e : good ls (Raise e : prog C A).
  Proof. intros t d k n Hk Hl Hd. exists (Fail e), d. split; [discriminate|]. split; [exact Hd|constructor]. Qed.
  Lemma good_op {X} ls (c : C X) :
    (forall d, Inv d -> fst (cexec c d) <> Block /\ Inv (snd (cexec c d))) -> good ls (op c).
  Proof.
    intros H t d k n Hk Hl Hd. destruct (H d Hd) as [Hb Hi].
    destruct (cexec c d) as [r d'] eqn:E. simpl in *. exists r, d'. split; [exact Hb|]. split; [exact Hi|].
    destruct r as [x|e|]; [| |congruence];
      (eapply h_step; [simpl; rewrite E; reflexivity|simpl; apply Inv_St, Hi|simpl; rewrite Hk; discriminate|constructor]).
  Qed.
  Lemma good_bind {A B} ls (p : prog C A) (f : A -> prog C B) :
    good ls p -> (forall a, good ls (f a)) -> good ls (bind p f).
  Proof.
    intros Hp Hf t d k n Hk Hl Hd. destruct (Hp t d k n Hk Hl Hd) as (r & d1 & Hb & Hi & Hs).
    destruct r as [a|e|]; [| |congruence].
    - destruct (Hf a t d1 k n Hk Hl Hi) as (r & d2 & Hb2 & Hi2 & Hs2). exists r, d2.
      split; [exact Hb2|]. split; [exact Hi2|]. eapply hsteps_trans; [apply hsteps_bind, Hs|exact Hs2].
    - exists (Fail e), d1. split; [discriminate|]. split; [exact Hi|]. apply (hsteps_bind t p f _ _ _ Hs).
  Qed.

  (** [L] again. *)
  Lemma good_again {A} ls (p : prog C A) : reent L = true -> ~ In L ls -> good ls p -> good ls (with_lock L Ex p).
  Proof.
    intros HL HLs Hp t d k n Hk Hl Hd.
    destruct (Hp t d (<[L := Excl t (S (S n))]> k) (S n)) as (r & d1 & Hb & Hi & Hs).
    { apply lookup_insert. }
    { intros l Hin. rewrite lookup_insert_ne; [auto|]. intros <-. contradiction. }
    { exact Hd. }
    exists r, d1. split; [exact Hb|]. split; [exact Hi|].
    eapply h_step.
    - simpl. unfold lock_acq. rewrite Hk, HL, Nat.eqb_refl. simpl. reflexivity.
    - simpl. apply Inv_St, Hd.
    - simpl. rewrite lookup_insert. discriminate.
    - eapply hsteps_trans; [apply hsteps_try, Hs|].
      destruct r as [a|e|]; [| |congruence];
        (eapply h_step; [simpl; unfold lock_rel; simpl; rewrite lookup_insert; reflexivity
                        |simpl; apply Inv_St, Hi
                        |simpl; rewrite lookup_insert; discriminate
                        |simpl; rewrite insert_insert, (insert_id k L _ Hk); constructor]).
  Qed.
  (** Another lock. *)
  Lemma good_other {A} ls l (p : prog C A) : l <> L -> ~ In l ls -> good ls p -> good (l :: ls) (with_lock l Ex p).
  Proof.
    intros HL HLs Hp t d k n Hk Hl Hd.
    destruct (Hp t d (<[l := Excl t 1]> k) n) as (r & d1 & Hb & Hi & Hs).
    { rewrite lookup_insert_ne by auto. exact Hk. }
    { intros l' Hin. rewrite lookup_insert_ne; [apply Hl; right; exact Hin|]. intros <-. contradiction. }
    { exact Hd. }
    assert (Hn : k !! l = None) by (apply Hl; left; reflexivity).
    exists r, d1. split; [exact Hb|]. split; [exact Hi|].
    eapply h_step.
    - simpl. unfold lock_acq. rewrite Hn. reflexivity.
    - simpl. apply Inv_St, Hd.
    - simpl. rewrite lookup_insert_ne by auto. rewrite Hk. discriminate.
    - eapply hsteps_trans; [apply hsteps_try, Hs|].
      destruct r as [a|e|]; [| |congruence];
        (eapply h_step; [simpl; unfold lock_rel; simpl; rewrite lookup_insert; reflexivity
                        |simpl; apply Inv_St, Hi
                        |simpl; rewrite delete_insert, Hk by exact Hn; discriminate
                        |simpl; rewrite delete_insert by exact Hn; constructor]).
  Qed.
  Lemma good_weaken {A} ls ls' (p : prog C A) : incl ls ls' -> good ls p -> good ls' p.
  Proof. intros Hi Hp t d k n Hk Hl. apply (Hp t d k n Hk). auto. Qed.

  (** A command that reads what cannot change. *)
  Lemma good_read {X A} ls (c : C X) x (f : X -> prog C A) :
    (forall d, St d = true -> cexec c d = (Good x, d)) -> good ls (f x) -> good ls (bind (op c) f).
  Proof.
    intros H Hf t d k n Hk Hl Hd. destruct (Hf t d k n Hk Hl Hd) as (r & d' & Hb & Hi & Hs).
    exists r, d'. split; [exact Hb|]. split; [exact Hi|]. eapply h_step; [| | |exact Hs].
    - simpl. rewrite (H d (Inv_St d Hd)). reflexivity.
    - simpl. apply Inv_St, Hd.
    - simpl. rewrite Hk. discriminate.
  Qed.

  (** The whole section: the body and the release of the lock. *)
  Lemma good_section {A} ls (p : prog C A) t d : ~ In L ls -> good ls p -> Inv d ->
    exists r d', r <> Block /\ Inv d' /\
      sec L St t (try_finally p (release L)) (mkst d {[ L := Excl t 1 ]}) = Some (fin r, mkst d' free) /\
      run t (try_finally p (release L)) (mkst d {[ L := Excl t 1 ]}) = (r, mkst d' free).
  Proof.
    intros HLs Hp Hd. destruct (Hp t d {[ L := Excl t 1 ]} 0) as (r & d' & Hb & Hi & Hs).
    { apply lookup_singleton. }
    { intros l Hin. rewrite lookup_singleton_ne; [reflexivity|]. intros <-. contradiction. }
    { exact Hd. }
    exists r, d'. split; [exact Hb|]. split; [exact Hi|].
    pose proof (hsteps_try t p (release L) _ _ _ Hs) as Ht. rewrite (hsteps_sec _ _ _ _ _ Ht), (hsteps_run _ _ _ _ _ Ht).
    destruct r as [a|e|]; [| |congruence]; simpl; unfold lock_rel; simpl; rewrite lookup_singleton; simpl;
      rewrite delete_singleton, lookup_empty, (Inv_St d' Hi); split; reflexivity.
  Qed.
End Hold.

(** ** A lock that is created when it is first used: [with self.__buffer_lock: body], where
    [self.__buffer_lock] is a property that creates an RLock if there is none. *)
Section Lazy.
  Context {C : Type -> Type} {D : Type} `{!Sem C D}.
  Variables (CRef : C (option nat)) (CNew : C unit) (num : nat -> nat).
  Definition lazy_lock : prog C nat :=
    r <- op CRef ;;
    match r with None => op CNew | Some _ => Ret tt end ;;
    r2 <- op CRef ;;
    match r2 with Some n => Ret (num n) | None => Raise AttributeError end.
  Definition with_lazy {A} (body : prog C A) : prog C A := l <- lazy_lock ;; with_lock l Ex body.

  Variables (n : nat) (St : D -> bool) (Inv : D -> Prop).
  Notation L := (num n).
  Notation free := (stdpp.base.empty : locks).
  Hypothesis Inv_St : forall d, Inv d -> St d = true.
  Hypothesis St_ref : forall d, St d = true -> cexec CRef d = (Good (Some n), d).
  Hypothesis L_reent : reent L = true.
  Variable ls : list nat.
  Hypothesis L_not : ~ In L ls.
  Notation G := (good L St Inv ls).

  Lemma good_with_lazy {A} (p : prog C A) : G p -> G (with_lazy p).
  Proof.
    intros Hp. unfold with_lazy, lazy_lock.
    apply (good_read L St Inv Inv_St ls CRef (Some n)
      (fun r => bind (bind match r with None => op CNew | Some _ => Ret tt end (fun _ => bind (op CRef) (fun r2 => match r2 with Some n => Ret (num n) | None => Raise AttributeError end))) (fun l => with_lock l Ex p)) St_ref).
    cbn [bind].
    apply (good_read L St Inv Inv_St ls CRef (Some n)
      (fun r2 => bind match r2 with Some n => Ret (num n) | None => Raise AttributeError end (fun l => with_lock l Ex p)) St_ref).
    cbn [bind]. apply good_again; [exact Inv_St|exact L_reent|exact L_not|exact Hp].
  Qed.

  Lemma run_with_lazy {A} t (p : prog C A) d : Inv d ->
    run t (with_lazy p) (mkst d free) = run t (try_finally p (release L)) (mkst d {[ L := Excl t 1 ]}).
  Proof.
    intros Hd. pose proof (St_ref d (Inv_St d Hd)) as E. unfold with_lazy, lazy_lock. rewrite run_bind.
    simpl. rewrite E. simpl. rewrite E. simpl. unfold lock_acq. rewrite lookup_empty, insert_empty. reflexivity.
  Qed.

  Context {K R : Type} (call : K -> prog C R).
  Notation bef := (bef call L St Inv).
  Definition next (c : K) (t : nat) (d d' : D) (q : prog C R) : Prop :=
    (d' = d /\ bef c q) \/
    (mkst d' free = snd (run t (call c) (mkst d free)) /\ aft (fst (run t (call c) (mkst d free))) q).

  Lemma exec_ref t s : St (dat s) = true -> exec t (Op CRef) s = (Good (Some n), s).
  Proof. intros H. simpl. rewrite (St_ref _ H). destruct s. reflexivity. Qed.

  Ltac skips := cbn [with_lazy lazy_lock bind op]; apply (bef_skip _ _ _ _ _ _ _ (Some n) _ _ exec_ref); cbn [bind op];
    apply (bef_skip _ _ _ _ _ _ _ (Some n) _ _ exec_ref); cbn [bind op with_lock].

  Lemma bef_with c {A} (body : prog C A) (g : A -> prog C R) :
    G body ->
    (forall t d r d', Inv d -> r <> Block -> run t (with_lazy body) (mkst d free) = (r, mkst d' free) ->
       next c t d d' (bind (fin r) g)) ->
    bef c (bind (with_lazy body) g).
  Proof.
    intros Hg Hn. skips. apply bef_acq. intros t d Hd.
    destruct (good_section L St Inv Inv_St ls body t d L_not Hg Hd) as (r & d' & Hb & Hi & Hs & Hr).
    exists (bind (fin r) g), d'. split; [apply sec_bind, Hs|]. apply Hn; [exact Hd|exact Hb|].
    rewrite run_with_lazy by exact Hd. exact Hr.
  Qed.
  Lemma bef_with2 c {A B} (body : prog C A) (g : A -> prog C B) (f : B -> prog C R) :
    G body ->
    (forall t d r d', Inv d -> r <> Block -> run t (with_lazy body) (mkst d free) = (r, mkst d' free) ->
       next c t d d' (bind (bind (fin r) g) f)) ->
    bef c (bind (bind (with_lazy body) g) f).
  Proof.
    intros Hg Hn. skips. apply bef_acq. intros t d Hd.
    destruct (good_section L St Inv Inv_St ls body t d L_not Hg Hd) as (r & d' & Hb & Hi & Hs & Hr).
    exists (bind (bind (fin r) g) f), d'. split; [apply sec_bind, sec_bind, Hs|]. apply Hn; [exact Hd|exact Hb|].
    rewrite run_with_lazy by exact Hd. exact Hr.
  Qed.

  (** A call that is one section. *)
  Lemma bef_one c {A} (body : prog C A) (f : A -> R) :
    G body ->
    (forall t d, Inv d -> run t (call c) (mkst d free) = run t (x <- with_lazy body ;; Ret (f x)) (mkst d free)) ->
    bef c (x <- with_lazy body ;; Ret (f x)).
  Proof.
    intros Hg He. apply bef_with; [exact Hg|]. intros t d r d' Hd Hb Hr. right. rewrite He by exact Hd.
    rewrite run_bind, Hr. destruct r; [split; reflexivity|split; reflexivity|congruence].
  Qed.
  Lemma inv_one {A} t (body : prog C A) (f : A -> R) d : G body -> Inv d ->
    exists r d', run t (x <- with_lazy body ;; Ret (f x)) (mkst d free) = (r, mkst d' free) /\ Inv d' /\ r <> Block.
  Proof.
    intros Hg Hd. destruct (good_section L St Inv Inv_St ls body t d L_not Hg Hd) as (r & d' & Hb & Hi & _ & Hr).
    rewrite run_bind, run_with_lazy, Hr by exact Hd.
    destruct r as [a|e|]; [| |congruence]; eexists _, d'; (split; [reflexivity|]); (split; [exact Hi|discriminate]).
  Qed.

  (** A section whose result [x] is known and that changes nothing; then the call is over or
      goes on with another section. *)
  Lemma bef_checked c {X A} (chk : prog C X) (x : X) (go : X -> prog C A) (f : A -> R) :
    let p := (y <- (w <- with_lazy chk ;; go w) ;; Ret (f y)) in
    G chk -> (forall t d, Inv d -> run t (with_lazy chk) (mkst d free) = (Good x, mkst d free)) ->
    (exists body, go x = with_lazy body /\ G body) \/ (exists e, go x = Raise e) -> call c = p -> bef c p.
  Proof.
    intros p Hc Hx Hg He. apply bef_with2; [exact Hc|].
    intros t d r d' Hd Hb Hr. rewrite Hx in Hr by exact Hd. injection Hr as <- <-. cbn [fin bind].
    destruct Hg as [(body & Eg & Hg)|(e & Eg)]; rewrite Eg.
    - left. split; [reflexivity|]. apply bef_one; [exact Hg|].
      intros t' d1 Hd1. rewrite He. unfold p. rewrite !run_bind, Hx, Eg by exact Hd1. reflexivity.
    - right. rewrite He. unfold p. rewrite !run_bind, Hx, Eg by exact Hd. split; reflexivity.
  Qed.
  Lemma inv_checked {X A} t (chk : prog C X) (x : X) (go : X -> prog C A) (f : A -> R) d :
    (forall t d, Inv d -> run t (with_lazy chk) (mkst d free) = (Good x, mkst d free)) ->
    (exists body, go x = with_lazy body /\ G body) \/ (exists e, go x = Raise e) -> Inv d ->
    exists r d', run t (y <- (w <- with_lazy chk ;; go w) ;; Ret (f y)) (mkst d free) = (r, mkst d' free) /\ Inv d' /\ r <> Block.
  Proof.
    intros Hx Hg Hd. rewrite !run_bind, Hx by exact Hd. destruct Hg as [(body & Eg & Hg)|(e & Eg)]; rewrite Eg.
    - destruct (inv_one t body f d Hg Hd) as (r & d' & H). exists r, d'. rewrite run_bind in H. exact H.
    - eexists _, d. split; [reflexivity|]. split; [exact Hd|discriminate].
  Qed.
End Lazy.
