(** * FlakyInv: what is true of a LineBuffer at any time, with any exceptions *)
From stdpp Require Import gmap.
From Coq Require Import List NArith ZArith Bool Arith Lia.
From Verif Require Import PyStr Prog ProgFacts PyIO Base Spec SpecFacts LineBuf LineBufFacts LineBufProofs LineBufConc LineBufConcProofs Locks Flaky FlakySpec FlakyFacts FlakyCalls FlakyBuf.
Import ListNotations.
Local Open Scope prog_scope.
Local Open Scope nat_scope.

(** ** Programs all of whose commands keep [Inv] *)
Section Safe.
  Context {C : Type -> Type} {D : Type} `{!Sem C D}.
  Variable Inv : D -> Prop.
  Inductive safe {A} : prog C A -> Prop :=
  | safe_ret a : safe (Ret a)
  | safe_raise e : safe (Raise e)
  | safe_op X (c : C X) k h : (forall d, Inv d -> Inv (snd (cexec c d))) ->
      (forall d x, Inv d -> fst (cexec c d) = Good x -> safe (k x)) -> (forall e, safe (h e)) -> safe (Act (Op c) k h)
  | safe_acq l m k h : safe (k tt) -> (forall e, safe (h e)) -> safe (Act (Acq l m) k h)
  | safe_rel l k h : safe (k tt) -> (forall e, safe (h e)) -> safe (Act (Rel l) k h).

  Lemma safe_bind {A B} (p : prog C A) (f : A -> prog C B) : safe p -> (forall a, safe (f a)) -> safe (bind p f).
  Proof. intros H Hf. induction H; cbn [bind]; auto; constructor; eauto. Qed.
  Lemma safe_bind_op {X A} (c : C X) (f : X -> prog C A) : (forall d, Inv d -> Inv (snd (cexec c d))) ->
    (forall d x, Inv d -> fst (cexec c d) = Good x -> safe (f x)) -> safe (bind (op c) f).
  Proof. intros H Hf. cbn [bind op]. constructor; [exact H|exact Hf|]. intros e. constructor. Qed.
  Lemma safe_one {X} (c : C X) : (forall d, Inv d -> Inv (snd (cexec c d))) -> safe (op c).
  Proof. intros H. constructor; [exact H| |]; intros; constructor. Qed.
  Lemma safe_try {A} (p : prog C A) l : safe p -> safe (try_finally p (release l)).
  Proof.
    induction 1; cbn [try_finally]; try (unfold release; cbn [bind]; constructor; [constructor|intros; constructor]; fail); constructor; eauto.
  Qed.
  Lemma safe_with {A} l m (p : prog C A) : safe p -> safe (with_lock l m p).
  Proof. intros H. constructor; [apply safe_try, H|]. intros e. constructor. Qed.
  Lemma safe_attempt {A} (p : prog C A) : safe p -> safe (attempt p).
  Proof. induction 1; cbn [attempt]; constructor; eauto. Qed.
  Lemma safe_thread {A} (cs : list (prog C A)) : Forall safe cs -> safe (thread cs).
  Proof.
    unfold thread. generalize (@nil (outcome A)). induction cs as [|c cs IH]; intros rs H; cbn [thread_from]; [constructor|].
    apply Forall_cons_1 in H. destruct H as [H1 H2]. apply safe_bind; [apply safe_attempt, H1|]. intros r. apply IH, H2.
  Qed.
  Lemma safe_step {A} t (p : prog C A) s p' s' : safe p -> Inv (dat s) -> pstep t p s = Some (p', s') -> safe p' /\ Inv (dat s').
  Proof.
    intros Hp Hi. destruct Hp as [a|e|X c k h Hc Hk Hh|l m k h Hk Hh|l k h Hk Hh]; cbn [pstep]; try discriminate.
    - cbn [exec]. specialize (Hc _ Hi). pose proof (fun x => Hk (dat s) x Hi) as Hk'. destruct (cexec c (dat s)) as [r d]. cbn [fst snd] in *.
      destruct r as [x|e|]; [intros [= <- <-]; split; [apply Hk'; reflexivity|exact Hc]|intros [= <- <-]; split; [apply Hh|exact Hc]|discriminate].
    - cbn [exec]. destruct (lock_acq (reent l) t l m (lks s)) as [[[]|e|] k']; [intros [= <- <-]; auto|intros [= <- <-]; auto|discriminate].
    - cbn [exec]. destruct (lock_rel t l (lks s)) as [[[]|e|] k']; [intros [= <- <-]; auto|intros [= <- <-]; auto|discriminate].
  Qed.
  Lemma safe_run {A} t (p : prog C A) : safe p -> forall s, Inv (dat s) -> Inv (dat (snd (run t p s))).
  Proof.
    induction 1 as [a|e|X c k h Hc Hk IHk Hh IHh|l m k h Hk IHk Hh IHh|l k h Hk IHk Hh IHh]; intros s Hi; cbn [run exec]; try exact Hi.
    - specialize (Hc _ Hi). pose proof (fun x => IHk (dat s) x Hi) as IH. destruct (cexec c (dat s)) as [[x|e|] d]; cbn [fst snd] in *; auto.
    - destruct (lock_acq (reent l) t l m (lks s)) as [[[]|e|] k']; cbn [snd]; auto.
    - destruct (lock_rel t l (lks s)) as [[[]|e|] k']; cbn [snd]; auto.
  Qed.
  Lemma safe_sched {A} sch : forall (ps ps' : list (prog C A)) s s', Forall safe ps -> Inv (dat s) -> sched_run sch (ps, s) = Some (ps', s') -> Inv (dat s').
  Proof.
    induction sch as [|i sch IH]; intros ps ps' s s' Hp Hi H; cbn [sched_run] in H; [injection H as _ <-; exact Hi|].
    unfold cstep in H. cbn [fst snd] in H. destruct (ps !! i) as [p|] eqn:Ep; [|discriminate].
    destruct (pstep i p s) as [[p' s1]|] eqn:Es; [|discriminate].
    destruct (safe_step i p s p' s1 (Forall_lookup_1 _ _ _ _ Hp Ep) Hi Es) as [H1 H2].
    apply (IH _ _ _ _ (Forall_insert _ _ _ _ Hp H1) H2 H).
  Qed.
End Safe.
Lemma safe_flaky {C D} `{!Sem C D} (Inv : D -> Prop) {A} (p : prog C A) : safe Inv p -> safe (fun w => Inv (fst w)) (flaky p).
Proof.
  assert (Hchk : forall B (q : prog (fl C) B) h, safe (fun w : D * faults => Inv (fst w)) q -> (forall e, safe (fun w : D * faults => Inv (fst w)) (h e)) ->
    safe (fun w : D * faults => Inv (fst w)) (Act (Op Chk) (fun _ => q) h)).
  { intros B q h Hq Hh. constructor; [|auto|auto]. intros [d fs] Hi. destruct fs as [|[e|] fs]; exact Hi. }
  induction 1 as [a|e|X c k h Hc Hk IHk Hh IHh|l m k h Hk IHk Hh IHh|l k h Hk IHk Hh IHh]; cbn [flaky may_fail lift_cmd]; try (constructor; auto; fail).
  - apply Hchk; [|exact IHh]. constructor; [| |exact IHh].
    + intros [d fs] Hi. cbn in *. specialize (Hc d Hi). destruct (cexec c d). exact Hc.
    + intros [d fs] x Hi E. apply (IHk d); [exact Hi|]. cbn in E. destruct (cexec c d). exact E.
  - apply Hchk; [|exact IHh]. constructor; auto.
Qed.
Lemma safe_flaky_call {C D} `{!Sem C D} (Inv : D -> Prop) {A} (p : prog C A) : safe Inv p -> safe (fun w => Inv (fst w)) (flaky_call p).
Proof.
  intros H. apply safe_bind; [apply safe_flaky, H|]. intros a. apply safe_bind_op; [|intros; constructor].
  intros [d fs] Hi. destruct fs as [|[e|] fs]; exact Hi.
Qed.

(** ** LineBuffer *)
Section Buf.
  Variable ok : item -> Prop.
  Hypothesis ok_line : forall i, line_item i -> ok i.
  Variable m : nat.
  Notation Inv := (sound_of ok m).
  Implicit Types (q : list item) (d : lbuf).

  Lemma nb_app a b : no_break a -> no_break b -> no_break (a ++ b).
  Proof. intros H1 H2. apply List.Forall_app. auto. Qed.
  Lemma nb_firstn n s : no_break s -> no_break (firstn n s).
  Proof. intros H. rewrite <- (firstn_skipn n s) in H. apply List.Forall_app in H. apply H. Qed.
  Lemma nb_skipn n s : no_break s -> no_break (skipn n s).
  Proof. intros H. rewrite <- (firstn_skipn n s) in H. apply List.Forall_app in H. apply H. Qed.
  Lemma nb_zeros n : no_break (repeat 0%N n).
  Proof. apply List.Forall_forall. intros c H. apply repeat_spec in H. subst c. intros H. repeat (destruct H as [H|H]; [discriminate|]). discriminate. Qed.

  Lemma snd_file {X} (f : sio -> outcome X * sio) d : Inv d -> (forall l, no_break (sval l) -> no_break (sval (snd (f l)))) -> Inv (snd (on_file f d)).
  Proof.
    intros (H1 & H2 & H3 & H4) Hf. unfold on_file. specialize (Hf _ H4). destruct (f (last_line d)) as [r l]. exact (conj H1 (conj H2 (conj H3 Hf))).
  Qed.
  Definition okq (x : deque item) : Prop := dmax x = m /\ length (dq x) <= m /\ Forall ok (dq x).
  Lemma snd_dq {X} (f : deque item -> outcome X * deque item) d : Inv d -> (forall x, okq x -> okq (snd (f x))) -> Inv (snd (on_dq f d)).
  Proof.
    intros (H1 & H2 & H3 & H4) Hf. unfold on_dq. destruct (Hf (storage d) (conj H1 (conj H2 H3))) as (G1 & G2 & G3). destruct (f (storage d)) as [r x].
    exact (conj G1 (conj G2 (conj G3 H4))).
  Qed.
  Lemma ok_append i x : ok i -> okq x -> okq (dq_append i x).
  Proof.
    intros Hi (H1 & H2 & H3). unfold dq_append, trim_left. split; [exact H1|]. cbn [dq]. rewrite H1.
    assert (Ha : Forall ok (dq x ++ [i])) by (apply List.Forall_app; auto).
    destruct (Nat.ltb_spec m (length (dq x ++ [i]))) as [Hl|Hl]; [|split; [lia|exact Ha]].
    rewrite app_length in Hl. simpl in Hl. destruct (dq x) as [|y l]; simpl in *.
    - split; [lia|constructor].
    - rewrite app_length. simpl. split; [lia|]. apply Forall_cons_1 in Ha. apply Ha.
  Qed.
  Lemma ok_extend l : Forall ok l -> forall x, okq x -> okq (dq_extend l x).
  Proof. unfold dq_extend. induction 1 as [|i l Hi Hl IH]; intros x Hx; cbn [fold_left]; [exact Hx|]. apply IH, ok_append; assumption. Qed.

  (** The commands that store nothing, and those that store texts without line breaks. *)
  Definition stores {X} (c : bcmd X) : Prop :=
    match c with
    | FWrite s => no_break s
    | DAppend i | DAppendleft i => ok i
    | DExtend l => Forall ok l
    | _ => True
    end.
  Lemma keeps {X} (c : bcmd X) d : stores c -> Inv d -> Inv (snd (cexec c d)).
  Proof.
    intros Hs Hi. destruct c; cbn [cexec bsem bexec stores] in *;
      try (apply snd_file; [exact Hi|]; intros l Hl; unfold sio_closed, sio_tell, sio_truth, sio_getvalue, sio_seek0, sio_truncate0, sio_close, sio_flush, sio_guard;
           try (destruct (sclosed l)); cbn [snd sval]; try exact Hl; try constructor; fail);
      try (apply snd_dq; [exact Hi|]; intros x Hx; cbn [snd]; try exact Hx; fail).
    - apply snd_file; [exact Hi|]. intros l Hl. unfold sio_write, sio_guard. destruct (sclosed l); cbn [snd]; [exact Hl|]. destruct s as [|c s]; [exact Hl|]. cbn [sval].
      apply nb_app; [apply nb_firstn, nb_app; [exact Hl|apply nb_zeros]|]. apply nb_app; [exact Hs|apply nb_skipn, Hl].
    - apply snd_dq; [exact Hi|]. intros x (H1 & H2 & H3). unfold dq_popleft. destruct (dq x) as [|y l] eqn:E; cbn [snd].
      + split; [exact H1|]. rewrite E. auto.
      + split; [exact H1|]. cbn [dq]. apply Forall_cons_1 in H3. simpl in H2. split; [lia|apply H3].
    - apply snd_dq; [exact Hi|]. intros x Hx. apply ok_append; assumption.
    - apply snd_dq; [exact Hi|]. intros x (H1 & H2 & H3). cbn [snd]. unfold dq_appendleft, trim_right. split; [exact H1|]. cbn [dq]. rewrite H1.
      assert (Ha : Forall ok (i :: dq x)) by (constructor; assumption).
      destruct (Nat.ltb_spec m (length (i :: dq x))) as [Hl|Hl]; [|split; [exact Hl|exact Ha]]. simpl in Hl.
      assert (Hr : exists y, i :: dq x = removelast (i :: dq x) ++ [y]).
      { exists (last (i :: dq x) i). apply app_removelast_last. discriminate. }
      destruct Hr as (y & Hr). rewrite Hr in Ha. apply List.Forall_app in Ha. split; [|apply Ha].
      apply (f_equal (@length item)) in Hr. rewrite app_length in Hr. simpl length in Hr at 1 3. lia.
    - apply snd_dq; [exact Hi|]. intros x Hx. apply ok_extend; assumption.
    - apply snd_dq; [exact Hi|]. intros x (H1 & H2 & H3). cbn [snd]. unfold dq_rotate. destruct (dq x) as [|y l] eqn:E; [split; [exact H1|]; rewrite E; auto|].
      rewrite <- E in *. set (k := length (dq x) - _). split; [exact H1|]. cbn [dq]. rewrite <- (firstn_skipn k (dq x)) in H2, H3.
      apply List.Forall_app in H3. rewrite app_length in *. split; [lia|]. apply List.Forall_app. split; apply H3.
    - apply snd_dq; [exact Hi|]. intros x (H1 & H2 & H3). cbn [snd]. split; [exact H1|]. cbn. split; [lia|constructor].
  Qed.
  Ltac sf := repeat first
    [ apply safe_ret | apply safe_raise
    | assumption
    | apply safe_with
    | apply safe_one; intros ? ?; apply keeps; [exact I|assumption]
    | apply safe_bind_op; [intros ? ?; apply keeps; [exact I|assumption]|intros ? ? ? _]
    | apply safe_bind; [|intros ?]
    | match goal with
      | |- safe _ (if ?b then _ else _) => destruct b
      | |- safe _ (match ?b with _ => _ end) => destruct b
      end ].
  Lemma get_nb d x : Inv d -> fst (cexec FGetvalue d) = Good x -> no_break x.
  Proof.
    intros (_ & _ & _ & H). cbn. unfold on_file, sio_getvalue, sio_guard. destruct (sclosed (last_line d)); cbn; [discriminate|]. intros [= <-]. exact H.
  Qed.
  Lemma pop_ok d x : Inv d -> fst (cexec DPopleft d) = Good x -> ok x.
  Proof.
    intros (_ & _ & H & _). cbn. unfold on_dq, dq_popleft. destruct (dq (storage d)); cbn; [discriminate|]. intros [= <-]. apply Forall_cons_1 in H. apply H.
  Qed.
  Lemma line_str s : no_break s -> ok (IStr s).
  Proof. intros H. apply ok_line. exists s. auto. Qed.
  Lemma lines_str l : Forall no_break l -> Forall ok (map IStr l).
  Proof. intros H. apply List.Forall_map. eapply List.Forall_impl; [|exact H]. intros s. apply line_str. Qed.
  Lemma split_nb data : Forall no_break (splitlines data).
  Proof.
    rewrite splitlines_seg. destruct (seg_no_break data) as [H1 H2]. apply List.Forall_app. split; [exact H1|].
    destruct (snd (seg data)); cbn; [constructor|constructor; [exact H2|constructor]].
  Qed.
  Lemma hd_nb l : Forall no_break l -> no_break (hd [] l).
  Proof. intros H. destruct H; [constructor|assumption]. Qed.
  Lemma last_nb l : Forall no_break l -> no_break (last l []).
  Proof. induction 1 as [|x l Hx Hl IH]; cbn [last]; [constructor|]. destruct l; [exact Hx|exact IH]. Qed.
  Lemma removelast_nb l : Forall no_break l -> Forall no_break (removelast l).
  Proof. induction 1 as [|x l Hx Hl IH]; cbn [removelast]; [constructor|]. destruct l; [constructor|]. constructor; auto. Qed.

  Lemma safe_body data : safe Inv (lb_write_body lb_parse_lines data).
  Proof.
    unfold lb_write_body, lb_write_body_gen, lb_parse_lines. cbv zeta. destruct (_ && _).
    - apply safe_bind_op; [intros; apply keeps; [exact I|assumption]|]. intros d x Hd Ex. pose proof (get_nb d x Hd Ex) as Hx.
      apply safe_bind; [apply safe_one; intros; apply keeps; [|assumption]; cbn; constructor; [apply line_str, Hx|constructor]|]. intros _. sf.
    - assert (Hl : Forall no_break (fst (if is_end_line_break data then (splitlines data ++ [[]], length (splitlines data) + 1) else (splitlines data, length (splitlines data))))).
      { destruct (is_end_line_break data); cbn [fst]; [apply List.Forall_app; split; [apply split_nb|repeat constructor]|apply split_nb]. }
      destruct (if is_end_line_break data then (splitlines data ++ [[]], length (splitlines data) + 1) else (splitlines data, length (splitlines data))) as [ls n]. cbn [fst] in Hl.
      destruct (1 <? n).
      + apply safe_bind_op; [intros; apply keeps; [exact I|assumption]|]. intros d x Hd Ex. pose proof (get_nb d x Hd Ex) as Hx. cbv beta.
        assert (Hc : Forall no_break ((x ++ hd [] ls) :: tl ls)).
        { constructor; [apply nb_app; [exact Hx|apply hd_nb, Hl]|]. destruct Hl; [constructor|assumption]. }
        apply safe_bind; [apply safe_one; intros; apply keeps; [|assumption]; apply lines_str, removelast_nb, Hc|]. intros _.
        apply safe_bind_op; [intros; apply keeps; [exact I|assumption]|]. intros ? ? ? _. apply safe_bind_op; [intros; apply keeps; [exact I|assumption]|]. intros ? ? ? _.
        apply safe_one. intros. apply keeps; [|assumption]. apply last_nb, Hc.
      + destruct (n =? 1); [|constructor]. apply safe_one. intros. apply keeps; [|assumption]. apply hd_nb, Hl.
  Qed.
  Lemma safe_loop n : forall acc, safe Inv (lb_read_loop n acc).
  Proof.
    induction n as [|n IH]; intros acc; cbn [lb_read_loop]; [constructor|]. apply safe_bind_op; [intros; apply keeps; [exact I|assumption]|]. intros d x Hd Ex.
    apply safe_bind; [apply safe_one; intros; apply keeps; [|assumption]; apply (pop_ok d x Hd Ex)|]. intros _. apply IH.
  Qed.
  Lemma safe_read_all : safe Inv lb_read_all.
  Proof.
    unfold lb_read_all. apply safe_bind; [sf|]. intros p. apply safe_bind; [sf|]. intros n. cbv zeta. destruct (0 <? p); [|sf].
    apply safe_bind; [sf|]. intros k. destruct (_ && _); [|sf].
    apply safe_bind_op; [intros; apply keeps; [exact I|assumption]|]. intros d x Hd Ex. apply safe_bind; [sf|]. intros its. apply safe_bind; [sf|]. intros v.
    apply safe_bind; [|intros; constructor]. apply safe_one. intros. apply keeps; [|assumption]. apply (pop_ok d x Hd Ex).
  Qed.
  Lemma safe_read_n n : safe Inv (lb_read_n n).
  Proof.
    unfold lb_read_n. apply safe_bind; [sf|]. intros p. apply safe_bind; [sf|]. intros k. apply safe_bind; [sf|]. intros mx. cbv zeta.
    assert (Hrest : forall o : option item, match o with Some x => ok x | None => True end ->
      safe Inv (bind (if 0 <? Nat.min (if 0 <? p then n - 1 else n) (match o with None => k | Some _ => k - 1 end) then bop (DRotate (Nat.min (if 0 <? p then n - 1 else n) (match o with None => k | Some _ => k - 1 end))) else Ret tt)
        (fun _ => bind (lb_read_loop (Nat.min (if 0 <? p then n - 1 else n) (match o with None => k | Some _ => k - 1 end)) []) (fun results =>
          if 0 <? p then bind (bop FGetvalue) (fun v => bind (match o with Some x => bop (DAppendleft x) | None => Ret tt end) (fun _ => Ret (results ++ [IStr v]))) else Ret results)))).
    { intros o Ho. apply safe_bind; [sf|]. intros _. apply safe_bind; [apply safe_loop|]. intros rs. destruct (0 <? p); [|constructor].
      apply safe_bind; [sf|]. intros v. apply safe_bind; [|intros; constructor]. destruct o as [x|]; [|constructor]. apply safe_one. intros. apply keeps; [|assumption]. exact Ho. }
    destruct (_ && _).
    - apply (safe_bind_op Inv DPopleft); [intros; apply keeps; [exact I|assumption]|]. intros d x Hd Ex. cbn [bind]. apply (Hrest (Some x)). apply (pop_ok d x Hd Ex).
    - cbn [bind]. apply (Hrest None). exact I.
  Qed.
  Lemma safe_lb_clear : safe Inv lb_clear.
  Proof. unfold lb_clear. sf. Qed.
  Lemma safe_lb_len : safe Inv lb_len.
  Proof. unfold lb_len, lb_maxlen. sf. Qed.
  Lemma safe_lb_write data : safe Inv (lb_write data).
  Proof.
    pose proof safe_body as Hb. unfold lb_write, lb_write_with, lb_write_gen. apply safe_bind; [sf|]. intros w. destruct (negb w); [constructor|]. apply safe_with. apply Hb.
  Qed.
  Lemma safe_lb_read size : safe Inv (lb_read size).
  Proof.
    pose proof safe_read_all. pose proof safe_read_n.
    unfold lb_read, lb_readable. apply safe_bind; [sf|]. intros w. destruct (negb w); [constructor|]. apply safe_with. destruct size as [z|]; [destruct (0 <? z)%Z; [auto|constructor]|auto].
  Qed.
  Lemma safe_lb_new_line : safe Inv lb_new_line.
  Proof.
    pose proof safe_body as Hb. unfold lb_new_line, lb_new_line_with, lb_new_line_gen. apply safe_with. apply safe_bind; [sf|]. intros n. destruct (0 <? n); [|constructor].
    apply safe_bind; [apply Hb|]. intros; constructor.
  Qed.
  Lemma safe_call c : safe Inv (lb_call c).
  Proof.
    pose proof safe_lb_clear. pose proof safe_lb_write. pose proof safe_lb_read. pose proof safe_lb_new_line.
    destruct c; cbn [lb_call]; (apply safe_bind; [|intros; constructor]); auto;
      try solve [unfold lb_close, lb_flush, lb_len, lb_maxlen, lb_closed, lb_readable, lb_writable, lb_fileno, lb_seek, lb_isatty, lb_seekable; sf].
  Qed.
End Buf.
Lemma sound_fresh m : sound m (dat (fresh m)).
Proof. split; [reflexivity|]. cbn. split; [lia|]. split; constructor. Qed.
