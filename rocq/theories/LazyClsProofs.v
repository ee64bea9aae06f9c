(** * LazyClsProofs: lemmas of C84 *)
From stdpp Require Import gmap strings.
From Coq Require Import String.
From Coq Require Import List Bool Arith Lia.
From Verif Require Import Lazy LazySpec LazyProofs LazyCls.
Import ListNotations.
Local Open Scope nat_scope.

Lemma in_existsb_eqb a l : In a l -> existsb (String.eqb a) l = true.
Proof. intros H. apply existsb_exists. exists a. split; [exact H|apply String.eqb_refl]. Qed.

Section Cls.
  Variable E : penv.
  Variable C : cenv.

  (** ** The world of a program is the one after some uses of the package *)
  Definition wreach (fuel : nat) (w w' : world) : Prop := exists os, w' = snd (lrun E fuel os w).
  Lemma wreach_refl fuel w : wreach fuel w w.
  Proof. exists []. reflexivity. Qed.
  Lemma lrun_app fuel os os' w : snd (lrun E fuel (os ++ os') w) = snd (lrun E fuel os' (snd (lrun E fuel os w))).
  Proof.
    revert w. induction os as [|o os IH]; intros w; [reflexivity|]. cbn [app lrun].
    destruct (lstep E fuel o w) as [r w1]. specialize (IH w1). destruct (lrun E fuel (os ++ os') w1), (lrun E fuel os w1). exact IH.
  Qed.
  Lemma wreach_trans fuel a b c : wreach fuel a b -> wreach fuel b c -> wreach fuel a c.
  Proof. intros [os ->] [os' ->]. exists (os ++ os'). now rewrite lrun_app. Qed.
  Lemma wreach_step fuel o w r w1 : lstep E fuel o w = (r, w1) -> wreach fuel w w1.
  Proof. intros H. exists [o]. cbn [lrun]. now rewrite H. Qed.
  Lemma wreach_use fuel j w r w1 : load_module E fuel j w = (r, w1) -> wreach fuel w w1.
  Proof. intros H. apply (wreach_step fuel (LUse j) w (match r with Ok x => Ok (LVal x) | Err e => Err e end)). cbn [lstep]. unfold as_lout. now rewrite H. Qed.
  Lemma wreach_get fuel i a w r w1 : getattr E fuel i a w = (r, w1) -> wreach fuel w w1.
  Proof. intros H. apply (wreach_step fuel (LGet i a) w (match r with Ok x => Ok (LVal x) | Err e => Err e end)). cbn [lstep]. unfold as_lout. now rewrite H. Qed.
  Lemma la_load_reach fuel k w r w1 : la_load E fuel k w = (r, w1) -> wreach fuel w w1.
  Proof.
    destruct k; cbn [la_load]; try (injection 1 as <- <-; apply wreach_refl).
    destruct (load_module E fuel j w) eqn:H. injection 1 as <- <-. exact (wreach_use _ _ _ _ _ H).
  Qed.
  Lemma la_getattr_reach fuel k a w r w1 : la_getattr E C fuel k a w = (r, w1) -> wreach fuel w w1.
  Proof.
    assert (A : (let '(r, w2) := la_load E fuel k w in
                 match r with Err e => (Err e, w2) | Ok o => (if has_member C o a then Ok (MOf o a) else Err AttributeErr, w2) end) = (r, w1) -> wreach fuel w w1).
    { destruct (la_load E fuel k w) as [r2 w2] eqn:H. apply la_load_reach in H. destruct r2; injection 1 as <- <-; exact H. }
    destruct k; cbn [la_getattr]; try (destruct (la_protected a); [injection 1 as <- <-; apply wreach_refl|exact A]);
      injection 1 as <- <-; apply wreach_refl.
  Qed.
  Lemma la_call_reach fuel k w r w1 : la_call E C fuel k w = (r, w1) -> wreach fuel w w1.
  Proof.
    assert (A : (let '(r, w2) := la_load E fuel k w in (match r with Err e => Err e | Ok o => call_obj C o end, w2)) = (r, w1) -> wreach fuel w w1).
    { destruct (la_load E fuel k w) as [r2 w2] eqn:H. apply la_load_reach in H. injection 1 as <- <-. exact H. }
    destruct k; cbn [la_call]; try exact A; injection 1 as <- <-; apply wreach_refl.
  Qed.
  Lemma mro_reach fuel bs : forall w r w1, mro_entries E C fuel bs w = (r, w1) -> wreach fuel w w1.
  Proof.
    induction bs as [|b bs IH]; intros w r w1; cbn [mro_entries]; [injection 1 as <- <-; apply wreach_refl|].
    destruct (is_class C b); [apply IH|].
    destruct (la_getattr E C fuel b "__mro_entries__" w) as [r2 w2] eqn:H. apply la_getattr_reach in H.
    destruct r2 as [x|e]; [intros H2; exact (wreach_trans _ _ _ _ H (IH _ _ _ H2))|].
    destruct e; try (injection 1 as <- <-; exact H). intros H2; exact (wreach_trans _ _ _ _ H (IH _ _ _ H2)).
  Qed.
  Lemma class_reach fuel name bs body w r w1 : class_stmt E C fuel name bs body w = (r, w1) -> wreach fuel w w1.
  Proof.
    unfold class_stmt. destruct (mro_entries E C fuel bs w) as [r2 w2] eqn:H. apply mro_reach in H.
    destruct r2; [|injection 1 as <- <-; exact H]. destruct (forallb _ bs); [injection 1 as <- <-; exact H|].
    destruct (forallb _ bs); injection 1 as <- <-; exact H.
  Qed.
  Lemma isinstance_reach fuel x k w r w1 : isinstance E C fuel x k w = (r, w1) -> wreach fuel w w1.
  Proof.
    unfold isinstance. destruct x as [c]. destruct (is_class C k); [injection 1 as <- <-; apply wreach_refl|].
    destruct (la_getattr E C fuel k "__bases__" w) as [r2 w2] eqn:H. apply la_getattr_reach in H.
    destruct r2 as [|e]; [injection 1 as <- <-; exact H|]. destruct e; injection 1 as <- <-; exact H.
  Qed.
  (** Names are only added. *)
  Lemma dstep_reach fuel o d : wreach fuel (d_world d) (d_world (snd (dstep E C fuel o d))) /\
    (exists ks, d_names (snd (dstep E C fuel o d)) = d_names d ++ ks) /\ (exists xs, d_insts (snd (dstep E C fuel o d)) = d_insts d ++ xs).
  Proof.
    assert (Z : forall X (l : list X), exists ks, l = l ++ ks) by (intros X l; exists []; now rewrite app_nil_r).
    destruct o; cbn [dstep].
    - destruct (lstep E fuel o (d_world d)) as [r w1] eqn:H. cbn. split; [exact (wreach_step _ _ _ _ _ H)|]. split; apply Z.
    - destruct (lattrs (d_world d) !! j); cbn; (split; [apply wreach_refl|split; [|apply Z]]); [eexists; reflexivity|apply Z].
    - destruct (getattr E fuel i a (d_world d)) as [r w1] eqn:H. destruct r; cbn; (split; [exact (wreach_get _ _ _ _ _ _ H)|split; [|apply Z]]); [eexists; reflexivity|apply Z].
    - destruct (names_of d bs) as [cs|]; [|split; [apply wreach_refl|split; apply Z]].
      destruct (class_stmt E C fuel name cs body (d_world d)) as [r w1] eqn:H.
      destruct r; cbn; (split; [exact (class_reach _ _ _ _ _ _ _ H)|split; [|apply Z]]); [eexists; reflexivity|apply Z].
    - destruct (d_names d !! k) as [c|]; [|split; [apply wreach_refl|split; apply Z]].
      destruct (la_call E C fuel c (d_world d)) as [r w1] eqn:H. apply la_call_reach in H.
      destruct r as [[x|x]|e]; cbn; (split; [exact H|split; [apply Z|]]); try apply Z. eexists. reflexivity.
    - destruct (d_names d !! k) as [c|]; [|split; [apply wreach_refl|split; apply Z]].
      destruct (la_getattr E C fuel c a (d_world d)) as [r w1] eqn:H. apply la_getattr_reach in H. split; [exact H|split; apply Z].
    - destruct (d_insts d !! x) as [c|]; [|split; [apply wreach_refl|split; apply Z]].
      destruct (d_names d !! k) as [c'|]; [|split; [apply wreach_refl|split; apply Z]].
      destruct (isinstance E C fuel c c' (d_world d)) as [r w1] eqn:H. apply isinstance_reach in H. split; [exact H|split; apply Z].
  Qed.
  Lemma drun_reach fuel os : forall d, wreach fuel (d_world d) (d_world (snd (drun E C fuel os d))) /\
    (exists ks, d_names (snd (drun E C fuel os d)) = d_names d ++ ks) /\ (exists xs, d_insts (snd (drun E C fuel os d)) = d_insts d ++ xs).
  Proof.
    induction os as [|o os IH]; intros d.
    - split; [apply wreach_refl|]. split; exists []; now rewrite app_nil_r.
    - cbn [drun]. destruct (dstep_reach fuel o d) as (W & (ks & K) & (xs & X)). destruct (dstep E C fuel o d) as [r d1]. cbn in W, K, X.
      specialize (IH d1) as (W' & (ks' & K') & (xs' & X')). destruct (drun E C fuel os d1) as [rs d2]. cbn in *.
      split; [exact (wreach_trans _ _ _ _ W W')|]. split; eexists; [rewrite K', K|rewrite X', X]; rewrite <- app_assoc; reflexivity.
  Qed.
  Lemma names_keep fuel os d n c : d_names d !! n = Some c -> d_names (snd (drun E C fuel os d)) !! n = Some c.
  Proof. intros H. destruct (drun_reach fuel os d) as (_ & (ks & ->) & _). now apply lookup_app_l_Some. Qed.
  Lemma insts_keep fuel os d n c : d_insts d !! n = Some c -> d_insts (snd (drun E C fuel os d)) !! n = Some c.
  Proof. intros H. destruct (drun_reach fuel os d) as (_ & _ & (ks & ->)). now apply lookup_app_l_Some. Qed.

  (** ** Class statements *)
  Lemma names_of_in d ks : forall cs k c, names_of d ks = Some cs -> In k ks -> d_names d !! k = Some c -> In c cs.
  Proof.
    induction ks as [|k0 ks IH]; intros cs k c H I L; [destruct I|]. cbn [names_of] in H.
    destruct (d_names d !! k0) as [c0|] eqn:L0; [|discriminate]. destruct (names_of d ks) as [cs'|]; [|discriminate]. injection H as <-.
    destruct I as [->|I]; [left; congruence|right; eauto].
  Qed.
  Lemma names_of_some d ks : (forall k, In k ks -> d_names d !! k <> None) -> exists cs, names_of d ks = Some cs.
  Proof.
    induction ks as [|k0 ks IH]; intros H; [eexists; reflexivity|]. cbn [names_of].
    destruct (d_names d !! k0) as [c0|] eqn:L0; [|exfalso; exact (H k0 (or_introl eq_refl) L0)].
    destruct IH as [cs ->]; [intros k I; apply H; now right|]. eexists. reflexivity.
  Qed.
  Lemma forallb_in {X} (f : X -> bool) x l : In x l -> f x = false -> forallb f l = false.
  Proof. intros I F. destruct (forallb f l) eqn:H; [|reflexivity]. rewrite forallb_forall in H. rewrite (H x I) in F. discriminate. Qed.
  Lemma lattr_no_class k : is_lattr k = true -> is_class C k = false.
  Proof. destruct k; cbn; congruence. Qed.
  Lemma class_over_lattr fuel name bs body w c k w1 : In c bs -> is_lattr c = true ->
    class_stmt E C fuel name bs body w = (Ok k, w1) -> k = KText name bs body /\ Forall (fun b => exists j, b = KLazy j) bs.
  Proof.
    intros I L. unfold class_stmt. destruct (mro_entries E C fuel bs w) as [r2 w2]. destruct r2; [|discriminate].
    rewrite (forallb_in _ _ _ I (lattr_no_class _ L)). destruct (forallb is_lattr bs) eqn:A; [|discriminate].
    destruct (forallb repr_ok bs) eqn:R; [|discriminate]. injection 1 as <- <-. split; [reflexivity|].
    rewrite forallb_forall in A, R. apply List.Forall_forall. intros b B. specialize (A _ B). specialize (R _ B).
    destruct b; try discriminate. eexists. reflexivity.
  Qed.
  Lemma class_over_text fuel name bs body w n bs' b' : In (KText n bs' b') bs -> exists e, fst (class_stmt E C fuel name bs body w) = Err e.
  Proof.
    intros I. destruct (class_stmt E C fuel name bs body w) as [[k|e] w1] eqn:H; [|eexists; reflexivity].
    destruct (class_over_lattr fuel name bs body w (KText n bs' b') k w1 I eq_refl H) as [_ F]. rewrite List.Forall_forall in F.
    destruct (F _ I) as [j J]. discriminate.
  Qed.
  Theorem not_a_class fuel d name ks body d1 k j : In k ks -> d_names d !! k = Some (KLazy j) ->
    dstep E C fuel (DClass name ks body) d = (Ok DBound, d1) ->
    forall os, let d2 := snd (drun E C fuel os d1) in let n := length (d_names d) in
    fst (dstep E C fuel (DCall n) d2) = Err AttributeErr /\
    (forall a, la_protected a = false -> fst (dstep E C fuel (DGet n a) d2) = Err AttributeErr) /\
    (forall x, exists e, fst (dstep E C fuel (DIs x n) d2) = Err e) /\
    (forall name' ks' body', In n ks' -> exists e, fst (dstep E C fuel (DClass name' ks' body') d2) = Err e).
  Proof.
    intros I L H os d2 n. cbn [dstep] in H.
    destruct (names_of d ks) as [cs|] eqn:N; [|discriminate].
    destruct (class_stmt E C fuel name cs body (d_world d)) as [r w1] eqn:S. destruct r as [kk|e]; [|discriminate]. injection H as <-.
    apply (class_over_lattr fuel name cs body (d_world d) (KLazy j)) in S; [|eapply names_of_in; eassumption|reflexivity].
    destruct S as [-> _].
    assert (T : d_names d2 !! n = Some (KText name cs body)).
    { subst d2 n. apply names_keep. cbn. now apply list_lookup_middle. }
    split; [cbn [dstep]; rewrite T; reflexivity|]. split.
    { intros a A. cbn [dstep]. rewrite T. cbn [la_getattr]. rewrite A. reflexivity. }
    split.
    { intros x. cbn [dstep]. rewrite T. destruct (d_insts d2 !! x) as [[c]|]; eexists; reflexivity. }
    intros name' ks' body' I'. cbn [dstep]. destruct (names_of d2 ks') as [cs'|] eqn:N'; [|eexists; reflexivity].
    destruct (class_over_text fuel name' cs' body' (d_world d2) name cs body) as [e X]; [eapply names_of_in; eassumption|].
    destruct (class_stmt E C fuel name' cs' body' (d_world d2)) as [r w2]. cbn in X. subst r. eexists. reflexivity.
  Qed.
  (** The exact result for one lazy base. *)
  Theorem class_of_lazy fuel name j body w : (forall v, member C v "__mro_entries__" = false) ->
    class_stmt E C fuel name [KLazy j] body w =
    (match fst (load_module E fuel j w) with
     | Ok _ | Err AttributeErr => Ok (KText name [KLazy j] body)
     | Err e => Err e
     end, snd (load_module E fuel j w)).
  Proof.
    intros M. unfold class_stmt. cbn [mro_entries is_class la_getattr]. change (la_protected "__mro_entries__") with false. cbn [la_load].
    destruct (load_module E fuel j w) as [r w1]. destruct r as [v|e]; [|destruct e; reflexivity].
    cbn [has_member fst snd]. rewrite M. change (String.eqb "__mro_entries__" "__bases__") with false. rewrite andb_false_r. reflexivity.
  Qed.

  (** ** isinstance *)
  (** No lazy attribute among the classes of an instance. *)
  Fixpoint real (c : cval) : bool :=
    match c with KObj _ => true | KClass _ bs _ => forallb real bs | _ => false end.
  Lemma cval_ind' (P : cval -> Prop) : (forall j, P (KLazy j)) -> (forall n bs b, Forall P bs -> P (KText n bs b)) -> (forall v, P (KObj v)) ->
    (forall n bs b, Forall P bs -> P (KClass n bs b)) -> forall k, P k.
  Proof.
    intros H1 H2 H3 H4. fix IH 1. intros [j|n bs b|v|n bs b]; [apply H1|apply H2| apply H3|apply H4]; induction bs; constructor; auto.
  Qed.
  Lemma real_inherits c k : real c = true -> is_lattr k = true -> inherits C c k = false.
  Proof.
    intros R L. revert R. induction c as [j|n bs b IH|v|n bs b IH] using cval_ind'; intros R; try discriminate.
    - cbn. destruct k; try discriminate; reflexivity.
    - cbn [inherits]. assert (X : cval_eqb (KClass n bs b) k = false) by (destruct k; try discriminate; reflexivity). rewrite X. cbn [orb].
      cbn [real] in R. rewrite forallb_forall in R. rewrite List.Forall_forall in IH.
      destruct (existsb _ bs) eqn:Y; [|reflexivity]. apply existsb_exists in Y. destruct Y as (c & I & Y).
      rewrite (IH c I (R c I)) in Y. discriminate.
  Qed.
  (** Lazy attributes, or real classes and objects. *)
  Definition name_ok (k : cval) : Prop := is_lattr k = true \/ real k = true.
  Definition inst_ok (x : inst) : Prop := let 'Inst c := x in real c = true.
  Definition prog_ok (d : dstate) : Prop := Forall name_ok (d_names d) /\ Forall inst_ok (d_insts d).
  Lemma names_of_forall d ks : prog_ok d -> forall cs, names_of d ks = Some cs -> Forall name_ok cs.
  Proof.
    intros [O _]. induction ks as [|k0 ks IH]; intros cs; cbn [names_of]; [injection 1 as <-; constructor|].
    destruct (d_names d !! k0) as [c0|] eqn:L0; [|discriminate]. destruct (names_of d ks) as [cs'|]; [|discriminate]. injection 1 as <-.
    constructor; [|now apply IH]. rewrite Forall_lookup in O. exact (O _ _ L0).
  Qed.
  Lemma class_ok fuel name bs body w k w1 : Forall name_ok bs -> class_stmt E C fuel name bs body w = (Ok k, w1) -> name_ok k.
  Proof.
    intros F. unfold class_stmt. destruct (mro_entries E C fuel bs w) as [r2 w2]. destruct r2; [|discriminate].
    destruct (forallb (is_class C) bs) eqn:A.
    - injection 1 as <- <-. right. cbn. rewrite forallb_forall in *. rewrite List.Forall_forall in F. intros b I. specialize (A _ I). specialize (F _ I).
      destruct F as [F|F]; [|exact F]. rewrite (lattr_no_class _ F) in A. discriminate.
    - destruct (forallb is_lattr bs); [|discriminate]. destruct (forallb repr_ok bs); [|discriminate]. injection 1 as <- <-. left. reflexivity.
  Qed.
  Lemma call_ok fuel c w x w1 : name_ok c -> la_call E C fuel c w = (Ok (New x), w1) -> inst_ok x.
  Proof.
    intros O. destruct c; cbn [la_call la_load].
    - destruct (load_module E fuel j w) as [r w2]. destruct r as [v|e]; cbn [call_obj]; [|discriminate].
      destruct (is_type C v); [injection 1 as <- <-; reflexivity|]. destruct (member C v "__call__"); discriminate.
    - discriminate.
    - destruct (is_type C v || member C v "__call__"); [|discriminate]. cbn [call_obj].
      destruct (is_type C v); [injection 1 as <- <-; reflexivity|]. destruct (member C v "__call__"); discriminate.
    - injection 1 as <- <-. destruct O as [O|O]; [discriminate|exact O].
  Qed.
  Lemma dstep_ok fuel o d : prog_ok d -> prog_ok (snd (dstep E C fuel o d)).
  Proof.
    intros O. pose proof O as [O1 O2]. destruct o; cbn [dstep].
    - destruct (lstep E fuel o (d_world d)). exact O.
    - destruct (lattrs (d_world d) !! j); [|exact O]. split; [|exact O2]. cbn. apply List.Forall_app. split; [exact O1|]. constructor; [left; reflexivity|constructor].
    - destruct (getattr E fuel i a (d_world d)) as [r w1]. destruct r; [|exact O]. split; [|exact O2]. cbn. apply List.Forall_app. split; [exact O1|].
      constructor; [right; reflexivity|constructor].
    - destruct (names_of d bs) as [cs|] eqn:N; [|exact O]. destruct (class_stmt E C fuel name cs body (d_world d)) as [r w1] eqn:H. destruct r; [|exact O].
      split; [|exact O2]. cbn. apply List.Forall_app. split; [exact O1|]. constructor; [|constructor].
      eapply class_ok; [|exact H]. exact (names_of_forall d bs O cs N).
    - destruct (d_names d !! k) as [c|] eqn:L; [|exact O]. destruct (la_call E C fuel c (d_world d)) as [r w1] eqn:H.
      destruct r as [[x|x]|e]; try exact O. split; [exact O1|]. cbn. apply List.Forall_app. split; [exact O2|]. constructor; [|constructor].
      eapply call_ok; [|exact H]. rewrite Forall_lookup in O1. exact (O1 _ _ L).
    - destruct (d_names d !! k) as [c|] eqn:L; [|exact O]. destruct (la_getattr E C fuel c a (d_world d)). exact O.
    - destruct (d_insts d !! x) as [c|]; [|exact O]. destruct (d_names d !! k) as [c'|]; [|exact O].
      destruct (isinstance E C fuel c c' (d_world d)) as [r w1]. exact O.
  Qed.
  Lemma drun_ok fuel os : forall d, prog_ok d -> prog_ok (snd (drun E C fuel os d)).
  Proof.
    induction os as [|o os IH]; intros d O; [exact O|]. cbn [drun]. apply (dstep_ok fuel o) in O. destruct (dstep E C fuel o d) as [r d1].
    cbn [snd] in O. apply IH in O. destruct (drun E C fuel os d1). exact O.
  Qed.
  Lemma start_ok w : prog_ok (mkd w [] []).
  Proof. split; constructor. Qed.
  Theorem never_instance fuel os w x k j : let d := snd (drun E C fuel os (mkd w [] [])) in
    d_names d !! k = Some (KLazy j) -> fst (dstep E C fuel (DIs x k) d) <> Ok (DBool true).
  Proof.
    intros d L. pose proof (drun_ok fuel os _ (start_ok w)) as [_ O]. fold d in O. cbn [dstep].
    destruct (d_insts d !! x) as [[c]|] eqn:X; [|discriminate]. rewrite L.
    rewrite Forall_lookup in O. specialize (O _ _ X). cbn in O.
    unfold isinstance. cbn [is_class]. rewrite (real_inherits c (KLazy j) O eq_refl).
    destruct (la_getattr E C fuel (KLazy j) "__bases__" (d_world d)) as [r w1]. destruct r as [|e]; [discriminate|]. destruct e; discriminate.
  Qed.

  (** ** Calls, and the class itself *)
  Lemma val_eqb_refl v : val_eqb v v = true.
  Proof. destruct v; try reflexivity. apply Nat.eqb_refl. Qed.
  Lemma lrun_of_reach fuel os d : exists os', d_world (snd (drun E C fuel os d)) = snd (lrun E fuel os' (d_world d)).
  Proof. destruct (drun_reach fuel os d) as ([os' H] & _). eauto. Qed.
  (** Once the class is loaded, at any later time: calls of the lazy attribute make
      instances of it, its attributes are those of the class. *)
  Theorem call_lazy fuel d k j v w1 : d_names d !! k = Some (KLazy j) -> load_module E fuel j (d_world d) = (Ok v, w1) -> is_type C v = true -> v <> VNone ->
    forall os, let d2 := snd (drun E C fuel os (with_world w1 d)) in
    dstep E C fuel (DCall k) d2 = (Ok DNew, mkd (d_world d2) (d_names d2) (d_insts d2 ++ [Inst (KObj v)])) /\
    (forall a, la_protected a = false -> member C v a = true -> dstep E C fuel (DGet k a) d2 = (Ok (DGave (MOf (KObj v) a)), d2)) /\
    isinstance E C fuel (Inst (KObj v)) (KObj v) (d_world d2) = (Ok true, d_world d2).
  Proof.
    intros L H T NV os d2. assert (L2 : d_names d2 !! k = Some (KLazy j)) by (apply names_keep; exact L).
    destruct (lrun_of_reach fuel os (with_world w1 d)) as [os' W]. fold d2 in W. cbn in W.
    assert (LM : load_module E fuel j (d_world d2) = (Ok v, d_world d2)).
    { rewrite W. exact (same_value E fuel fuel fuel os' j v (d_world d) w1 H NV). }
    split; [|split].
    - cbn [dstep]. rewrite L2. cbn [la_call la_load]. rewrite LM. cbn [call_obj]. rewrite T. reflexivity.
    - intros a A M. cbn [dstep]. rewrite L2. cbn [la_getattr la_load]. rewrite A, LM. cbn [has_member]. rewrite M. cbn. now destruct d2.
    - cbn. rewrite T. cbn. now rewrite val_eqb_refl.
  Qed.
  (** The class itself, read from the package afterwards, can be inherited from. *)
  Theorem class_afterwards fuel name body v w : is_type C v = true ->
    let k := KClass name [KObj v] body in
    class_stmt E C fuel name [KObj v] body w = (Ok k, w) /\
    la_call E C fuel k w = (Ok (New (Inst k)), w) /\
    (forall a, In a body -> resolve C k a = Some k) /\
    (forall a, ~ In a body -> member C v a = true -> resolve C k a = Some (KObj v)) /\
    isinstance E C fuel (Inst k) (KObj v) w = (Ok true, w).
  Proof.
    intros T k. subst k. unfold class_stmt. cbn [mro_entries forallb is_class]. rewrite T. split; [reflexivity|]. split; [reflexivity|]. split.
    { intros a A. cbn [resolve]. now rewrite (in_existsb_eqb a body A). }
    split.
    { intros a A M. cbn [resolve]. destruct (existsb (String.eqb a) body) eqn:X.
      - apply existsb_exists in X. destruct X as (b & B & X). apply String.eqb_eq in X. subst b. destruct (A B).
      - now rewrite M. }
    unfold isinstance. cbn [is_class]. rewrite T. cbn [inherits existsb cval_eqb]. rewrite val_eqb_refl. cbn. reflexivity.
  Qed.
End Cls.
