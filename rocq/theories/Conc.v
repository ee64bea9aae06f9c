(** * Conc: generic theory of threads that protect an object by one lock

    Definitions and the reduction theorem: if every call accesses the object only inside
    critical sections of the lock [L], and exactly one section of each call has an effect
    (the effect of the whole call), then every interleaved execution is linearizable. *)
From stdpp Require Import gmap.
From Coq Require Import List Bool Arith Lia.
From Verif Require Import Prog ProgFacts Spec.
Import ListNotations.

Lemma events_of_app {X} i (l1 l2 : list (nat * X)) :
  events_of i (l1 ++ l2) = events_of i l1 ++ events_of i l2.
Proof. unfold events_of. rewrite filter_app, map_app. reflexivity. Qed.

Section Reduction.
  Context {C : Type -> Type} {D : Type} `{!Sem C D}.
  Context {K R : Type} (impl : K -> prog C R).   (* calls and their code *)
  Variable L : nat.                              (* the lock *)
  Variable St : D -> bool.                       (* holds at every moment *)
  Variable Inv : D -> Prop.                      (* invariant when the lock is free *)

  Notation free := (stdpp.base.empty : locks).

  (** Sequential execution of calls [order] = list of (thread, call). *)
  Fixpoint seq_run (order : list (nat * K)) (s : st D) : list (nat * outcome R) * st D :=
    match order with
    | [] => ([], s)
    | (t, c) :: o => let '(r, s1) := run t (impl c) s in
                     let '(rs, s2) := seq_run o s1 in ((t, r) :: rs, s2)
    end.

  Lemma seq_run_app o1 o2 s :
    seq_run (o1 ++ o2) s =
    (fst (seq_run o1 s) ++ fst (seq_run o2 (snd (seq_run o1 s))),
     snd (seq_run o2 (snd (seq_run o1 s)))).
  Proof.
    revert s. induction o1 as [|[t c] o1 IH]; intros s; simpl.
    - destruct (seq_run o2 s); reflexivity.
    - destruct (run t (impl c) s) as [r s1]. rewrite IH.
      destruct (seq_run o1 s1) as [rs s2]. reflexivity.
  Qed.

  (** Run a program that holds the lock until the lock is free again ([None] if [St] is
      broken on the way). *)
  Fixpoint sec {A} (t : nat) (p : prog C A) (s : st D) : option (prog C A * st D) :=
    match p with
    | Ret _ | Raise _ => None
    | Act c k h =>
        match exec t c s with
        | (Good x, s') =>
            if St (dat s') then match lks s' !! L with None => Some (k x, s') | Some _ => sec t (k x) s' end
            else None
        | (Fail e, s') =>
            if St (dat s') then match lks s' !! L with None => Some (h e, s') | Some _ => sec t (h e) s' end
            else None
        | (Block, _) => None
        end
    end.

  (** The call is over, with result [r]. *)
  Definition aft {A} (r : outcome A) (p : prog C A) : Prop :=
    match r with
    | Good a => p = Ret a
    | Fail e => p = Raise e
    | Block => False
    end.

  (** The call [c] is still to take effect: at the next acquisition of the lock it
      either has no effect on the object, or the effect and result of the whole call.
      Before it, the call may read what cannot change. *)
  Inductive bef (c : K) : prog C R -> Prop :=
  | bef_skip X (c0 : cmd C X) x k h :
      (forall t s, St (dat s) = true -> exec t c0 s = (Good x, s)) ->
      bef c (k x) -> bef c (Act c0 k h)
  | bef_acq k h :
      (forall t d, Inv d -> exists p' d',
         sec t (k tt) (mkst d {[ L := Excl t 1 ]}) = Some (p', mkst d' free) /\
         ((d' = d /\ bef c p') \/
          (mkst d' free = snd (run t (impl c) (mkst d free)) /\
           aft (fst (run t (impl c) (mkst d free))) p'))) ->
      bef c (Act (Acq L Ex) k h).

  Lemma bef_inv c p : bef c p ->
    (exists X (c0 : cmd C X) x k h, p = Act c0 k h /\
       (forall t s, St (dat s) = true -> exec t c0 s = (Good x, s)) /\ bef c (k x)) \/
    exists k h, p = Act (Acq L Ex) k h /\
    forall t d, Inv d -> exists p' d',
         sec t (k tt) (mkst d {[ L := Excl t 1 ]}) = Some (p', mkst d' free) /\
         ((d' = d /\ bef c p') \/
          (mkst d' free = snd (run t (impl c) (mkst d free)) /\
           aft (fst (run t (impl c) (mkst d free))) p')).
  Proof. intros [X c0 x k h H1 H2|k h H]; [left|right]; eauto 10. Qed.

  (** Hypotheses on the calls. *)
  Variable ok : K -> Prop.
  Hypothesis Inv_St : forall d, Inv d -> St d = true.
  Hypothesis impl_bef : forall c, ok c -> bef c (impl c).
  Hypothesis impl_inv : forall t c d, ok c -> Inv d ->
    exists r d', run t (impl c) (mkst d free) = (r, mkst d' free) /\ Inv d' /\ r <> Block.

  Definition wrap (rs : list (outcome R)) (cs : list K) (q : prog C R)
    : prog C (list (outcome R)) :=
    bind (attempt q) (fun r => thread_from (r :: rs) (map impl cs)).

  (** Program of a thread that has the calls [cs] left and is not inside the lock. *)
  Definition outside (rs : list (outcome R)) (cs : list K) (p : prog C (list (outcome R))) : Prop :=
    match cs with
    | [] => p = Ret (rev rs)
    | c :: cs' => exists q, bef c q /\ p = wrap rs cs' q
    end.

  Lemma outside_start rs cs : Forall ok cs -> outside rs cs (thread_from rs (map impl cs)).
  Proof.
    intros H. destruct H as [|c cs Hc _]; simpl; [reflexivity|].
    exists (impl c). split; [apply impl_bef, Hc|reflexivity].
  Qed.

  (** ** The simulation invariant *)
  Definition holder (s : st D) : option nat :=
    match lks s !! L with Some (Excl j _) => Some j | _ => None end.

  Notation results d0 i lin := (events_of i (fst (seq_run lin (mkst d0 free)))).

  Record sim (css : list (list K)) (d0 : D) (lin : list (nat * K))
         (ps : list (prog C (list (outcome R)))) (s : st D) (di : D) : Prop := mksim {
    sim_lin : snd (seq_run lin (mkst d0 free)) = mkst di free;
    sim_inv : Inv di;
    sim_st : St (dat s) = true;
    sim_len : length ps = length css;
    sim_tid : Forall (fun e => fst e < length css) lin;
    (* every thread: linearized calls [events_of i lin], then the remaining calls *)
    sim_thr : forall i cs, css !! i = Some cs -> exists p rest,
        ps !! i = Some p /\ cs = events_of i lin ++ rest /\ Forall ok rest /\
        (holder s <> Some i -> outside (rev (results d0 i lin)) rest p);
    sim_free : lks s !! L = None -> s = mkst di free;
    sim_held : forall ls, lks s !! L = Some ls ->
      exists i n cs, ls = Excl i n /\ css !! i = Some cs /\
      exists q c rest q' d',
        ps !! i = Some (wrap (rev (results d0 i lin)) rest q) /\
        cs = events_of i lin ++ c :: rest /\
        sec i q s = Some (q', mkst d' free) /\
        ((d' = di /\ bef c q') \/
         (mkst d' free = snd (run i (impl c) (mkst di free)) /\
          aft (fst (run i (impl c) (mkst di free))) q'))
  }.

  Lemma exec_owner i X (c : cmd C X) s n r s1 ls :
    exec i c s = (r, s1) -> r <> Block ->
    lks s !! L = Some (Excl i n) -> lks s1 !! L = Some ls -> exists n', ls = Excl i n'.
  Proof.
    intros He Hb Hl Hs. destruct c as [l m|l|X c]; simpl in He.
    - destruct (lock_acq (reent l) i l m (lks s)) as [r' k'] eqn:E. injection He as <- <-.
      simpl in Hs. unfold lock_acq in E.
      destruct (decide (l = L)) as [->|Hne].
      + rewrite Hl in E. destruct m; [|injection E as <- <-; congruence].
        rewrite Nat.eqb_refl in E. destruct (reent L); simpl in E; [|injection E as <- <-; congruence].
        injection E as <- <-. rewrite lookup_insert in Hs. injection Hs as <-. eauto.
      + assert (k' !! L = lks s !! L) as Ek.
        { destruct (lks s !! l) as [[o n0|os]|], m; try (injection E as <- <-; rewrite ?lookup_insert_ne by auto; reflexivity).
          destruct (_ && _)%bool; injection E as <- <-; rewrite ?lookup_insert_ne by auto; reflexivity. }
        rewrite Ek, Hl in Hs. injection Hs as <-. eauto.
    - destruct (lock_rel i l (lks s)) as [r' k'] eqn:E. injection He as <- <-.
      simpl in Hs. unfold lock_rel in E.
      destruct (decide (l = L)) as [->|Hne].
      + rewrite Hl in E. destruct n as [|[|n]]; injection E as <- <-;
          rewrite ?lookup_delete, ?lookup_insert in Hs; try discriminate. injection Hs as <-. eauto.
      + assert (k' !! L = lks s !! L) as Ek.
        { destruct (lks s !! l) as [[o [|[|n0]]|os]|];
            try (injection E as <- <-; rewrite ?lookup_insert_ne, ?lookup_delete_ne by auto; reflexivity).
          destruct (remove1 i os); injection E as <- <-; rewrite ?lookup_insert_ne, ?lookup_delete_ne by auto; reflexivity. }
        rewrite Ek, Hl in Hs. injection Hs as <-. eauto.
    - destruct (cexec c (dat s)) as [r' d']. injection He as <- <-. simpl in Hs.
      rewrite Hl in Hs. injection Hs as <-. eauto.
  Qed.

  Lemma pstep_wrap i rs cs X (c : cmd C X) k h s :
    pstep i (wrap rs cs (Act c k h)) s =
    match exec i c s with
    | (Good x, s') => Some (wrap rs cs (k x), s')
    | (Fail e, s') => Some (wrap rs cs (h e), s')
    | (Block, _) => None
    end.
  Proof. simpl. destruct (exec i c s) as [[x|e|] s']; reflexivity. Qed.

  Lemma events_of_single {X} i j (x : X) : events_of i [(j, x)] = if (j =? i)%nat then [x] else [].
  Proof. unfold events_of. simpl. destruct (j =? i)%nat; reflexivity. Qed.

  (** Threads other than [i] keep their state when thread [i] moves. *)
  Lemma sim_step css d0 lin ps s di i ps' s' :
    sim css d0 lin ps s di -> cstep i (ps, s) = Some (ps', s') ->
    exists lin' di', (lin' = lin \/ exists c, lin' = lin ++ [(i, c)]) /\
                     sim css d0 lin' ps' s' di'.
  Proof.
    intros [Hlin Hinv Hst Hlen Htid Hthr Hfree Hheld] Hstep.
    unfold cstep in Hstep. simpl in Hstep.
    destruct (ps !! i) as [p|] eqn:Ep; [|discriminate].
    destruct (pstep i p s) as [[p' s1]|] eqn:Es; [|discriminate].
    injection Hstep as <- <-.
    assert (Hi : i < length css) by (rewrite <- Hlen; eapply lookup_lt_Some; eauto).
    destruct (lookup_lt_is_Some_2 css i Hi) as [cs Hcs].
    assert (Hothers : forall lin', (lin' = lin \/ exists c, lin' = lin ++ [(i, c)]) ->
      forall j csj, j <> i -> css !! j = Some csj ->
      holder s <> Some j -> exists p rest,
        <[i:=p']> ps !! j = Some p /\ csj = events_of j lin' ++ rest /\ Forall ok rest /\
        outside (rev (results d0 j lin')) rest p).
    { intros lin' Hl j csj Hne Hj Hh. destruct (Hthr j csj Hj) as (p0 & rest & H1 & H2 & H3 & H4).
      exists p0, rest. rewrite list_lookup_insert_ne by auto. split; [exact H1|].
      destruct Hl as [->|[c ->]]; [auto|].
      rewrite events_of_app, events_of_single. apply Nat.eqb_neq in Hne.
      rewrite (Nat.eqb_sym i j), Hne, app_nil_r. split; [exact H2|]. split; [exact H3|].
      rewrite seq_run_app. simpl fst. rewrite events_of_app.
      destruct (run i (impl c) _) as [r0 s0]. simpl. rewrite events_of_single.
      rewrite (Nat.eqb_sym i j), Hne, app_nil_r. auto. }
    destruct (lks s !! L) as [ls|] eqn:El.
    - (* the lock is held *)
      destruct (Hheld ls eq_refl) as (j & n & csj & -> & Hj & q & c & rest & q' & d' & Hp & Hcsj & Hsec & Hcase).
      assert (Hho : holder s = Some j) by (unfold holder; rewrite El; reflexivity).
      destruct (decide (j = i)) as [->|Hne].
      + rewrite Hcs in Hj. injection Hj as <-. rewrite Ep in Hp. injection Hp as ->.
        assert (Hok : Forall ok (c :: rest)).
        { destruct (Hthr i cs Hcs) as (p0 & rest0 & _ & H2 & H3 & _).
          rewrite Hcsj in H2. apply app_inv_head in H2. subst rest0. exact H3. }
        destruct q as [a|e|X c0 k h]; [discriminate Hsec|discriminate Hsec|].
        rewrite pstep_wrap in Es. simpl in Hsec.
        destruct (exec i c0 s) as [r s2] eqn:Ee.
        assert (Hr : exists q1, r <> Block /\ p' = wrap (rev (results d0 i lin)) rest q1 /\ s1 = s2 /\ St (dat s2) = true /\
                    match lks s2 !! L with None => Some (q1, s2) | Some _ => sec i q1 s2 end
                      = Some (q', mkst d' free)).
        { destruct r as [x|e|]; [| |discriminate Es]; injection Es as <- <-;
            (destruct (St (dat s2)); [|discriminate Hsec]);
            (eexists; split; [discriminate|]; split; [reflexivity|]; split; [reflexivity|]; split; [reflexivity|]; exact Hsec). }
        clear Hsec Es. destruct Hr as (q1 & Hb & -> & -> & Hst2 & Hsec).
        destruct (lks s2 !! L) as [ls2|] eqn:El2.
        * (* still inside *)
          destruct (exec_owner i X c0 s n r s2 ls2 Ee Hb El El2) as [n2 ->].
          assert (Hho2 : holder s2 = Some i) by (unfold holder; rewrite El2; reflexivity).
          exists lin, di. split; [auto|]. split; auto.
          -- rewrite insert_length. exact Hlen.
          -- intros j csj Hj. destruct (decide (j = i)) as [->|Hji].
             ++ rewrite Hcs in Hj. injection Hj as <-.
                eexists _, (c :: rest). rewrite list_lookup_insert by (rewrite Hlen; exact Hi).
                split; [reflexivity|]. split; [exact Hcsj|]. split; [exact Hok|].
                intros Hn. rewrite Hho2 in Hn. congruence.
             ++ destruct (Hothers lin (or_introl eq_refl) j csj Hji Hj ltac:(rewrite Hho; congruence))
                  as (p0 & rest0 & H1 & H2 & H3 & H4). eauto 10.
          -- intros H. congruence.
          -- intros ls Hls. rewrite El2 in Hls. injection Hls as <-. exists i, n2, cs.
             split; [reflexivity|]. split; [exact Hcs|].
             exists q1, c, rest, q', d'. rewrite list_lookup_insert by (rewrite Hlen; exact Hi).
             split; [reflexivity|]. split; [exact Hcsj|]. split; [exact Hsec|]. exact Hcase.
        * (* the section ends *)
          injection Hsec as -> ->.
          assert (Hho2 : holder (mkst d' free) = None) by (unfold holder; simpl; rewrite lookup_empty; reflexivity).
          destruct Hcase as [[-> Hbef]|[Hd' Haft]].
          -- exists lin, di. split; [auto|]. split; auto.
             ++ rewrite insert_length. exact Hlen.
             ++ intros j csj Hj. destruct (decide (j = i)) as [->|Hji].
                ** rewrite Hcs in Hj. injection Hj as <-.
                   eexists _, (c :: rest). rewrite list_lookup_insert by (rewrite Hlen; exact Hi).
                   split; [reflexivity|]. split; [exact Hcsj|]. split; [exact Hok|].
                   intros _. simpl. eauto.
                ** destruct (Hothers lin (or_introl eq_refl) j csj Hji Hj ltac:(rewrite Hho; congruence))
                     as (p0 & rest0 & H1 & H2 & H3 & H4). eauto 10.
             ++ intros ls Hls. simpl in Hls. rewrite lookup_empty in Hls. discriminate.
          -- assert (Hokc : ok c) by (inversion Hok; assumption).
             assert (Hokr : Forall ok rest) by (inversion Hok; assumption).
             destruct (impl_inv i c di Hokc Hinv) as (r0 & d1 & Hrun & Hinv1 & Hnb).
             rewrite Hrun in Hd', Haft. simpl in Hd', Haft. injection Hd' as ->.
             exists (lin ++ [(i, c)]), d1. split; [eauto|].
             assert (Hlin' : seq_run (lin ++ [(i, c)]) (mkst d0 free) =
                             (fst (seq_run lin (mkst d0 free)) ++ [(i, r0)], mkst d1 free)).
             { rewrite seq_run_app, Hlin. simpl. rewrite Hrun. reflexivity. }
             split; auto.
             ++ rewrite Hlin'. reflexivity.
             ++ rewrite insert_length. exact Hlen.
             ++ apply Forall_app. split; [exact Htid|]. constructor; [exact Hi|constructor].
             ++ intros j csj Hj. destruct (decide (j = i)) as [->|Hji].
                ** rewrite Hcs in Hj. injection Hj as <-.
                   eexists _, rest. rewrite list_lookup_insert by (rewrite Hlen; exact Hi).
                   split; [reflexivity|].
                   split; [rewrite events_of_app, events_of_single, Nat.eqb_refl, <- app_assoc; exact Hcsj|].
                   split; [exact Hokr|]. intros _.
                   rewrite Hlin'. simpl fst. rewrite events_of_app, events_of_single, Nat.eqb_refl, rev_app_distr.
                   simpl rev. simpl app.
                   assert (Ew : wrap (rev (results d0 i lin)) rest q' =
                                thread_from (r0 :: rev (results d0 i lin)) (map impl rest)).
                   { destruct r0; simpl in Haft; [subst; reflexivity|subst; reflexivity|contradiction]. }
                   rewrite Ew. apply outside_start. exact Hokr.
                ** destruct (Hothers (lin ++ [(i, c)]) (or_intror (ex_intro _ c eq_refl)) j csj Hji Hj
                               ltac:(rewrite Hho; congruence)) as (p0 & rest0 & H1 & H2 & H3 & H4). eauto 10.
             ++ intros ls Hls. simpl in Hls. rewrite lookup_empty in Hls. discriminate.
      + (* held by another thread: thread i cannot move *)
        destruct (Hthr i cs Hcs) as (p0 & rest0 & H1 & H2 & H3 & H4).
        rewrite Ep in H1. injection H1 as <-.
        specialize (H4 ltac:(rewrite Hho; congruence)).
        destruct rest0 as [|c0 rest0]; simpl in H4; [subst p; discriminate Es|].
        destruct H4 as (q0 & Hbef & ->). destruct (bef_inv c0 q0 Hbef) as [(X & c1 & x & k & h & -> & Hex & Hb)|(k & h & -> & _)].
        { (* it reads what cannot change *)
          rewrite pstep_wrap, (Hex i s Hst) in Es. injection Es as <- <-.
          exists lin, di. split; [auto|]. split; auto.
          - rewrite insert_length. exact Hlen.
          - intros k0 csk Hk. destruct (decide (k0 = i)) as [->|Hki].
            + rewrite Hcs in Hk. injection Hk as <-.
              eexists _, (c0 :: rest0). rewrite list_lookup_insert by (rewrite Hlen; exact Hi).
              split; [reflexivity|]. split; [exact H2|]. split; [exact H3|]. intros _. simpl. eauto.
            + destruct (Hthr k0 csk Hk) as (p0 & rest1 & G1 & G2 & G3 & G4).
              exists p0, rest1. rewrite list_lookup_insert_ne by auto. auto.
          - intros H. congruence.
          - intros ls Hls. rewrite El in Hls. injection Hls as <-. exists j, n, csj.
            split; [reflexivity|]. split; [exact Hj|].
            exists q, c, rest, q', d'. rewrite list_lookup_insert_ne by auto. auto. }
        exfalso.
        rewrite pstep_wrap in Es. simpl in Es. unfold lock_acq in Es. rewrite El in Es.
        apply Nat.eqb_neq in Hne. rewrite Hne, andb_false_r in Es. discriminate.
    - (* the lock is free *)
      specialize (Hfree eq_refl). subst s. 
      assert (Hho : holder (mkst di free) = None) by (unfold holder; simpl; rewrite lookup_empty; reflexivity).
      destruct (Hthr i cs Hcs) as (p0 & rest0 & H1 & H2 & H3 & H4).
      rewrite Ep in H1. injection H1 as <-. specialize (H4 ltac:(rewrite Hho; discriminate)).
      destruct rest0 as [|c0 rest0]; simpl in H4; [subst p; discriminate Es|].
      destruct H4 as (q0 & Hbef & ->). destruct (bef_inv c0 q0 Hbef) as [(X & c1 & x & k & h & -> & Hex & Hb)|(k & h & -> & Hk)].
      { rewrite pstep_wrap, (Hex i _ Hst) in Es. injection Es as <- <-.
        exists lin, di. split; [auto|]. split; auto.
        - rewrite insert_length. exact Hlen.
        - intros j csj Hj. destruct (decide (j = i)) as [->|Hji].
          + rewrite Hcs in Hj. injection Hj as <-.
            eexists _, (c0 :: rest0). rewrite list_lookup_insert by (rewrite Hlen; exact Hi).
            split; [reflexivity|]. split; [exact H2|]. split; [exact H3|]. intros _. simpl. eauto.
          + destruct (Hothers lin (or_introl eq_refl) j csj Hji Hj ltac:(rewrite Hho; discriminate))
              as (p1 & rest1 & G1 & G2 & G3 & G4). eauto 10.
        - intros ls Hls. simpl in Hls. rewrite lookup_empty in Hls. discriminate. }
      rewrite pstep_wrap in Es. simpl in Es. unfold lock_acq in Es. rewrite lookup_empty in Es.
      injection Es as <- <-. rewrite insert_empty.
      destruct (Hk i di Hinv) as (q' & d' & Hsec & Hcase).
      set (s1 := mkst di {[L := Excl i 1]}) in *.
      assert (El1 : lks s1 !! L = Some (Excl i 1)) by (simpl; apply lookup_singleton).
      assert (Hho1 : holder s1 = Some i) by (unfold holder; rewrite El1; reflexivity).
      exists lin, di. split; [auto|]. split; auto.
      + rewrite insert_length. exact Hlen.
      + intros j csj Hj. destruct (decide (j = i)) as [->|Hji].
        * rewrite Hcs in Hj. injection Hj as <-.
          eexists _, (c0 :: rest0). rewrite list_lookup_insert by (rewrite Hlen; exact Hi).
          split; [reflexivity|]. split; [exact H2|]. split; [exact H3|].
          intros Hn. congruence.
        * destruct (Hothers lin (or_introl eq_refl) j csj Hji Hj ltac:(rewrite Hho; discriminate))
            as (p1 & rest1 & G1 & G2 & G3 & G4). eauto 10.
      + intros H. congruence.
      + intros ls Hls. rewrite El1 in Hls. injection Hls as <-. exists i, 1, cs.
        split; [reflexivity|]. split; [exact Hcs|].
        exists (k tt), c0, rest0, q', d'. rewrite list_lookup_insert by (rewrite Hlen; exact Hi).
        split; [reflexivity|]. split; [exact H2|]. split; [exact Hsec|]. exact Hcase.
  Qed.

  Lemma sim_init css d0 : Inv d0 -> Forall (Forall ok) css ->
    sim css d0 [] (map (fun cs => thread (map impl cs)) css) (mkst d0 free) d0.
  Proof.
    intros Hi Hok. split; auto.
    - apply map_length.
    - intros i cs Hcs. rewrite list_lookup_fmap, Hcs.
      eexists _, cs. split; [reflexivity|]. split; [reflexivity|].
      assert (Hc : Forall ok cs) by (rewrite Forall_lookup in Hok; eauto).
      split; [exact Hc|]. intros _. apply outside_start, Hc.
    - intros ls Hls. simpl in Hls. rewrite lookup_empty in Hls. discriminate.
  Qed.

  (** Linearization points: along any schedule the linearization only grows, at most one
      call per step, and that call belongs to the thread that moves. *)
  Lemma sim_sched css d0 sch : forall lin ps s di ps' s',
    sim css d0 lin ps s di -> sched_run sch (ps, s) = Some (ps', s') ->
    exists more di', sim css d0 (lin ++ more) ps' s' di' /\
      forall sch1 sch2 ps1 s1, sch = sch1 ++ sch2 -> sched_run sch1 (ps, s) = Some (ps1, s1) ->
      exists m1 m2 di1, more = m1 ++ m2 /\ sim css d0 (lin ++ m1) ps1 s1 di1.
  Proof.
    induction sch as [|i sch IH]; intros lin ps s di ps' s' Hs Hr; simpl in Hr.
    - injection Hr as <- <-. exists [], di. rewrite app_nil_r. split; [exact Hs|].
      intros [|j sch1] sch2 ps1 s1 Hsch; [|discriminate]. simpl. intros [= <- <-].
      exists [], [], di. split; [reflexivity|]. rewrite app_nil_r. exact Hs.
    - destruct (cstep i (ps, s)) as [[ps1 s1]|] eqn:E; [|discriminate].
      destruct (sim_step css d0 lin ps s di i ps1 s1 Hs E) as (lin1 & di1 & Hm & Hs1).
      destruct (IH lin1 ps1 s1 di1 ps' s' Hs1 Hr) as (more & di2 & Hs2 & Hsplit).
      assert (exists m0, lin1 = lin ++ m0) as [m0 ->].
      { destruct Hm as [->|[c ->]]; [exists []; rewrite app_nil_r; reflexivity|eauto]. }
      exists (m0 ++ more), di2. rewrite app_assoc. split; [exact Hs2|].
      intros [|j sch1] sch2 ps2 s2 Hsch Hr1.
      + injection Hr1 as <- <-. exists [], (m0 ++ more), di. split; [reflexivity|]. rewrite app_nil_r. exact Hs.
      + injection Hsch as <- Hsch. simpl in Hr1. rewrite E in Hr1.
        destruct (Hsplit sch1 sch2 ps2 s2 Hsch Hr1) as (m1 & m2 & di3 & -> & Hs3).
        exists (m0 ++ m1), m2, di3. rewrite app_assoc. split; [reflexivity|]. rewrite app_assoc. exact Hs3.
  Qed.

  (** A thread that has completed calls with results [rs] (latest first) and still has to
      complete the calls [cs] (the first of which may have been started). *)
  Definition pending (rs : list (outcome R)) (cs : list K) (p : prog C (list (outcome R))) : Prop :=
    match cs with
    | [] => p = Ret (rev rs)
    | _ :: cs' => exists q, p = wrap rs cs' q
    end.

  Lemma sim_pending css d0 lin ps s di i cs :
    sim css d0 lin ps s di -> css !! i = Some cs ->
    exists p rest, ps !! i = Some p /\ cs = events_of i lin ++ rest /\
                   pending (rev (results d0 i lin)) rest p.
  Proof.
    intros [Hlin Hinv Hst Hlen Htid Hthr Hfree Hheld] Hcs.
    destruct (Hthr i cs Hcs) as (p & rest & H1 & H2 & H3 & H4).
    destruct (decide (holder s = Some i)) as [Hh|Hh].
    - unfold holder in Hh. destruct (lks s !! L) as [ls|] eqn:El; [|discriminate].
      destruct (Hheld ls eq_refl) as (j & n & csj & -> & Hj & q & c & rest' & q' & d' & Hp & Hcsj & _).
      injection Hh as ->. rewrite Hcs in Hj. injection Hj as <-.
      exists (wrap (rev (results d0 i lin)) rest' q), (c :: rest'). simpl. eauto.
    - exists p, rest. split; [exact H1|]. split; [exact H2|]. specialize (H4 Hh).
      destruct rest; simpl in *; [exact H4|]. destruct H4 as (q & _ & ->). eauto.
  Qed.

  (** Linearizability of complete executions: one order explains all results and the
      final state, and at every moment of the execution the calls completed so far are
      exactly the calls of a prefix of that order. *)
  Theorem reduction css d0 sch ps' s' :
    Inv d0 -> Forall (Forall ok) css ->
    sched_run sch (map (fun cs => thread (map impl cs)) css, mkst d0 free) = Some (ps', s') ->
    Forall (fun p => finished p = true) ps' ->
    exists order : list (nat * K),
      Forall (fun e => fst e < length css) order /\
      (forall i cs, css !! i = Some cs -> events_of i order = cs) /\
      snd (seq_run order (mkst d0 free)) = s' /\
      (forall i p, ps' !! i = Some p ->
         p = Ret (events_of i (fst (seq_run order (mkst d0 free))))) /\
      (forall sch1 sch2 ps1 s1, sch = sch1 ++ sch2 ->
         sched_run sch1 (map (fun cs => thread (map impl cs)) css, mkst d0 free) = Some (ps1, s1) ->
         exists o1 o2, order = o1 ++ o2 /\
         forall i cs, css !! i = Some cs -> exists p rest,
           ps1 !! i = Some p /\ cs = events_of i o1 ++ rest /\
           pending (rev (results d0 i o1)) rest p).
  Proof.
    intros Hi Hok Hr Hfin.
    destruct (sim_sched css d0 sch _ _ _ _ _ _ (sim_init css d0 Hi Hok) Hr)
      as (lin & di & [Hlin Hinv Hst Hlen Htid Hthr Hfree Hheld] & Hsplit). simpl app in *.
    exists lin. split; [exact Htid|].
    (* no thread holds the lock *)
    assert (Hnone : lks s' !! L = None).
    { destruct (lks s' !! L) as [ls|] eqn:El; [|reflexivity]. exfalso.
      destruct (Hheld ls eq_refl) as (j & n & csj & -> & Hj & q & c & rest & q' & d' & Hp & _ & Hsec & _).
      rewrite Forall_lookup in Hfin. specialize (Hfin j _ Hp).
      destruct q; [discriminate Hsec|discriminate Hsec|]. discriminate Hfin. }
    assert (Hho : holder s' = None) by (unfold holder; rewrite Hnone; reflexivity).
    assert (Hall : forall i cs, css !! i = Some cs ->
      events_of i lin = cs /\ ps' !! i = Some (Ret (results d0 i lin))).
    { intros i cs Hcs. destruct (Hthr i cs Hcs) as (p & rest & H1 & H2 & H3 & H4).
      specialize (H4 ltac:(rewrite Hho; discriminate)).
      destruct rest as [|c rest]; simpl in H4.
      - subst p. rewrite rev_involutive in H1. rewrite app_nil_r in H2. auto.
      - exfalso. destruct H4 as (q & Hb & ->).
        destruct (bef_inv c q Hb) as [(X & c1 & x & k & h & -> & _)|(k & h & -> & _)];
          rewrite Forall_lookup in Hfin; specialize (Hfin i _ H1); discriminate. }
    split; [intros i cs Hcs; apply (Hall i cs Hcs)|].
    split; [rewrite Hlin, Hfree; auto|]. split.
    - intros i p Hp. assert (Hlt : i < length css) by (rewrite <- Hlen; eapply lookup_lt_Some; eauto).
      destruct (lookup_lt_is_Some_2 css i Hlt) as [cs Hcs].
      destruct (Hall i cs Hcs) as [_ H]. rewrite Hp in H. injection H as ->. reflexivity.
    - intros sch1 sch2 ps1 s1 Hsch Hr1.
      destruct (Hsplit sch1 sch2 ps1 s1 Hsch Hr1) as (m1 & m2 & di1 & -> & Hs1).
      exists m1, m2. split; [reflexivity|]. intros i cs Hcs.
      exact (sim_pending css d0 m1 ps1 s1 di1 i cs Hs1 Hcs).
  Qed.

  (** No execution of such threads gets stuck: some thread can move unless all are finished. *)
  Theorem reduction_progress css d0 sch ps' s' :
    Inv d0 -> Forall (Forall ok) css ->
    sched_run sch (map (fun cs => thread (map impl cs)) css, mkst d0 free) = Some (ps', s') ->
    Forall (fun p => finished p = true) ps' \/ exists i, cstep i (ps', s') <> None.
  Proof.
    intros Hi Hok Hr.
    destruct (sim_sched css d0 sch _ _ _ _ _ _ (sim_init css d0 Hi Hok) Hr)
      as (lin & di & [Hlin Hinv Hst Hlen Htid Hthr Hfree Hheld] & _).
    destruct (lks s' !! L) as [ls|] eqn:El.
    - right. destruct (Hheld ls eq_refl) as (j & n & csj & -> & Hj & q & c & rest & q' & d' & Hp & _ & Hsec & _).
      exists j. unfold cstep. simpl fst. rewrite Hp.
      destruct q as [a|e|X c0 k h]; [discriminate Hsec|discriminate Hsec|].
      simpl snd. rewrite pstep_wrap. simpl in Hsec.
      destruct (exec j c0 s') as [[x|e|] s2]; discriminate.
    - assert (Hho : holder s' = None) by (unfold holder; rewrite El; reflexivity).
      destruct (decide (Forall (fun p => finished p = true) ps')) as [Hf|Hf]; [left; exact Hf|right].
      apply not_Forall_Exists in Hf; [|apply _].
      apply Exists_exists in Hf. destruct Hf as (p & Hp & Hnf).
      apply elem_of_list_In, elem_of_list_lookup in Hp. destruct Hp as [i Hp].
      assert (Hlt : i < length css) by (rewrite <- Hlen; eapply lookup_lt_Some; eauto).
      destruct (lookup_lt_is_Some_2 css i Hlt) as [cs Hcs].
      destruct (Hthr i cs Hcs) as (p0 & rest & H1 & H2 & H3 & H4).
      rewrite Hp in H1. injection H1 as <-. specialize (H4 ltac:(rewrite Hho; discriminate)).
      destruct rest as [|c rest]; simpl in H4; [subst p; destruct Hnf; reflexivity|].
      destruct H4 as (q & Hb & ->).
      exists i. unfold cstep. simpl fst. rewrite Hp. simpl snd.
      destruct (bef_inv c q Hb) as [(X & c1 & x & k & h & -> & Hex & _)|(k & h & -> & _)]; rewrite pstep_wrap.
      + rewrite (Hex i s' Hst). discriminate.
      + simpl. unfold lock_acq. rewrite El. discriminate.
  Qed.
End Reduction.

(** ** Tools to establish [bef] for [with lock:] bodies *)
Section Tools.
  Context {C : Type -> Type} {D : Type} `{!Sem C D}.
  Variable L : nat.
  Variable St : D -> bool.
  Notation free := (stdpp.base.empty : locks).

  Lemma sec_bind {A B} t (p : prog C A) (f : A -> prog C B) : forall s p' s',
    sec L St t p s = Some (p', s') -> sec L St t (bind p f) s = Some (bind p' f, s').
  Proof.
    induction p as [a|e|X c k IHk h IHh]; intros s p' s' H; simpl in *; try discriminate.
    destruct (exec t c s) as [[x|e|] s1]; try discriminate;
      (destruct (St (dat s1)); [|discriminate]);
      (destruct (lks s1 !! L); [auto|injection H as <- <-; reflexivity]).
  Qed.

  (** A lock-free body followed by the release of the lock. *)
  Lemma sec_body {A} t (body : prog C A) : (forall d, St d = true) -> nolock body -> forall d r d',
    drun body d = (r, d') -> r <> Block ->
    sec L St t (try_finally body (release L)) (mkst d {[ L := Excl t 1 ]}) =
    Some (match r with Good a => Ret a | Fail e => Raise e | Block => Raise OutOfFuel end,
          mkst d' free).
  Proof.
    intros HS. induction 1 as [a|e|X c k h Hk IHk Hh IHh]; intros d r d' Hr Hb.
    - simpl in Hr. injection Hr as <- <-. simpl.
      unfold lock_rel. simpl. rewrite lookup_singleton. simpl. rewrite delete_singleton, lookup_empty, HS.
      reflexivity.
    - simpl in Hr. injection Hr as <- <-. simpl.
      unfold lock_rel. simpl. rewrite lookup_singleton. simpl. rewrite delete_singleton, lookup_empty, HS.
      reflexivity.
    - simpl in Hr |- *. destruct (cexec c d) as [[x|e|] d1]; simpl;
        rewrite ?HS, ?lookup_singleton; try (injection Hr as <- <-; congruence).
      + apply IHk; assumption.
      + apply IHh; assumption.
  Qed.
End Tools.

(** ** Rely reasoning: facts about one thread that hold whatever the others do, as long
    as every command keeps the data invariant [I]. *)
Section Rely.
  Context {C : Type -> Type} {D : Type} `{!Sem C D}.
  Variable I : D -> Prop.
  Hypothesis I_exec : forall X (c : C X) d, I d -> I (snd (cexec c d)).

  Fixpoint safe {A} (Q : A -> Prop) (p : prog C A) : Prop :=
    match p with
    | Ret a => Q a
    | Raise _ => True
    | Act c k h =>
        forall t s, I (dat s) ->
        match exec t c s with
        | (Good x, _) => safe Q (k x)
        | (Fail e, _) => safe Q (h e)
        | (Block, _) => True
        end
    end.

  Lemma exec_I t X (c : cmd C X) s : I (dat s) -> I (dat (snd (exec t c s))).
  Proof.
    intros H. destruct c as [l m|l|X c]; simpl.
    - destruct (lock_acq _ _ _ _ _). exact H.
    - destruct (lock_rel _ _ _). exact H.
    - pose proof (I_exec X c (dat s) H) as H'. destruct (cexec c (dat s)). exact H'.
  Qed.

  Lemma safe_bind {A B} (Q : A -> Prop) (Q' : B -> Prop) (p : prog C A) (f : A -> prog C B) :
    safe Q p -> (forall a, Q a -> safe Q' (f a)) -> safe Q' (bind p f).
  Proof.
    intros H Hf. induction p as [a|e|X c k IHk h IHh]; simpl in *; auto.
    intros t s Hs. specialize (H t s Hs). destruct (exec t c s) as [[x|e|] s']; auto.
  Qed.

  Lemma safe_weaken {A} (Q Q' : A -> Prop) (p : prog C A) :
    safe Q p -> (forall a, Q a -> Q' a) -> safe Q' p.
  Proof.
    intros H Hf. induction p as [a|e|X c k IHk h IHh]; simpl in *; auto.
    intros t s Hs. specialize (H t s Hs). destruct (exec t c s) as [[x|e|] s']; auto.
  Qed.

  Lemma safe_true {A} (p : prog C A) : safe (fun _ => True) p.
  Proof.
    induction p as [a|e|X c k IHk h IHh]; simpl; auto.
    intros t s Hs. destruct (exec t c s) as [[x|e|] s']; auto.
  Qed.

  Lemma safe_attempt {A} (Q : A -> Prop) (p : prog C A) :
    safe Q p -> safe (fun r => match r with Good a => Q a | Fail _ => True | Block => False end) (attempt p).
  Proof.
    intros H. induction p as [a|e|X c k IHk h IHh]; simpl in *; auto.
    intros t s Hs. specialize (H t s Hs). destruct (exec t c s) as [[x|e|] s']; auto.
  Qed.

  Lemma safe_finally {A} (Q : A -> Prop) (p : prog C A) fin :
    safe Q p -> safe Q (try_finally p fin).
  Proof.
    intros H. induction p as [a|e|X c k IHk h IHh]; simpl in *.
    - eapply safe_bind; [apply safe_true|]. intros _ _. exact H.
    - eapply safe_bind; [apply safe_true|]. simpl. auto.
    - intros t s Hs. specialize (H t s Hs). destruct (exec t c s) as [[x|e|] s']; auto.
  Qed.

  Lemma safe_with {A} (Q : A -> Prop) l m (p : prog C A) :
    safe Q p -> safe Q (with_lock l m p).
  Proof.
    intros H t s Hs. destruct (exec t (Acq l m) s) as [[x|e|] s']; simpl; auto.
    apply safe_finally, H.
  Qed.

  Lemma safe_op {X} (Q : X -> Prop) (c : C X) :
    (forall d x d', I d -> cexec c d = (Good x, d') -> Q x) -> safe Q (op c).
  Proof.
    intros H t s Hs. simpl. destruct (cexec c (dat s)) as [[x|e|] d'] eqn:E; simpl; eauto.
  Qed.

  Context {K R : Type} (impl : K -> prog C R) (Q : K -> R -> Prop).
  Hypothesis impl_safe : forall c, safe (Q c) (impl c).

  Definition answers (c : K) (r : outcome R) : Prop :=
    match r with Good a => Q c a | Fail _ => True | Block => False end.

  Lemma safe_thread cs : forall rs,
    safe (fun l => exists rs', l = rev rs ++ rs' /\ Forall2 answers cs rs')
         (thread_from rs (map impl cs)).
  Proof.
    induction cs as [|c cs IH]; intros rs; simpl.
    - exists []. rewrite app_nil_r. split; [reflexivity|constructor].
    - eapply safe_bind; [apply safe_attempt, impl_safe|]. intros r Hr.
      eapply safe_weaken; [apply IH|]. intros l (rs' & -> & HF).
      exists (r :: rs'). simpl. rewrite <- app_assoc. split; [reflexivity|].
      constructor; [exact Hr|exact HF].
  Qed.

  Lemma safe_sched sch : forall (ps ps' : list (prog C (list (outcome R)))) s s' i p Qi,
    I (dat s) -> sched_run sch (ps, s) = Some (ps', s') ->
    ps !! i = Some p -> safe Qi p -> exists p', ps' !! i = Some p' /\ safe Qi p'.
  Proof.
    induction sch as [|j sch IH]; intros ps ps' s s' i p Qi Hs Hr Hp Hsafe; simpl in Hr.
    - injection Hr as <- <-. eauto.
    - destruct (cstep j (ps, s)) as [[ps1 s1]|] eqn:E; [|discriminate].
      unfold cstep in E. simpl in E. destruct (ps !! j) as [pj|] eqn:Ej; [|discriminate].
      destruct (pstep j pj s) as [[pj' sj]|] eqn:Es; [|discriminate]. injection E as <- <-.
      unfold pstep in Es. destruct pj as [a|e|X c k h]; try discriminate.
      pose proof (exec_I j X c s Hs) as Hs1.
      assert (Hj : safe Qi (Act c k h) -> safe Qi pj' /\ I (dat sj)).
      { intros Hq. specialize (Hq j s Hs). 
        destruct (exec j c s) as [[x|e|] s2]; try discriminate; injection Es as <- <-; auto. }
      assert (HI : I (dat sj)).
      { destruct (exec j c s) as [[x|e|] s2]; try discriminate; injection Es as <- <-; auto. }
      destruct (decide (i = j)) as [->|Hne].
      + rewrite Ej in Hp. injection Hp as <-. 
        apply (IH _ _ _ _ j pj' Qi HI Hr); [|apply Hj, Hsafe].
        apply list_lookup_insert. eapply lookup_lt_Some, Ej.
      + apply (IH _ _ _ _ i p Qi HI Hr); [|exact Hsafe].
        rewrite list_lookup_insert_ne by auto. exact Hp.
  Qed.

  Theorem rely css s sch ps' s' i cs rs :
    I (dat s) ->
    sched_run sch (map (fun cs => thread (map impl cs)) css, s) = Some (ps', s') ->
    css !! i = Some cs -> ps' !! i = Some (Ret rs) -> Forall2 answers cs rs.
  Proof.
    intros Hs Hr Hc Hp.
    assert (H0 : map (fun cs => thread (map impl cs)) css !! i = Some (thread (map impl cs)))
      by (rewrite list_lookup_fmap, Hc; reflexivity).
    destruct (safe_sched sch _ _ _ _ i _ _ Hs Hr H0 (safe_thread cs [])) as (p' & Hp' & Hsafe).
    - rewrite Hp in Hp'. injection Hp' as <-. simpl in Hsafe.
      destruct Hsafe as (rs' & -> & HF). exact HF.
  Qed.
End Rely.
