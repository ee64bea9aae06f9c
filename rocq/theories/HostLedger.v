(** * HostLedger: proofs of C86

    [ok i p ph R]: whatever the other threads do, the program [p] of thread [i] goes on
    from the phase [ph]; its parts, its outcome and its last phase satisfy [R].  Inside of
    a section of the lock, [b] is the buffer of the mirror and [v] is the state in the
    account. *)
From stdpp Require Import gmap.
From Coq Require Import String.
From Coq Require Import List NArith ZArith Bool Arith Lia.
From Verif Require Import PyStr Prog ProgFacts PyIO Base Spec SpecFacts LineBuf Json Host HostCli HostCliFacts HostLazy HostLazySpec
  MirLedgerSpec HostLedgerSpec.
From Verif Require ProcFacts MirLedger.
Import ListNotations.
Local Open Scope prog_scope.
Local Open Scope nat_scope.

Inductive phase := Out | In (m : nat) (b : sio) (v : hst).
Definition bview (b : sio) : hst := mkhst (if sclosed b then [] else sval b) (sclosed b) None.
Definition binv (b : sio) : Prop := sclosed b = true \/ spos b = length (sval b).
Definition reqs (es : list hev) : list (request * reply) := flat_map asked_of es.

Lemma hmoves_app ag e1 e2 v1 v2 v3 : hmoves ag e1 v1 v2 -> hmoves ag e2 v2 v3 -> hmoves ag (e1 ++ e2) v1 v3.
Proof. intros H H2. induction H; [exact H2|]. simpl. econstructor; eauto. Qed.
Lemma hmoves_one ag e v1 v2 : hmove ag e v1 v2 -> hmoves ag [e] v1 v2.
Proof. intros H. econstructor; [exact H|constructor]. Qed.
Lemma served_app E x1 x2 n1 n2 n3 : served E x1 n1 n2 -> served E x2 n2 n3 -> served E (x1 ++ x2) n1 n3.
Proof. intros H H2. induction H; [exact H2|]. simpl. econstructor; eauto. Qed.
Lemma asked_app e1 e2 : asked (e1 ++ e2) = asked e1 ++ asked e2.
Proof. apply flat_map_app. Qed.
Lemma asked_own i es : asked (map (pair i) es) = reqs es.
Proof. unfold asked, reqs. induction es as [|e es IH]; [reflexivity|]. simpl. f_equal. exact IH. Qed.

Section OK.
  Variables (E : henv) (M : lmir) (n : nat).
  Local Instance lsemL : Sem lcmd lworld := lsem E.
  Notation J := (lm_id M).
  Notation ag := (lm_aggr M).
  Notation L := (rlock n).

  Section Thread.
    Variable i : nat.
    Notation mv es := (hmoves ag (map (pair i) es)).
    Definition own {X} (j : nat) (f : sio -> outcome X * sio) (ph : phase) (Q : phase -> list hev -> outcome X -> Prop) : Prop :=
      j = J /\ match ph with In m b v => fst (f b) <> Block /\ Q (In m (snd (f b)) v) [] (fst (f b)) | Out => False end.
    Definition stepr (r : request) (ph : phase) (Q : phase -> list hev -> reply -> Prop) : Prop :=
      forall a, a <> Block ->
      match ph with
      | Out => Q Out [HReq r a] a
      | In m b v => exists es v', reqs es = [(r, a)] /\ mv es v v' /\ Q (In m b v') es a
      end.
    Definition stepo {X} (c : ccmd X) (ph : phase) : (phase -> list hev -> outcome X -> Prop) -> Prop :=
      match c in ccmd X return (phase -> list hev -> outcome X -> Prop) -> Prop with
      | MClosed j => own j sio_closed ph
      | MTell j => own j sio_tell ph
      | MGetvalue j => own j sio_getvalue ph
      | MPut j s => own j (sio_write s) ph
      | MSeek0 j => own j sio_seek0 ph
      | MTruncate0 j => own j sio_truncate0 ph
      | MClose j => own j sio_close ph
      | MFlush j => own j sio_flush ph
      | CReq r => stepr r ph
      end.
    Definition stepl {X} (c : lcmd X) (ph : phase) : (phase -> list hev -> outcome X -> Prop) -> Prop :=
      match c in lcmd X return (phase -> list hev -> outcome X -> Prop) -> Prop with
      | LRef j => fun Q => j = J /\ Q ph [] (Good (Some n))
      | LNew j => fun _ => False
      | LC c => stepo c ph
      end.
    Definition stepc {X} (c : cmd lcmd X) (ph : phase) : (phase -> list hev -> outcome X -> Prop) -> Prop :=
      match c in cmd _ X return (phase -> list hev -> outcome X -> Prop) -> Prop with
      | Acq l m => fun Q => l = L /\ m = Ex /\
          match ph with
          | Out => forall b, binv b -> Q (In 0 b (bview b)) [] (Good tt)
          | In m b v => Q (In (S m) b v) [] (Good tt)
          end
      | Rel l => fun Q => l = L /\
          match ph with
          | Out => False
          | In 0 b v => binv b /\ exists es, reqs es = [] /\ mv es v (bview b) /\ Q Out es (Good tt)
          | In (S m) b v => Q (In m b v) [] (Good tt)
          end
      | Op c => stepl c ph
      end.
    Fixpoint ok {A} (p : prog lcmd A) : phase -> (phase -> list hev -> outcome A -> Prop) -> Prop :=
      match p with
      | Ret a => fun ph R => R ph [] (Good a)
      | Raise e => fun ph R => R ph [] (Fail e)
      | Act c k h => fun ph R => stepc c ph (fun ph' es o =>
          match o with
          | Good x => ok (k x) ph' (fun ph2 es2 r => R ph2 (es ++ es2) r)
          | Fail e => ok (h e) ph' (fun ph2 es2 r => R ph2 (es ++ es2) r)
          | Block => False
          end)
      end.

    Lemma stepc_more {X} (c : cmd lcmd X) ph (Q Q' : phase -> list hev -> outcome X -> Prop) :
      (forall ph es o, Q ph es o -> Q' ph es o) -> stepc c ph Q -> stepc c ph Q'.
    Proof.
      intros H. destruct c as [l m|l|X c]; simpl.
      - intros (H1 & H2 & H3). split; [exact H1|]. split; [exact H2|]. destruct ph; auto.
      - intros (H1 & H2). split; [exact H1|]. destruct ph as [|[|m] b v]; auto.
        destruct H2 as (H2 & es & H3 & H4 & H5). split; [exact H2|]. exists es. auto.
      - destruct c as [j|j|X c]; simpl; [intros [H1 H2]; auto|auto|].
        assert (Ho : forall Y j (f : sio -> outcome Y * sio) (Q Q' : phase -> list hev -> outcome Y -> Prop),
          (forall ph es o, Q ph es o -> Q' ph es o) -> own j f ph Q -> own j f ph Q').
        { clear. intros Y j f Q Q' H (H1 & H2). split; [exact H1|]. destruct ph; [exact H2|]. destruct H2. auto. }
        destruct c; simpl; try (apply Ho, H).
        intros H1 a Ha. specialize (H1 a Ha). destruct ph; [auto|]. destruct H1 as (es & v' & H1 & H2 & H3). exists es, v'. auto.
    Qed.
    Lemma ok_more {A} (p : prog lcmd A) : forall ph (R R' : phase -> list hev -> outcome A -> Prop),
      (forall ph es r, R ph es r -> R' ph es r) -> ok p ph R -> ok p ph R'.
    Proof.
      induction p as [a|e|X c k IHk h IHh]; intros ph R R' H; simpl; [apply H|apply H|].
      apply stepc_more. intros ph' es [x|e|]; [| |auto].
      - apply IHk. auto.
      - apply IHh. auto.
    Qed.
    Lemma ok_bind {A B} (p : prog lcmd A) (f : A -> prog lcmd B) : forall ph (R : phase -> list hev -> outcome A -> Prop) (R' : phase -> list hev -> outcome B -> Prop),
      ok p ph R -> (forall ph es a, R ph es (Good a) -> ok (f a) ph (fun ph2 es2 r => R' ph2 (es ++ es2) r)) ->
      (forall ph es e, R ph es (Fail e) -> R' ph es (Fail e)) -> ok (bind p f) ph R'.
    Proof.
      induction p as [a|e|X c k IHk h IHh]; intros ph R R' H Hg Hb; simpl in *.
      - apply (Hg ph [] a H).
      - apply Hb, H.
      - revert H. apply stepc_more. intros ph' es [x|e|] H; [| |destruct H].
        + eapply IHk; [exact H| |].
          * intros ph2 es2 a Ha. eapply ok_more; [|apply (Hg _ _ _ Ha)]. intros ph3 es3 r. simpl. rewrite app_assoc. auto.
          * intros ph2 es2 e He. apply Hb, He.
        + eapply IHh; [exact H| |].
          * intros ph2 es2 a Ha. eapply ok_more; [|apply (Hg _ _ _ Ha)]. intros ph3 es3 r. simpl. rewrite app_assoc. auto.
          * intros ph2 es2 e' He. apply Hb, He.
    Qed.
    Lemma ok_attempt {A} (p : prog lcmd A) : forall ph (R : phase -> list hev -> outcome A -> Prop),
      ok p ph R -> ok (attempt p) ph (fun ph es r => exists r', r = Good r' /\ R ph es r').
    Proof.
      induction p as [a|e|X c k IHk h IHh]; intros ph R H; simpl in *; [eauto|eauto|].
      revert H. apply stepc_more. intros ph' es [x|e|] H; [| |destruct H]; auto.
    Qed.
    Lemma ok_thread {X R} (call : X -> prog lcmd R) (acts : X -> outcome R -> list hev -> Prop) cs :
      Forall (fun c => ok (call c) Out (fun ph es r => ph = Out /\ acts c r es)) cs -> forall rs,
      ok (thread_from rs (map call cs)) Out (fun ph es r => ph = Out /\ exists rs' ess, r = Good (rev rs ++ rs') /\ es = concat ess /\ all3 acts cs rs' ess).
    Proof.
      induction 1 as [|c cs Hc _ IH]; intros rs; simpl.
      - split; [reflexivity|]. exists [], []. rewrite app_nil_r. split; [reflexivity|]. split; [reflexivity|constructor].
      - eapply ok_bind; [apply ok_attempt, Hc| |].
        + intros ph es r (r' & Er & -> & Ha). injection Er as ->. eapply ok_more; [|apply IH].
          intros ph es' r (-> & rs' & ess & -> & -> & Hall). split; [reflexivity|]. exists (r' :: rs'), (es :: ess).
          simpl. rewrite <- app_assoc. split; [reflexivity|]. split; [reflexivity|]. constructor; assumption.
        + intros ph es e (r' & Er & _). discriminate.
    Qed.

    (** Sections. *)
    Lemma ok_try {A} (p : prog lcmd A) : forall ph (R : phase -> list hev -> outcome A -> Prop),
      ok p ph (fun ph' es r => stepc (Rel L) ph' (fun ph2 es2 o => o = Good tt /\ R ph2 (es ++ es2) r)) ->
      ok (try_finally p (release L)) ph R.
    Proof.
      induction p as [a|e|X c k IHk h IHh]; intros ph R H.
      - cbn [try_finally release bind ok] in *. revert H. apply (stepc_more (Rel L)). intros ph' es o (-> & H). cbn [ok]. rewrite app_nil_r. exact H.
      - cbn [try_finally release bind ok] in *. revert H. apply (stepc_more (Rel L)). intros ph' es o (-> & H). cbn [ok]. rewrite app_nil_r. exact H.
      - cbn [try_finally ok] in *. revert H. apply stepc_more. intros ph' es [x|e|] H; [| |exact H].
        + apply IHk. revert H. apply ok_more. intros ph2 es2 r. apply (stepc_more (Rel L)). intros ph3 es3 o (H1 & H2). rewrite <- app_assoc in H2. auto.
        + apply IHh. revert H. apply ok_more. intros ph2 es2 r. apply (stepc_more (Rel L)). intros ph3 es3 o (H1 & H2). rewrite <- app_assoc in H2. auto.
    Qed.
    (** A section from outside: the rest of the parts may be taken at its end. *)
    Definition leave {A} (R : list hev -> outcome A -> Prop) (ph : phase) (es : list hev) (r : outcome A) : Prop :=
      exists b v es2, ph = In 0 b v /\ binv b /\ reqs es2 = [] /\ mv es2 v (bview b) /\ R (es ++ es2) r.
    Lemma ok_with {A} (p : prog lcmd A) (R : list hev -> outcome A -> Prop) :
      (forall b, binv b -> ok p (In 0 b (bview b)) (leave R)) -> ok (hl_with J p) Out (fun ph es r => ph = Out /\ R es r).
    Proof.
      intros H. unfold hl_with, hl_lock. simpl. split; [reflexivity|]. split; [reflexivity|].
      split; [reflexivity|]. split; [reflexivity|]. intros b Hb. apply ok_try. eapply ok_more; [|apply (H b Hb)].
      intros ph es r (b' & v & es2 & -> & Hb' & H1 & H2 & H3). simpl. split; [reflexivity|]. split; [exact Hb'|].
      exists es2. auto.
    Qed.
    (** A section inside of a section. *)
    Lemma ok_again {A} (p : prog lcmd A) m b v (R : phase -> list hev -> outcome A -> Prop) :
      ok p (In (S m) b v) (fun ph es r => exists b' v', ph = In (S m) b' v' /\ R (In m b' v') es r) -> ok (hl_with J p) (In m b v) R.
    Proof.
      intros H. unfold hl_with, hl_lock. simpl. split; [reflexivity|]. split; [reflexivity|].
      split; [reflexivity|]. split; [reflexivity|]. apply ok_try. eapply ok_more; [|exact H].
      intros ph es r (b' & v' & -> & HR). simpl. split; [reflexivity|]. rewrite app_nil_r. auto.
    Qed.
  End Thread.

  (** ** The simulation *)
  Definition buf (s : st lworld) : sio := mget J (l_w (dat s)).
  Definition tagged {X} := @events_of X.
  Lemma ev_app {X} k (l1 l2 : list (nat * X)) : events_of k (l1 ++ l2) = events_of k l1 ++ events_of k l2.
  Proof. unfold events_of. rewrite List.filter_app, map_app. reflexivity. Qed.
  Lemma ev_own {X} k (l : list X) : events_of k (map (pair k) l) = l.
  Proof. unfold events_of. induction l as [|e l IH]; [reflexivity|]. simpl. rewrite Nat.eqb_refl. simpl. f_equal. exact IH. Qed.
  Lemma ev_other {X} k k' (l : list X) : k <> k' -> events_of k (map (pair k') l) = [].
  Proof. intros H. unfold events_of. induction l as [|e l IH]; [reflexivity|]. simpl. apply not_eq_sym, Nat.eqb_neq in H. rewrite H. exact IH. Qed.

  Section Pool.
    Context {A : Type}.
    Variable R : nat -> list hev -> outcome A -> Prop.
    Definition ends (i : nat) (es : list hev) : phase -> list hev -> outcome A -> Prop := fun ph es2 r => ph = Out /\ R i (es ++ es2) r.
    Variable w0 : lworld.
    Definition ph_of (s : st lworld) (v : hst) (i : nat) : phase :=
      match lks s !! L with
      | Some (Excl o (S m)) => if o =? i then In m (buf s) v else Out
      | _ => Out
      end.
    Record inv (ps : list (prog lcmd A)) (s : st lworld) (es : list (nat * hev)) (v : hst) : Prop := mkinv {
      i_ref : l_ref (dat s) !! J = Some n;
      i_only : forall l, l <> L -> lks s !! l = None;
      i_lock : lks s !! L = None /\ binv (buf s) /\ v = bview (buf s) \/
               exists o m, lks s !! L = Some (Excl o (S m)) /\ o < length ps;
      i_moves : hmoves ag es (hview M w0) v;
      i_served : served E (asked es) (hnet w0) (hnet (dat s));
      i_tags : Forall (fun e => fst e < length ps) es;
      i_ok : forall i p, ps !! i = Some p -> ok i p (ph_of s v i) (ends i (events_of i es))
    }.
    Lemma L_reent : reent L = true.
    Proof. unfold reent, rlock. rewrite Nat.odd_add, Nat.odd_mul. reflexivity. Qed.
    Lemma creq_serves r w : fst (creq E r w) <> Block /\
      serves E (r, fst (creq E r w)) (w_srv w, w_faults w) (w_srv (snd (creq E r w)), w_faults (snd (creq E r w))) /\
      w_mir (snd (creq E r w)) = w_mir w.
    Proof.
      unfold creq. destruct w as [d mi fs]. cbn [w_faults w_srv w_mir]. pose proof (sv_lost E r d) as H0. destruct fs as [|[] fs];
        try (pose proof (sv_up E r d fs) as H); try (pose proof (sv_end E r d) as H); try (destruct (serve E r d) as [a d']); cbn [fst snd w_srv w_faults w_mir] in *;
        (split; [discriminate|split; [|reflexivity]]).
      - exact H.
      - exact H.
      - apply sv_refused.
      - apply sv_down.
      - apply H0.
    Qed.

    Lemma inv_step ps s es v j p p' s' es' v' : inv ps s es v -> ps !! j = Some p ->
      l_ref (dat s') !! J = Some n -> (forall l, l <> L -> lks s' !! l = None) ->
      (lks s' !! L = None /\ binv (buf s') /\ v' = bview (buf s') \/ exists o m, lks s' !! L = Some (Excl o (S m)) /\ o < length ps) ->
      hmoves ag (map (pair j) es') v v' -> served E (reqs es') (hnet (dat s)) (hnet (dat s')) ->
      (forall k, k <> j -> ph_of s' v' k = ph_of s v k) ->
      ok j p' (ph_of s' v' j) (fun ph es2 r => ends j (events_of j es) ph (es' ++ es2) r) ->
      inv (<[j:=p']> ps) s' (es ++ map (pair j) es') v'.
    Proof.
      intros [I1 I2 I3 I4 I5 I6 I7] Hj H1 H2 H3 H4 H5 H6 H7. constructor.
      - exact H1.
      - exact H2.
      - rewrite insert_length. exact H3.
      - eapply hmoves_app; eassumption.
      - rewrite asked_app, asked_own. eapply served_app; eassumption.
      - rewrite insert_length. apply List.Forall_app. split; [exact I6|]. apply List.Forall_map, List.Forall_forall. intros e _. simpl. eapply lookup_lt_Some, Hj.
      - intros k q Hk. rewrite ev_app. destruct (decide (k = j)) as [->|Hne].
        + rewrite list_lookup_insert in Hk by (eapply lookup_lt_Some, Hj). injection Hk as <-. rewrite ev_own.
          eapply ok_more; [|exact H7]. intros ph es2 r. unfold ends. rewrite app_assoc. auto.
        + rewrite list_lookup_insert_ne in Hk by auto. rewrite (ev_other k j) by exact Hne. rewrite app_nil_r, (H6 k Hne). apply I7, Hk.
    Qed.
    Lemma on_mir_buf {X} (f : sio -> outcome X * sio) w rf cn lk :
      buf (mkst (mklw (snd (on_mir J f w)) rf cn) lk) = snd (f (mget J w)).
    Proof. unfold buf, on_mir. destruct (f (mget J w)) as [r b]. cbn. unfold mget. cbn. rewrite lookup_insert. reflexivity. Qed.

    Lemma sim_step ps s es v j ps' s' : inv ps s es v -> cstep j (ps, s) = Some (ps', s') -> exists es' v', inv ps' s' es' v'.
    Proof.
      intros I Hc. unfold cstep in Hc. cbn [fst snd] in Hc. destruct (ps !! j) as [p|] eqn:Ej; [|discriminate].
      pose proof (i_ok _ _ _ _ I j p Ej) as Hok. pose proof (i_ref _ _ _ _ I) as Iref. pose proof (i_only _ _ _ _ I) as Ionly.
      pose proof (i_lock _ _ _ _ I) as Ilock. pose proof (lookup_lt_Some _ _ _ Ej) as Hlt.
      destruct p as [a|e|X c k h]; [discriminate|discriminate|]. destruct (pstep j (Act c k h) s) as [[p' s1]|] eqn:Ep; [|discriminate].
      injection Hc as <- <-. cbn [ok] in Hok. destruct s as [d lk]. cbn [dat lks] in *. destruct c as [l m|l|X c].
      - (* acquire *)
        destruct Hok as (-> & -> & Hok). cbn [pstep exec lks dat] in Ep. unfold lock_acq in Ep. unfold ph_of in Hok. cbn [lks] in Hok.
        destruct Ilock as [(El & Hb & ->)|(o & m & El & Ho)]; rewrite El in Ep, Hok.
        + injection Ep as <- <-. exists (es ++ map (pair j) []), (bview (buf (mkst d lk))).
          eapply inv_step; [exact I|exact Ej|exact Iref| | |constructor|constructor| |].
          * intros l Hl. cbn [lks]. rewrite lookup_insert_ne by auto. apply Ionly, Hl.
          * right. exists j, 0. cbn [lks]. rewrite lookup_insert. auto.
          * intros k' Hk'. unfold ph_of. cbn [lks]. rewrite lookup_insert, El. destruct (j =? k') eqn:Ejk; [apply Nat.eqb_eq in Ejk; congruence|reflexivity].
          * unfold ph_of. cbn [lks]. rewrite lookup_insert, Nat.eqb_refl. apply (Hok _ Hb).
        + rewrite L_reent in Ep. destruct (o =? j) eqn:Eo; [|discriminate]. apply Nat.eqb_eq in Eo. subst o. cbn [andb] in Ep. injection Ep as <- <-.
          exists (es ++ map (pair j) []), v.
          eapply inv_step; [exact I|exact Ej|exact Iref| | |constructor|constructor| |].
          * intros l Hl. cbn [lks]. rewrite lookup_insert_ne by auto. apply Ionly, Hl.
          * right. exists j, (S m). cbn [lks]. rewrite lookup_insert. auto.
          * intros k' Hk'. unfold ph_of. cbn [lks]. rewrite lookup_insert, El. destruct (j =? k') eqn:Ejk; [apply Nat.eqb_eq in Ejk; congruence|reflexivity].
          * unfold ph_of. cbn [lks]. rewrite lookup_insert, Nat.eqb_refl. exact Hok.
      - (* release *)
        destruct Hok as (-> & Hok). cbn [pstep exec lks dat] in Ep. unfold lock_rel in Ep. unfold ph_of in Hok. cbn [lks] in Hok.
        destruct Ilock as [(El & Hb & ->)|(o & m & El & Ho)]; rewrite El in Ep, Hok; [destruct Hok|].
        destruct (o =? j) eqn:Eo; [|destruct Hok]. apply Nat.eqb_eq in Eo. subst o. destruct m as [|m].
        + injection Ep as <- <-. destruct Hok as (Hb & es2 & H1 & H2 & H3). exists (es ++ map (pair j) es2), (bview (buf (mkst d lk))).
          eapply inv_step; [exact I|exact Ej|exact Iref| | |exact H2|rewrite H1; constructor| |].
          * intros l Hl. cbn [lks]. rewrite lookup_delete_ne by auto. apply Ionly, Hl.
          * left. cbn [lks]. rewrite lookup_delete. split; [reflexivity|]. split; [exact Hb|reflexivity].
          * intros k' Hk'. unfold ph_of. cbn [lks]. rewrite lookup_delete, El. destruct (j =? k') eqn:Ejk; [apply Nat.eqb_eq in Ejk; congruence|reflexivity].
          * unfold ph_of. cbn [lks]. rewrite lookup_delete. exact H3.
        + injection Ep as <- <-. exists (es ++ map (pair j) []), v.
          eapply inv_step; [exact I|exact Ej|exact Iref| | |constructor|constructor| |].
          * intros l Hl. cbn [lks]. rewrite lookup_insert_ne by auto. apply Ionly, Hl.
          * right. exists j, m. cbn [lks]. rewrite lookup_insert. auto.
          * intros k' Hk'. unfold ph_of. cbn [lks]. rewrite lookup_insert, El. destruct (j =? k') eqn:Ejk; [apply Nat.eqb_eq in Ejk; congruence|reflexivity].
          * unfold ph_of. cbn [lks]. rewrite lookup_insert, Nat.eqb_refl. exact Hok.
      - destruct c as [j'|j'|X c]; [| destruct Hok |].
        + (* the reference to the lock *)
          destruct Hok as (-> & Hok). cbn in Ep. rewrite Iref in Ep. injection Ep as <- <-. exists (es ++ map (pair j) []), v.
          eapply inv_step; [exact I|exact Ej|exact Iref|exact Ionly|exact Ilock|constructor|constructor|reflexivity|exact Hok].
        + assert (Hown : forall Y (f : sio -> outcome Y * sio) (kk : Y -> prog lcmd A) hh cc,
            (forall w, cliexec E cc w = on_mir J f w) -> pstep j (Act (Op (LC cc)) kk hh) (mkst d lk) = Some (p', s1) ->
            own J f (ph_of (mkst d lk) v j) (fun ph' es0 o =>
               match o with
               | Good x => ok j (kk x) ph' (fun ph2 es2 r => ends j (events_of j es) ph2 (es0 ++ es2) r)
               | Fail e => ok j (hh e) ph' (fun ph2 es2 r => ends j (events_of j es) ph2 (es0 ++ es2) r)
               | Block => False
               end) -> exists es' v', inv (<[j:=p']> ps) s1 es' v').
          { clear Hok Ep. intros Y f kk hh cc Hcc Ep (_ & Hok). unfold ph_of in Hok. cbn [lks] in Hok.
            destruct Ilock as [(El & Hb & ->)|(o & m & El & Ho)]; rewrite El in Hok; [destruct Hok|].
            destruct (o =? j) eqn:Eo; [|destruct Hok]. apply Nat.eqb_eq in Eo. subst o. destruct Hok as (Hnb & Hok).
            cbn in Ep. rewrite Hcc in Ep. pose proof (on_mir_buf f (l_w d) (l_ref d) (l_cnt d) lk) as Hbuf. unfold on_mir in Ep, Hbuf.
            change (buf (mkst d lk)) with (mget J (l_w d)) in *. destruct (f (mget J (l_w d))) as [o b] eqn:Ef. cbn [fst snd] in *.
            exists (es ++ map (pair j) []), v.
            assert (Es : s1 = mkst (mklw (mkworld (w_srv (l_w d)) (<[J:=b]> (w_mir (l_w d))) (w_faults (l_w d))) (l_ref d) (l_cnt d)) lk)
              by (destruct o; [| |congruence]; injection Ep; congruence).
            eapply inv_step; [exact I|exact Ej|rewrite Es; exact Iref|rewrite Es; exact Ionly| |constructor|rewrite Es; constructor| |].
            - right. exists j, m. rewrite Es. auto.
            - intros k' Hk'. unfold ph_of. rewrite Es. cbn [lks]. rewrite El. destruct (j =? k') eqn:Ejk; [apply Nat.eqb_eq in Ejk; congruence|reflexivity].
            - unfold ph_of. rewrite Es. cbn [lks]. rewrite El, Nat.eqb_refl, Hbuf. destruct o as [x|e|]; [| |congruence]; injection Ep as <- _; exact Hok. }
          destruct c as [j'|j'|j'|j' s2|j'|j'|j'|j'|r]; cbn [stepc stepl stepo] in Hok;
            try (pose proof Hok as [Hj' _]; subst j'; eapply Hown; [|exact Ep|exact Hok]; reflexivity).
          (* a request *)
          clear Hown. destruct (creq_serves r (l_w d)) as (Hnb & Hsv & Hmi).
          assert (Hp : p' = match fst (creq E r (l_w d)) with Good x => k x | Fail e => h e | Block => p' end /\
                       s1 = mkst (mklw (snd (creq E r (l_w d))) (l_ref d) (l_cnt d)) lk).
          { cbn in Ep. destruct (creq E r (l_w d)) as [o w']. cbn [fst snd] in *. destruct o; [| |congruence]; injection Ep as <- <-; auto. }
          destruct Hp as [Hp ->]. set (a := fst (creq E r (l_w d))) in *.
          assert (Hbuf : buf (mkst (mklw (snd (creq E r (l_w d))) (l_ref d) (l_cnt d)) lk) = buf (mkst d lk)).
          { unfold buf, mget. cbn. rewrite Hmi. reflexivity. }
          assert (Hph : forall v' k', ph_of (mkst (mklw (snd (creq E r (l_w d))) (l_ref d) (l_cnt d)) lk) v' k' = ph_of (mkst d lk) v' k').
          { intros v' k'. unfold ph_of. cbn [lks]. rewrite Hbuf. reflexivity. }
          specialize (Hok a Hnb).
          assert (Hone : served E [(r, a)] (hnet d) (hnet (mklw (snd (creq E r (l_w d))) (l_ref d) (l_cnt d)))).
          { eapply sd_cons; [exact Hsv|constructor]. }
          assert (Hcont : forall ph es0, match a with
               | Good x => ok j (k x) ph (fun ph2 es2 r => ends j (events_of j es) ph2 (es0 ++ es2) r)
               | Fail e => ok j (h e) ph (fun ph2 es2 r => ends j (events_of j es) ph2 (es0 ++ es2) r)
               | Block => False end -> ok j p' ph (fun ph2 es2 r => ends j (events_of j es) ph2 (es0 ++ es2) r)).
          { intros ph es0. rewrite Hp. destruct a; auto. intros []. }
          destruct (ph_of (mkst d lk) v j) as [|m b v1] eqn:Eph.
          * exists (es ++ map (pair j) [HReq r a]), v.
            eapply inv_step; [exact I|exact Ej|exact Iref|exact Ionly| |apply hmoves_one, hm_req|exact Hone|intros; apply Hph|].
            -- cbn [lks]. rewrite Hbuf. exact Ilock.
            -- rewrite Hph, Eph. apply Hcont, Hok.
          * destruct Hok as (es2 & v' & H1 & H2 & H3). exists (es ++ map (pair j) es2), v'.
            assert (Hx : exists m', lk !! L = Some (Excl j (S m')) /\ m = m' /\ v1 = v /\ b = buf (mkst d lk)).
            { unfold ph_of in Eph. cbn [lks] in Eph. destruct Ilock as [(El & _)|(o & m' & El & Ho)]; rewrite El in Eph; [discriminate|].
              destruct (o =? j) eqn:Eo; [|discriminate]. apply Nat.eqb_eq in Eo. subst o. injection Eph as <- <- <-. exists m'. auto. }
            destruct Hx as (m' & El & -> & -> & ->).
            eapply inv_step; [exact I|exact Ej|exact Iref|exact Ionly| |exact H2|rewrite H1; exact Hone| |].
            -- right. exists j, m'. auto.
            -- intros k' Hk'. rewrite Hph. unfold ph_of. cbn [lks]. rewrite El. destruct (j =? k') eqn:Ejk; [apply Nat.eqb_eq in Ejk; congruence|reflexivity].
            -- rewrite Hph. unfold ph_of. cbn [lks]. rewrite El, Nat.eqb_refl. apply Hcont, H3.
    Qed.
    Lemma sim_sched sch : forall ps s es v ps' s', inv ps s es v -> sched_run sch (ps, s) = Some (ps', s') -> exists es' v', inv ps' s' es' v'.
    Proof.
      induction sch as [|j sch IH]; intros ps s es v ps' s' I Hr; simpl in Hr; [injection Hr as <- <-; eauto|].
      destruct (cstep j (ps, s)) as [[ps1 s1]|] eqn:Ec; [|discriminate].
      destruct (sim_step ps s es v j ps1 s1 I Ec) as (es1 & v1 & I1). exact (IH _ _ _ _ _ _ I1 Hr).
    Qed.
    Lemma inv_init ps : l_ref w0 !! J = Some n -> at_end M w0 -> (forall i p, ps !! i = Some p -> ok i p Out (ends i [])) ->
      inv ps (mkst w0 stdpp.base.empty) [] (hview M w0).
    Proof.
      intros H1 H2 H3. constructor; [exact H1|intros; apply lookup_empty| |constructor|constructor|constructor|].
      - left. split; [apply lookup_empty|]. split; [exact H2|reflexivity].
      - intros i p Hi. unfold ph_of. cbn [lks]. rewrite lookup_empty. apply H3, Hi.
    Qed.
    Lemma inv_done ps s es v : inv ps s es v -> Forall (fun p => finished p = true) ps ->
      s = mkst (dat s) stdpp.base.empty /\ l_ref (dat s) !! J = Some n /\ at_end M (dat s) /\
      hmoves ag es (hview M w0) (hview M (dat s)) /\ served E (asked es) (hnet w0) (hnet (dat s)) /\ Forall (fun e => fst e < length ps) es /\
      forall i p, ps !! i = Some p -> exists r, R i (events_of i es) r /\ match r with Good a => p = Ret a | Fail e => p = Raise e | Block => False end.
    Proof.
      intros [I1 I2 I3 I4 I5 I6 I7] Hf.
      assert (Hfree : lks s !! L = None /\ binv (buf s) /\ v = bview (buf s)).
      { destruct I3 as [H|(o & m & El & Ho)]; [exact H|]. exfalso. destruct (lookup_lt_is_Some_2 ps o Ho) as [p Hp].
        pose proof (Forall_lookup_1 _ _ _ _ Hf Hp) as Hfp. pose proof (I7 o p Hp) as Hok. unfold ph_of in Hok. rewrite El, Nat.eqb_refl in Hok.
        destruct p as [a|e|X c k h]; [destruct Hok; discriminate|destruct Hok; discriminate|discriminate]. }
      destruct Hfree as (El & Hb & ->). split; [|split; [exact I1|split; [exact Hb|split; [exact I4|split; [exact I5|split; [exact I6|]]]]]].
      - destruct s as [d lk]. cbn [dat lks] in *. f_equal. apply map_eq. intros l. rewrite lookup_empty.
        destruct (decide (l = L)) as [->|Hl]; [exact El|apply I2, Hl].
      - intros i p Hi. pose proof (I7 i p Hi) as Hok. pose proof (Forall_lookup_1 _ _ _ _ Hf Hi) as Hfi.
        destruct p as [a|e|X c k h]; [| |discriminate]; destruct Hok as [_ Hok]; rewrite app_nil_r in Hok; [exists (Good a)|exists (Fail e)]; auto.
    Qed.
    Lemma ok_moves i p s v Q : ok i p (ph_of s v i) Q -> finished p = false -> l_ref (dat s) !! J = Some n ->
      lks s !! L = None \/ (exists m, lks s !! L = Some (Excl i (S m))) -> pstep (A:=A) i p s <> None.
    Proof.
      intros Hok Hp Href Hl. destruct p as [a|e|X c k h]; [discriminate|discriminate|]. destruct s as [d lk]. cbn [dat lks] in *. cbn [ok] in Hok.
      unfold ph_of in Hok. cbn [lks] in Hok. destruct c as [l m|l|X c].
      - destruct Hok as (-> & -> & _). simpl. unfold lock_acq. destruct Hl as [->|(m & ->)]; [discriminate|]. rewrite L_reent, Nat.eqb_refl. discriminate.
      - destruct Hok as (-> & Hok). simpl. unfold lock_rel. destruct Hl as [El|(m & El)]; rewrite El in Hok |- *; [destruct Hok|]. destruct m; discriminate.
      - destruct c as [j'|j'|X c]; [|destruct Hok|].
        + cbn. discriminate.
        + assert (Hown : forall Y j' (f : sio -> outcome Y * sio) ph Q, own j' f ph Q -> ph = match lk !! L with
             | Some (Excl o (S m)) => if o =? i then In m (buf (mkst d lk)) v else Out | _ => Out end -> j' = J /\ fst (f (mget J (l_w d))) <> Block).
          { intros Y j' f ph Q' (-> & H) ->. split; [reflexivity|]. destruct (lk !! L) as [[o [|m]|os]|]; try destruct H. destruct (o =? i); [apply H|destruct H]. }
          assert (Hgo : forall Y (cc : ccmd Y) (kk : Y -> prog lcmd A) hh, fst (cliexec E cc (l_w d)) <> Block -> pstep i (Act (Op (LC cc)) kk hh) (mkst d lk) <> None).
          { intros Y cc kk hh H. cbn. destruct (cliexec E cc (l_w d)) as [[x|e|] w']; [discriminate|discriminate|]. cbn in H. congruence. }
          apply Hgo. destruct c as [j'|j'|j'|j' s2|j'|j'|j'|j'|r]; cbn [stepc stepl stepo] in Hok;
            try (destruct (Hown _ _ _ _ _ Hok eq_refl) as [-> Hb]; cbn [cliexec]; unfold on_mir;
                 match goal with |- context[let '(_, _) := ?f (mget _ _) in _] => destruct (f (mget J (l_w d))) end; exact Hb).
          apply creq_serves.
    Qed.
    Lemma inv_go ps s es v : inv ps s es v -> Forall (fun p => finished p = true) ps \/ exists i, cstep i (ps, s) <> None.
    Proof.
      intros [I1 I2 I3 I4 I5 I6 I7].
      assert (Hmove : forall i p, ps !! i = Some p -> pstep i p s <> None -> exists i, cstep i (ps, s) <> None).
      { intros i p Hi Hp. exists i. unfold cstep. cbn [fst snd]. rewrite Hi. destruct (pstep i p s) as [[p' s']|]; [discriminate|congruence]. }
      destruct I3 as [(El & _)|(o & m & El & Ho)].
      - destruct (Forall_Exists_dec (fun p : prog lcmd A => finished p = true) (fun p => bool_dec (finished p) true) ps) as [H|H]; [left; exact H|].
        right. apply Exists_exists in H. destruct H as (p & Hin & Hp). apply elem_of_list_In, elem_of_list_lookup in Hin. destruct Hin as [i Hi].
        apply (Hmove i p Hi). eapply ok_moves; [apply I7, Hi|destruct (finished p); congruence|exact I1|left; exact El].
      - right. destruct (lookup_lt_is_Some_2 ps o Ho) as [p Hp]. apply (Hmove o p Hp). pose proof (I7 o p Hp) as Hok.
        eapply ok_moves; [exact Hok| |exact I1|right; eauto]. unfold ph_of in Hok. rewrite El, Nat.eqb_refl in Hok.
        destruct p as [a|e|X c k h]; [destruct Hok; discriminate|destruct Hok; discriminate|reflexivity].
    Qed.
  End Pool.
End OK.

(** ** The sections of the calls *)
Section Calls.
  Variables (M : lmir) (n i : nat).
  Notation J := (lm_id M).
  Notation ag := (lm_aggr M).
  Notation ok := (ok M n i).
  Notation lop := (fun X c => @op lcmd X (LC c)).
  Notation wl := (fun A => @hl_with (lm_id M) A).
  Notation leave := (leave M i).
  Notation mv es := (hmoves ag (map (pair i) es)).

  Lemma is_move b : mv [HIs (sclosed b)] (bview b) (bview b).
  Proof. apply hmoves_one, hm_is. Qed.
  Lemma ok_closed : ok (hl_with J (op (LC (MClosed J)))) Out (fun ph es r => ph = Out /\ exists c, es = [HIs c] /\ r = Good c).
  Proof.
    apply ok_with. intros b Hb. simpl. split; [reflexivity|]. split; [discriminate|]. exists b, (bview b), [HIs (sclosed b)].
    split; [reflexivity|]. split; [exact Hb|]. split; [reflexivity|]. split; [apply is_move|]. exists (sclosed b). auto.
  Qed.
  Lemma ok_open : ok (hl_with J (c <- op (LC (MClosed J)) ;; Ret (negb c))) Out (fun ph es r => ph = Out /\ exists c, es = [HIs c] /\ r = Good (negb c)).
  Proof.
    apply ok_with. intros b Hb. simpl. split; [reflexivity|]. split; [discriminate|]. exists b, (bview b), [HIs (sclosed b)].
    split; [reflexivity|]. split; [exact Hb|]. split; [reflexivity|]. split; [apply is_move|]. exists (sclosed b). auto.
  Qed.
  Lemma ok_closed_in m b v : ok (hl_with J (op (LC (MClosed J)))) (In m b v) (fun ph es r => ph = In m b v /\ es = [] /\ r = Good (sclosed b)).
  Proof.
    apply ok_again. simpl. split; [reflexivity|]. split; [discriminate|]. exists b, v. auto.
  Qed.

  (** Requests. *)
  Lemma ok_post r ph (R : phase -> list hev -> outcome unit -> Prop) :
    stepr M i r ph (fun ph' es a => R ph' es (taken a)) -> ok (g_request lop r (fun _ => Ret tt)) ph R.
  Proof.
    intros H. unfold g_request. cbn [op bind HostLedger.ok stepc stepl stepo]. intros a Ha. specialize (H a Ha).
    assert (Hgo : forall ph' es, R ph' es (taken a) -> match a with
       | Good x => ok (if fst x <? 400 then Ret tt else g_raise (snd x)) ph' (fun ph2 es2 r => R ph2 (es ++ es2) r)
       | Fail e => ok (Raise e) ph' (fun ph2 es2 r => R ph2 (es ++ es2) r)
       | Block => False end).
    { intros ph' es HR. destruct a as [[code b]|e|]; [| |congruence]; cbn [taken fst snd] in *.
      - destruct (code <? 400); [cbn; rewrite app_nil_r; exact HR|]. destruct b as [[]|]; cbn in *; rewrite app_nil_r; exact HR.
      - cbn. rewrite app_nil_r. exact HR. }
    destruct ph as [|m b v]; [apply Hgo, H|]. destruct H as (es & v' & H1 & H2 & H3). exists es, v'.
    split; [exact H1|]. split; [exact H2|]. exact (Hgo _ _ H3).
  Qed.
  Definition asks : prog lcmd unit :=
    is_closed <- g_request lop (GetState (Some k_closed))
        (fun b => res <- g_load b ;; fs <- g_dict res ;;
                  Ret match jget k_data fs with Some v => v | None => JNull end) ;;
      match is_closed with JBool true => Raise StopIteration | _ => Ret tt end.
  Lemma ok_ask ph (R : phase -> list hev -> outcome unit -> Prop) :
    stepr M i ask_stop ph (fun ph' es a => R ph' es (go_on a)) -> ok asks ph R.
  Proof.
    intros H. unfold asks, g_request. cbn [op bind HostLedger.ok stepc stepl stepo]. intros a Ha. specialize (H a Ha).
    assert (Hgo : forall ph' es, R ph' es (go_on a) -> match a with
       | Good x => ok (bind (if fst x <? 400 then res <- g_load (snd x) ;; fs <- g_dict res ;;
                  Ret match jget k_data fs with Some v => v | None => JNull end else g_raise (snd x))
                  (fun is_closed => match is_closed with JBool true => Raise StopIteration | _ => Ret tt end)) ph' (fun ph2 es2 r => R ph2 (es ++ es2) r)
       | Fail e => ok (Raise e) ph' (fun ph2 es2 r => R ph2 (es ++ es2) r)
       | Block => False end).
    { intros ph' es HR. destruct a as [[code b]|e|]; [| |congruence]; cbn [go_on fst snd] in *.
      - destruct (code <? 400); [|destruct b as [[]|]; cbn in *; rewrite app_nil_r; exact HR].
        destruct b as [[]|]; cbn [g_load g_dict bind HostLedger.ok] in *; rewrite ?app_nil_r; try exact HR.
        destruct (jget k_data fields) as [[|[]| | | |]|]; cbn [bind HostLedger.ok] in *; rewrite ?app_nil_r; exact HR.
      - cbn. rewrite app_nil_r. exact HR. }
    destruct ph as [|m b v]; [apply Hgo, H|]. destruct H as (es & v' & H1 & H2 & H3). exists es, v'.
    split; [exact H1|]. split; [exact H2|]. exact (Hgo _ _ H3).
  Qed.

  (** [send_data] inside of a section. *)
  Lemma ok_send_in data m b v (R : phase -> list hev -> outcome unit -> Prop) : sclosed b = false ->
    (forall a, a <> Block -> exists es v', reqs es = [(post_str data, a)] /\ mv es v v' /\ R (In m b v') es (taken a)) ->
    ok (g_send_data lop wl J data) (In m b v) R.
  Proof.
    intros Hc H. unfold g_send_data. eapply ok_bind; [apply ok_closed_in| |intros ph es e (_ & _ & He); discriminate].
    intros ph es c (-> & -> & Ec). injection Ec as ->. rewrite Hc. apply ok_post. exact H.
  Qed.
  Lemma ok_send_in_shut data m b v : sclosed b = true ->
    ok (g_send_data lop wl J data) (In m b v) (fun ph es r => ph = In m b v /\ es = [] /\ r = Good tt).
  Proof.
    intros Hc. unfold g_send_data. eapply ok_bind; [apply ok_closed_in| |intros ph es e (_ & _ & He); discriminate].
    intros ph es c (-> & -> & Ec). injection Ec as ->. rewrite Hc. cbn. auto.
  Qed.
  (** The check inside of a section. *)
  Lemma ok_check_in m b : sclosed b = false ->
    ok (g_check_states lop wl J) (In m b (bview b)) (fun ph es r => exists a, es = [HAsk (sval b) a] /\
      (go_on a = Good tt /\ r = Good tt /\ ph = In m b (mkhst (sval b) false (Some i)) \/
       exists e, go_on a = Fail e /\ r = Fail e /\ ph = In m b (bview b))).
  Proof.
    intros Hc. unfold g_check_states. eapply ok_bind; [apply ok_closed_in| |intros ph es e (_ & _ & He); discriminate].
    intros ph es c (-> & -> & Ec). injection Ec as ->. rewrite Hc. apply ok_ask. intros a Ha. unfold bview. rewrite Hc.
    destruct (go_on a) as [[]|e|] eqn:Eg.
    - exists [HAsk (sval b) a], (mkhst (sval b) false (Some i)). split; [reflexivity|]. split; [apply hmoves_one, hm_ask, Eg|].
      exists a. split; [reflexivity|]. left. auto.
    - exists [HAsk (sval b) a], (mkhst (sval b) false None). split; [reflexivity|]. split; [eapply hmoves_one, hm_stop, Eg|].
      exists a. split; [reflexivity|]. right. exists e. auto.
    - exfalso. destruct a as [[code o]|e|]; cbn [go_on] in Eg; [|discriminate|congruence]. destruct (code <? 400); [|discriminate].
      destruct o as [[]|]; try discriminate. destruct (jget k_data fields) as [[|[]| | | |]|]; discriminate.
  Qed.
  Lemma ok_check_in_shut m b v : sclosed b = true ->
    ok (g_check_states lop wl J) (In m b v) (fun ph es r => ph = In m b v /\ es = [] /\ r = Good tt).
  Proof.
    intros Hc. unfold g_check_states. eapply ok_bind; [apply ok_closed_in| |intros ph es e (_ & _ & He); discriminate].
    intros ph es c (-> & -> & Ec). injection Ec as ->. rewrite Hc. cbn. auto.
  Qed.

  Lemma write_end v data : sio_write data (mksio v (length v) false) = (Good (length data), mksio (v ++ data) (length (v ++ data)) false).
  Proof.
    unfold sio_write, sio_guard. cbn [sclosed spos sval]. f_equal. destruct data as [|c data]; [rewrite app_nil_r; reflexivity|].
    rewrite Nat.sub_diag. cbn [repeat]. rewrite app_nil_r, firstn_all, skipn_all2 by lia. rewrite app_nil_r, app_length. reflexivity.
  Qed.
  Lemma taken_block a : a <> Block -> taken a <> Block.
  Proof. destruct a as [[code b]|e|]; cbn [taken]; [destruct (code <? 400); discriminate|discriminate|congruence]. Qed.

  (** The text is written. *)
  Definition wrote (data : text) : prog lcmd nat :=
    let message_lines := splitlines data in
    if ag then
      g_send_data lop wl J data ;; Ret (length data)
    else
      let n_lines := length message_lines in
      if (1 <? n_lines) || ((n_lines =? 1) && text_eqb (hd [] message_lines) [])
         || is_end_line_break data
      then
        res <- op (LC (MPut J data)) ;;
        v <- op (LC (MGetvalue J)) ;;
        g_send_data lop wl J v ;;
        op (LC (MSeek0 J)) ;; op (LC (MTruncate0 J)) ;;
        Ret res
      else if n_lines =? 1 then op (LC (MPut J data))
      else Ret 0.
  Lemma ok_wrote data v bz (ev : option (text * reply) -> hev) :
    (forall p h', puts ag data v p h' -> hmove ag (i, ev p) (mkhst v false bz) (mkhst h' false None)) ->
    (forall p, asked_of (ev p) = match p with Some (x, a) => [(post_str x, a)] | None => [] end) ->
    ok (wrote data) (In 0 (mksio v (length v) false) (mkhst v false bz))
      (leave (fun es r => exists p, es = [ev p] /\ r = put_result (length data) p)).
  Proof.
    intros Hev Hask. unfold wrote. cbv zeta.
    assert (Hin : forall v, binv (mksio v (length v) false)) by (intros; right; reflexivity).
    destruct ag eqn:Eg.
    - eapply ok_bind; [apply (ok_send_in data 0 _ _ (fun ph es r => exists a, a <> Block /\ ph = In 0 (mksio v (length v) false) (mkhst v false None) /\ es = [ev (Some (data, a))] /\ r = taken a)); [reflexivity|]| |].
      + intros a Ha. exists [ev (Some (data, a))], (mkhst v false None). split; [unfold reqs; cbn; rewrite Hask; reflexivity|].
        split; [rewrite Eg; apply hmoves_one, Hev, p_aggr; reflexivity|]. exists a. auto.
      + intros ph es [] (a & Ha & -> & -> & Et). cbn. exists (mksio v (length v) false), (mkhst v false None), [].
        split; [reflexivity|]. split; [apply Hin|]. split; [reflexivity|]. split; [constructor|].
        exists (Some (data, a)). split; [reflexivity|]. unfold put_result. rewrite <- Et. reflexivity.
      + intros ph es e (a & Ha & -> & -> & Et). exists (mksio v (length v) false), (mkhst v false None), [].
        split; [reflexivity|]. split; [apply Hin|]. split; [reflexivity|]. split; [constructor|].
        exists (Some (data, a)). split; [reflexivity|]. unfold put_result. rewrite <- Et. reflexivity.
    - rewrite ProcFacts.trigger_break. destruct (ProcFacts.has_break data) eqn:Eb.
      + assert (Hnb : ~ no_break data) by (intros H; apply MirLedger.breaks in H; congruence).
        cbn [op bind HostLedger.ok stepc stepl stepo]. split; [reflexivity|]. rewrite write_end. cbn [fst snd]. split; [discriminate|].
        split; [reflexivity|]. cbn [sio_getvalue sio_guard sclosed fst snd]. split; [discriminate|]. cbn [sval].
        set (b := mksio (v ++ data) (length (v ++ data)) false).
        eapply ok_bind; [apply (ok_send_in (v ++ data) 0 _ _ (fun ph es r => exists a, a <> Block /\ es = [ev (Some (v ++ data, a))] /\ r = taken a /\
          ph = In 0 b (mkhst (match taken a with Good _ => [] | _ => v ++ data end) false None))); [reflexivity|]| |].
        * intros a Ha. exists [ev (Some (v ++ data, a))], (mkhst (match taken a with Good _ => [] | _ => v ++ data end) false None).
          split; [unfold reqs; cbn; rewrite Hask; reflexivity|].
          split; [|exists a; auto]. rewrite Eg. apply hmoves_one, Hev. pose proof (taken_block a Ha) as Ht.
          destruct (taken a) as [[]|e|] eqn:Et; [apply p_sent; auto|eapply p_failed; eauto|congruence].
        * intros ph es [] (a & Ha & -> & Et & ->). rewrite <- Et. cbn [op bind HostLedger.ok stepc stepl stepo]. split; [reflexivity|].
          cbn [sio_seek0 sio_guard sclosed fst snd b]. split; [discriminate|].
          split; [reflexivity|]. cbn [sio_truncate0 sio_guard sclosed fst snd spos]. split; [discriminate|].
          exists (mksio [] 0 false), (mkhst [] false None), []. split; [reflexivity|]. split; [apply (Hin [])|]. split; [reflexivity|]. split; [constructor|].
          exists (Some (v ++ data, a)). split; [reflexivity|]. unfold put_result. rewrite <- Et. reflexivity.
        * intros ph es e (a & Ha & -> & Et & ->). rewrite <- Et. exists b, (mkhst (v ++ data) false None), [].
          split; [reflexivity|]. split; [apply Hin|]. split; [reflexivity|]. split; [constructor|].
          exists (Some (v ++ data, a)). split; [reflexivity|]. unfold put_result. rewrite <- Et. reflexivity.
      + assert (Hnb : no_break data) by (apply MirLedger.breaks; exact Eb).
        assert (Hmv : mv [ev None] (mkhst v false bz) (mkhst (v ++ data) false None)).
        { apply hmoves_one. rewrite Eg. apply Hev. apply p_hold; auto. }
        destruct (ProcFacts.no_break_lines data Eb) as [H1 H2]. destruct data as [|ch data].
        * rewrite H2 by reflexivity. exists (mksio v (length v) false), (mkhst v false bz), [ev None].
          split; [reflexivity|]. split; [apply Hin|]. split; [unfold reqs; cbn; rewrite Hask; reflexivity|].
          split; [rewrite app_nil_r in Hmv; exact Hmv|]. exists None. auto.
        * rewrite H1 by discriminate. cbn [op HostLedger.ok stepc stepl stepo]. split; [reflexivity|]. rewrite write_end. cbn [fst snd]. split; [discriminate|].
          exists (mksio (v ++ ch :: data) (length (v ++ ch :: data)) false), (mkhst v false bz), [ev None].
          split; [reflexivity|]. split; [apply Hin|]. split; [unfold reqs; cbn; rewrite Hask; reflexivity|].
          split; [exact Hmv|]. exists None. auto.
  Qed.

  (** A section in which the mirror turns out to be shut. *)
  Lemma leave_shut {A} (R : list hev -> outcome A -> Prop) b r : sclosed b = true -> binv b -> R [HIs true] r ->
    leave R (In 0 b (bview b)) [] r.
  Proof.
    intros Hc Hb HR. exists b, (bview b), [HIs true]. split; [reflexivity|]. split; [exact Hb|]. split; [reflexivity|].
    split; [|exact HR]. pose proof (is_move b) as H. rewrite Hc in H. exact H.
  Qed.
  Lemma leave_same {A} (R : list hev -> outcome A -> Prop) b es r : binv b -> R es r -> leave R (In 0 b (bview b)) es r.
  Proof.
    intros Hb HR. exists b, (bview b), []. split; [reflexivity|]. split; [exact Hb|]. split; [reflexivity|]. split; [constructor|].
    rewrite app_nil_r. exact HR.
  Qed.
  Lemma wrote_shut data b : sclosed b = true ->
    ok (wrote data) (In 0 b (bview b)) (fun ph es r => ph = In 0 b (bview b) /\ es = [] /\
      h_acts ag (HWrite data) (with_res CNat r) [HIs false; HIs true]).
  Proof.
    intros Hc. unfold wrote. cbv zeta. destruct ag eqn:Eg.
    - eapply ok_bind; [apply ok_send_in_shut, Hc| |intros ph es e (_ & _ & He); discriminate].
      intros ph es [] (-> & -> & _). cbn. split; [reflexivity|]. split; [reflexivity|]. apply ha_write_late_aggr. reflexivity.
    - rewrite ProcFacts.trigger_break. destruct (ProcFacts.has_break data) eqn:Eb.
      + cbn [op bind HostLedger.ok stepc stepl stepo]. split; [reflexivity|]. unfold sio_write, sio_guard. rewrite Hc. cbn [fst snd]. split; [discriminate|].
        split; [reflexivity|]. split; [reflexivity|]. apply ha_write_late; [reflexivity|]. intros ->. discriminate.
      + destruct (ProcFacts.no_break_lines data Eb) as [H1 H2]. destruct data as [|ch data].
        * rewrite H2 by reflexivity. cbn. split; [reflexivity|]. split; [reflexivity|]. apply ha_write_late_none.
        * rewrite H1 by discriminate. cbn [op bind HostLedger.ok stepc stepl stepo]. split; [reflexivity|]. unfold sio_write, sio_guard. rewrite Hc. cbn [fst snd]. split; [discriminate|].
          split; [reflexivity|]. split; [reflexivity|]. apply ha_write_late; [reflexivity|discriminate].
  Qed.
  Lemma ok_write_sec data : ok (hl_with J (g_write_body lop wl J ag true data)) Out
    (fun ph es r => ph = Out /\ h_acts ag (HWrite data) (with_res CNat r) (HIs false :: es)).
  Proof.
    apply (ok_with M n i (g_write_body lop wl J ag true data) (fun es r => h_acts ag (HWrite data) (with_res CNat r) (HIs false :: es))). intros b Hb.
    change (g_write_body lop wl J ag true data) with (bind (g_check_states lop wl J) (fun _ => wrote data)).
    destruct (sclosed b) eqn:Hc.
    - eapply ok_bind; [apply ok_check_in_shut, Hc| |intros ph es e (_ & _ & He); discriminate].
      intros ph es [] (-> & -> & _). eapply ok_more; [|apply wrote_shut, Hc].
      intros ph es r (-> & -> & HR). apply leave_shut; auto.
    - destruct Hb as [Hb|Hb]; [congruence|]. destruct b as [v p c]. cbn [sclosed spos sval] in *. subst c p.
      eapply ok_bind; [apply ok_check_in; reflexivity| |].
      + intros ph es [] (a & -> & [(Hg & _ & ->)|(e & _ & He & _)]); [|discriminate].
        eapply ok_more; [|apply (ok_wrote data v (Some i) (HText data)); [intros; apply hm_text; assumption|reflexivity]].
        intros ph es r (b' & v' & es2 & -> & Hb' & H1 & H2 & (p & Hes & ->)).
        exists b', v', es2. split; [reflexivity|]. split; [exact Hb'|]. split; [exact H1|]. split; [exact H2|].
        rewrite <- app_assoc, Hes. cbn [sval app].
        replace (with_res CNat (put_result (length data) p)) with (put_result (CNat (length data)) p); [apply ha_write, Hg|].
        destruct p as [[x a']|]; [|reflexivity]. cbn. destruct (taken a'); reflexivity.
      + intros ph es e (a & -> & [(_ & He & _)|(e' & Hg & He & ->)]); [discriminate|]. injection He as <-.
        apply leave_same; [right; reflexivity|]. cbn. eapply ha_write_stop, Hg.
  Qed.
  Lemma ok_new_line check : ok (g_new_line lop wl J ag check) Out (fun ph es r => ph = Out /\ h_line check (unit_of r) es).
  Proof.
    apply (ok_with M n i _ (fun es r => h_line check (unit_of r) es)). intros b Hb.
    cbn [op bind HostLedger.ok stepc stepl stepo]. split; [reflexivity|]. unfold sio_tell, sio_guard. destruct (sclosed b) eqn:Hc; cbn [fst snd].
    - split; [discriminate|]. apply leave_shut; auto. apply hl_shut.
    - split; [discriminate|]. destruct Hb as [Hb|Hb]; [congruence|]. destruct b as [v p c]. cbn [sclosed spos sval] in *. subst c p.
      assert (Hin : forall v, binv (mksio v (length v) false)) by (intros; right; reflexivity).
      destruct v as [|ch v].
      + cbn. exists (mksio [] 0 false), (mkhst [] false None), [HHeld []]. split; [reflexivity|]. split; [apply (Hin [])|]. split; [reflexivity|].
        split; [apply hmoves_one, hm_held|]. apply hl_none.
      + set (w := ch :: v). change (0 <? length w) with true. cbv iota.
        assert (Hres : forall p : option (text * reply), unit_of match put_result 1 p with Good _ => Good tt | Fail e => Fail e | Block => Block end = put_result CUnit p).
        { intros [[x a']|]; [|reflexivity]. cbn. destruct (taken a'); reflexivity. }
        destruct check.
        * change (g_write_body lop wl J ag true [LF]) with (bind (g_check_states lop wl J) (fun _ => wrote [LF])).
          eapply ok_bind; [eapply ok_bind; [apply ok_check_in; reflexivity| |]| |].
          -- intros ph es [] (a & -> & [(Hg & _ & ->)|(e & _ & He & _)]); [|discriminate].
             eapply ok_more; [|apply (ok_wrote [LF] w (Some i) (HText [LF])); [intros; apply hm_text; assumption|reflexivity]].
             intros ph es r (b' & v' & es2 & -> & Hb' & H1 & H2 & (p & Hes & ->)).
             instantiate (1 := fun ph es r => leave (fun es r => h_line true (unit_of (match r with Good _ => Good tt | Fail e => Fail e | Block => Block end)) es) ph es r).
             exists b', v', es2. split; [reflexivity|]. split; [exact Hb'|]. split; [exact H1|]. split; [exact H2|].
             rewrite <- app_assoc, Hes. cbn [sval app length]. rewrite Hres. apply hl_line; [discriminate|exact Hg].
          -- intros ph es e (a & -> & [(_ & He & _)|(e' & Hg & He & ->)]); [discriminate|]. injection He as <-.
             apply leave_same; [apply Hin|]. cbn. apply hl_stop; [discriminate|exact Hg].
          -- intros ph es x (b' & v' & es2 & -> & Hb' & H1 & H2 & HR). cbn. exists b', v', es2. rewrite app_nil_r. auto 10.
          -- intros ph es e (b' & v' & es2 & -> & Hb' & H1 & H2 & HR). exists b', v', es2. auto 10.
        * change (g_write_body lop wl J ag false [LF]) with (wrote [LF]).
          eapply ok_bind; [apply (ok_wrote [LF] w None HLine); [|reflexivity]| |].
          -- intros p h' Hp. apply hm_line; [discriminate|exact Hp].
          -- intros ph es x (b' & v' & es2 & -> & Hb' & H1 & H2 & (p & Hes & Hx)). cbn. exists b', v', es2. rewrite app_nil_r.
             split; [reflexivity|]. split; [exact Hb'|]. split; [exact H1|]. split; [exact H2|]. rewrite Hes.
             pose proof (Hres p) as Hr. change (length [LF]) with 1 in Hx. rewrite <- Hx in Hr. rewrite Hr. apply hl_unchecked.
          -- intros ph es e (b' & v' & es2 & -> & Hb' & H1 & H2 & (p & Hes & Hx)). exists b', v', es2.
             split; [reflexivity|]. split; [exact Hb'|]. split; [exact H1|]. split; [exact H2|]. cbn [app]. rewrite Hes.
             pose proof (Hres p) as Hr. change (length [LF]) with 1 in Hx. rewrite <- Hx in Hr. rewrite Hr. apply hl_unchecked.
  Qed.

  (** The calls. *)
  Lemma ok_clear : ok (g_clear lop wl J) Out (fun ph es r => ph = Out /\ (r = Good tt /\ es = [HDrop] \/ r = Fail ValueError /\ es = [HIs true])).
  Proof.
    apply (ok_with M n i _ (fun es r => r = Good tt /\ es = [HDrop] \/ r = Fail ValueError /\ es = [HIs true])). intros b Hb.
    cbn [op bind HostLedger.ok stepc stepl stepo]. split; [reflexivity|]. unfold sio_seek0, sio_guard. destruct (sclosed b) eqn:Hc; cbn [fst snd].
    - split; [discriminate|]. apply leave_shut; auto.
    - split; [discriminate|]. split; [reflexivity|]. cbn [sio_truncate0 sio_guard sclosed spos fst snd]. split; [discriminate|].
      exists (mksio [] 0 false), (bview b), [HDrop]. split; [reflexivity|]. split; [right; reflexivity|]. split; [reflexivity|].
      split; [|auto]. unfold bview. rewrite Hc. cbn. apply hmoves_one, hm_drop.
  Qed.
  Lemma ok_shut : ok (hl_with J (op (LC (MClose J)))) Out (fun ph es r => ph = Out /\ r = Good tt /\ es = [HShut]).
  Proof.
    apply (ok_with M n i _ (fun es r => r = Good tt /\ es = [HShut])). intros b Hb.
    cbn [op bind HostLedger.ok stepc stepl stepo]. split; [reflexivity|]. cbn [sio_close fst snd]. split; [discriminate|].
    exists (mksio (sval b) (spos b) true), (bview b), [HShut]. split; [reflexivity|]. split; [left; reflexivity|]. split; [reflexivity|].
    split; [|auto]. apply hmoves_one, hm_shut.
  Qed.
  Lemma ok_flush : ok (hl_with J (op (LC (MFlush J)))) Out (fun ph es r => ph = Out /\ r = Good tt /\ es = []).
  Proof.
    apply (ok_with M n i _ (fun es r => r = Good tt /\ es = [])). intros b Hb.
    cbn [op bind HostLedger.ok stepc stepl stepo]. split; [reflexivity|]. cbn [sio_flush fst snd]. split; [discriminate|].
    apply leave_same; auto.
  Qed.
  Lemma ok_read_sec : ok (hl_with J (op (LC (MGetvalue J)))) Out (fun ph es r => ph = Out /\ h_acts ag HRead (with_res CText r) (HIs false :: es)).
  Proof.
    apply (ok_with M n i _ (fun es r => h_acts ag HRead (with_res CText r) (HIs false :: es))). intros b Hb.
    cbn [op bind HostLedger.ok stepc stepl stepo]. split; [reflexivity|]. unfold sio_getvalue, sio_guard. destruct (sclosed b) eqn:Hc; cbn [fst snd].
    - split; [discriminate|]. apply leave_shut; auto. apply ha_read_late.
    - split; [discriminate|]. exists b, (bview b), [HHeld (sval b)]. split; [reflexivity|]. split; [exact Hb|]. split; [reflexivity|].
      split; [|apply ha_read]. unfold bview. rewrite Hc. apply hmoves_one, hm_held.
  Qed.
  (** Requests outside of sections. *)
  Lemma ok_post_out r : ok (g_request lop r (fun _ => Ret tt)) Out (fun ph es r' => ph = Out /\ exists a, es = [HReq r a] /\ r' = taken a).
  Proof. apply ok_post. intros a Ha. eauto. Qed.
  Lemma ok_signal check m (p : prog lcmd unit) :
    p = (bind (g_new_line lop wl J ag check) (fun _ => g_request lop (PostMsg (BJson m)) (fun _ => Ret tt))) ->
    ok (bind (hl_with J (op (LC (MClosed J)))) (fun c : bool => if c then Ret tt else p)) Out
      (fun ph es r => ph = Out /\ h_signal check m (unit_of r) es).
  Proof.
    intros ->. eapply ok_bind; [apply ok_closed| |intros ph es e (_ & c & _ & He); discriminate].
    intros ph es c (-> & c' & -> & Ec). injection Ec as <-. destruct c; [cbn; split; [reflexivity|apply hs_shut]|].
    eapply ok_bind; [apply ok_new_line| |].
    - intros ph es u (-> & Hl). eapply ok_more; [|apply ok_post_out]. intros ph es2 r (-> & a & -> & ->).
      split; [reflexivity|]. cbn. apply hs_sent, Hl.
    - intros ph es e (-> & Hl). split; [reflexivity|]. cbn. apply hs_fail, Hl.
  Qed.
  Definition acts0 (c : mcall) (r : outcome cres) (es : list hev) : Prop :=
    h_acts ag c r es \/ exists exc, c = HClose exc /\ r = Good CUnit /\ es = [HIs false; HIs true; HDrop; HShut].
  Lemma ok_as {X} (f : X -> cres) (p : prog lcmd X) (R : list hev -> outcome X -> Prop) (R' : list hev -> outcome cres -> Prop) :
    ok p Out (fun ph es r => ph = Out /\ R es r) -> (forall es x, R es (Good x) -> R' es (Good (f x))) -> (forall es e, R es (Fail e) -> R' es (Fail e)) ->
    ok (g_as f p) Out (fun ph es r => ph = Out /\ R' es r).
  Proof.
    intros Hp Hg Hb. unfold g_as. eapply ok_bind; [exact Hp| |].
    - intros ph es a (-> & H). cbn. split; [reflexivity|]. rewrite app_nil_r. auto.
    - intros ph es e (-> & H). auto.
  Qed.
  Lemma ok_hl_call c : ok (hl_call M c) Out (fun ph es r => ph = Out /\ acts0 c r es).
  Proof.
    assert (Hgo : forall p, ok p Out (fun ph es r => ph = Out /\ h_acts ag c r es) -> ok p Out (fun ph es r => ph = Out /\ acts0 c r es)).
    { intros p. apply ok_more. intros ph es r (H1 & H2). split; [exact H1|left; exact H2]. }
    destruct c; unfold hl_call; cbn [g_call].
    - apply Hgo, (ok_as CNat _ (fun es r => h_acts ag (HWrite data) (with_res CNat r) es)); [|auto|auto].
      unfold g_write, g_writable. eapply ok_bind; [apply ok_open| |intros ph es e (_ & c & _ & He); discriminate].
      intros ph es w (-> & c & -> & Ec). injection Ec as ->. destruct c; cbn [negb]; cbv iota; [cbn; split; [reflexivity|apply ha_write_shut]|apply ok_write_sec].
    - apply Hgo, (ok_as unit_cres _ (fun es r => h_line check (unit_of r) es)); [apply ok_new_line| |]; intros es x H; apply ha_new_line, H.
    - apply Hgo, (ok_as unit_cres _ (fun es r => h_signal true body_close (unit_of r) es)); [apply ok_signal; reflexivity| |]; intros es x H; apply ha_eof, H.
    - apply Hgo, (ok_as unit_cres _ (fun es r => h_signal (end_check (Some e)) (body_exc s_error e) (unit_of r) es)).
      + apply ok_signal. unfold end_check, is_stop. destruct (ex_cls e); reflexivity.
      + intros es x H. apply ha_error, H.
      + intros es x H. apply ha_error, H.
    - apply Hgo, (ok_as unit_cres _ (fun es r => h_signal true (body_exc s_warning e) (unit_of r) es)); [apply ok_signal; reflexivity| |]; intros es x H; apply ha_warning, H.
    - apply Hgo, (ok_as unit_cres _ (fun es r => h_acts ag (HSendData data) (unit_of r) es)); [|auto|auto].
      unfold g_send_data. eapply ok_bind; [apply ok_closed| |intros ph es e (_ & c & _ & He); discriminate].
      intros ph es c (-> & c' & -> & Ec). injection Ec as <-. destruct c; [cbn; split; [reflexivity|apply ha_data_shut]|].
      eapply ok_more; [|apply ok_post_out]. intros ph es r (-> & a & -> & ->). split; [reflexivity|]. apply ha_data.
    - apply Hgo, (ok_as unit_cres _ (fun es r => h_acts ag HCheck (unit_of r) es)); [|auto|auto].
      unfold g_check_states. eapply ok_bind; [apply ok_closed| |intros ph es e (_ & c & _ & He); discriminate].
      intros ph es c (-> & c' & -> & Ec). injection Ec as <-. destruct c; [cbn; split; [reflexivity|apply ha_check_shut]|].
      apply ok_ask. intros a Ha. split; [reflexivity|]. apply ha_check.
    - apply Hgo, (ok_as unit_cres _ (fun es r => r = Good tt /\ es = [HDrop] \/ r = Fail ValueError /\ es = [HIs true])); [apply ok_clear| |].
      + intros es x [(_ & ->)|(H & _)]; [apply ha_clear|discriminate].
      + intros es x [(H & _)|(H & ->)]; [discriminate|]. injection H as ->. apply ha_clear_shut.
    - apply Hgo, (ok_as unit_cres _ (fun es r => r = Good tt /\ es = [])); [apply ok_flush| |].
      + intros es x (_ & ->). apply ha_flush.
      + intros es x (H & _). discriminate.
    - apply Hgo, (ok_as CText _ (fun es r => h_acts ag HRead (with_res CText r) es)); [|auto|auto].
      unfold g_read, g_readable. eapply ok_bind; [apply ok_open| |intros ph es e (_ & c & _ & He); discriminate].
      intros ph es w (-> & c & -> & Ec). injection Ec as ->. destruct c; cbn [negb]; cbv iota; [cbn; split; [reflexivity|apply ha_read_shut]|apply ok_read_sec].
    - (* close *)
      apply (ok_as unit_cres _ (fun es r => acts0 (HClose exc) (unit_of r) es)); [|auto|auto].
      unfold g_close. eapply ok_bind; [apply ok_closed| |intros ph es e (_ & c & _ & He); discriminate].
      intros ph es c (-> & c' & -> & Ec). injection Ec as <-. destruct c; [cbn; split; [reflexivity|left; apply ha_close_shut]|].
      eapply (ok_bind M n i _ _ Out (fun ph es r => ph = Out /\ h_signal (end_check exc) (end_body exc) (unit_of r) es)).
      + destruct exc as [e|]; apply ok_signal; [|reflexivity]. unfold end_check, is_stop. destruct (ex_cls e); reflexivity.
      + intros ph es u (-> & Hs). eapply ok_bind; [apply ok_clear| |].
        * intros ph es2 u' (-> & [(_ & ->)|(H & _)]); [|discriminate]. eapply ok_more; [|apply ok_shut].
          intros ph es2 r (-> & -> & ->). split; [reflexivity|]. cbn [unit_of app] in *. inversion Hs as [H1 H2|e es1 H1 H2 H3|es1 a H1 H2 H3]; subst.
          -- right. exists exc. auto.
          -- left. assert (Ht : taken a = Good tt) by (destruct (taken a) as [[]|e|]; [reflexivity|discriminate|discriminate]).
             rewrite Ht in *. cbn [unit_of app] in *. rewrite <- app_assoc. apply ha_close; [exact H1|exact Ht].
        * intros ph es2 e (-> & [(H & _)|(H & ->)]); [discriminate|]. injection H as ->. split; [reflexivity|]. left. apply ha_close_late, Hs.
      + intros ph es e (-> & Hs). split; [reflexivity|]. left. apply ha_close_fail, Hs.
    - apply Hgo, (ok_as CBool _ (fun es r => exists c, es = [HIs c] /\ r = Good c)); [apply ok_closed| |]; intros es x (c & -> & H); [injection H as ->; apply ha_closed|discriminate].
    - apply Hgo, (ok_as CBool _ (fun es r => exists c, es = [HIs c] /\ r = Good (negb c))); [apply ok_open| |]; intros es x (c & -> & H); [injection H as ->; apply ha_readable|discriminate].
    - apply Hgo, (ok_as CBool _ (fun es r => exists c, es = [HIs c] /\ r = Good (negb c))); [apply ok_open| |]; intros es x (c & -> & H); [injection H as ->; apply ha_writable|discriminate].
    - apply Hgo. cbn. split; [reflexivity|apply ha_fileno].
    - apply Hgo. cbn. split; [reflexivity|apply ha_seek].
    - apply Hgo. cbn. split; [reflexivity|apply ha_isatty].
    - apply Hgo. cbn. split; [reflexivity|apply ha_seekable].
  Qed.
  Definition xacts0 (c : xcall) (r : outcome xres) (es : list hev) : Prop :=
    x_acts ag c r es \/ exists exc, c = Mine (HClose exc) /\ r = Good (XCall CUnit) /\ es = [HIs false; HIs true; HDrop; HShut].
  Lemma ok_x_call c : ok (x_call M c) Out (fun ph es r => ph = Out /\ xacts0 c r es).
  Proof.
    destruct c as [c|r]; cbn [x_call].
    - eapply ok_bind; [apply ok_hl_call| |].
      + intros ph es a (-> & H). cbn. split; [reflexivity|]. rewrite app_nil_r. destruct H as [H|(exc & -> & H & ->)].
        * left. apply (xa_mine ag c (Good a)), H.
        * right. exists exc. injection H as ->. auto.
      + intros ph es e (-> & H). split; [reflexivity|]. destruct H as [H|(exc & -> & H & ->)]; [|discriminate].
        left. apply (xa_mine ag c (Fail e)), H.
    - cbn [op bind HostLedger.ok stepc stepl stepo]. intros a Ha. destruct a as [x|e|]; [| |congruence]; cbn; (split; [reflexivity|]); left.
      + apply (xa_other ag r (Good x)).
      + apply (xa_other ag r (Fail e)).
  Qed.
End Calls.

(** A shut mirror is not opened again. *)
Lemma hmove_shut ag e v v' : hmove ag e v v' -> h_shut v = true -> h_shut v' = true.
Proof. destruct 1; simpl; intros; congruence. Qed.
Lemma shut_no_drop ag es : forall v v', hmoves ag es v v' -> h_shut v = true -> ~ HDrop ∈ map snd es.
Proof.
  intros v v' H. induction H as [v|e es v1 v2 v3 Hm _ IH]; intros Hs Hin; [inversion Hin|]. simpl in Hin.
  apply elem_of_cons in Hin. destruct Hin as [E|Hin]; [|exact (IH (hmove_shut _ _ _ _ Hm Hs) Hin)].
  destruct Hm; simpl in *; discriminate.
Qed.
Lemma no_bogus ag es v v' : hmoves ag es v v' -> ~ sublist [HIs true; HDrop] (map snd es).
Proof.
  intros H. induction H as [v|e es v1 v2 v3 Hm H IH]; intros Hs; [inversion Hs|]. simpl in Hs.
  inversion Hs as [|x l1 l2 H1 E1|x l1 l2 H1]; subst.
  - destruct e as [k e]. simpl in *. subst e. inversion Hm; subst. eapply (shut_no_drop _ _ _ _ H eq_refl).
    apply (sublist_submseteq [HDrop]) in H1. eapply (elem_of_submseteq [HDrop]); [apply elem_of_list_singleton; reflexivity|exact H1].
  - exact (IH H1).
Qed.
Lemma sublist_events {X} k (es : list (nat * X)) : sublist (events_of k es) (map snd es).
Proof.
  unfold events_of. induction es as [|e es IH]; [constructor|]. simpl. destruct (fst e =? k); simpl; [apply sublist_skip|apply sublist_cons]; exact IH.
Qed.

Section Account.
  Variables (E : henv) (M : lmir) (css : list (list xcall)) (w0 : lworld).
  Hypothesis w0_end : at_end M w0.
  Definition Rx (i : nat) (es : list hev) (r : outcome (list (outcome xres))) : Prop :=
    forall cs, css !! i = Some cs -> exists rs ess, r = Good rs /\ es = concat ess /\ all3 (xacts0 M) cs rs ess.
  Lemma pool_inv n : l_ref w0 !! lm_id M = Some n -> inv E M n Rx w0 (x_pool M css) (mkst w0 ∅) [] (hview M w0).
  Proof.
    intros Hn. apply inv_init; [exact Hn|exact w0_end|]. intros i p Hi. unfold x_pool in Hi.
    apply list_lookup_fmap_Some in Hi. destruct Hi as (cs & Hi & ->).
    eapply ok_more; [|apply (ok_thread M n i (x_call M) (xacts0 M) cs)].
    - intros ph es r (-> & rs & ess & -> & -> & Ha). split; [reflexivity|]. intros cs' Hi'. rewrite Hi in Hi'. injection Hi' as <-.
      exists rs, ess. auto.
    - apply List.Forall_forall. intros c _. apply ok_x_call.
  Qed.
  Theorem c86_account sch ps' s' : hl_has_lock M w0 -> x_sched E sch (x_pool M css, mkst w0 ∅) = Some (ps', s') ->
    Forall (fun p => finished p = true) ps' ->
    exists es,
      hmoves (lm_aggr M) es (hview M w0) (hview M (dat s')) /\
      served E (asked es) (hnet w0) (hnet (dat s')) /\
      Forall (fun e => fst e < length css) es /\
      (forall i cs, nth_error css i = Some cs -> exists rs ess,
         nth_error ps' i = Some (Ret rs) /\ events_of i es = concat ess /\ all3 (x_acts (lm_aggr M)) cs rs ess) /\
      s' = mkst (dat s') ∅ /\ hl_has_lock M (dat s') /\ at_end M (dat s').
  Proof.
    intros (n & Hn) Hr Hf. destruct (sim_sched E M n Rx w0 sch _ _ _ _ _ _ (pool_inv n Hn) Hr) as (es & v & I).
    destruct (inv_done E M n Rx w0 ps' s' es v I Hf) as (H1 & H2 & H3 & H4 & H5 & H6 & H7).
    assert (Hl : length ps' = length css).
    { transitivity (length (x_pool M css)); [|unfold x_pool; apply map_length]. exact (MirLedger.pool_length sch _ _ Hr). }
    exists es. split; [exact H4|]. split; [exact H5|]. split; [rewrite <- Hl; exact H6|]. split; [|split; [exact H1|split; [exists n; exact H2|exact H3]]].
    intros i cs Hi. assert (Hi' : css !! i = Some cs) by (rewrite <- Hi; clear; revert i; induction css as [|c l IH]; intros [|i]; simpl; auto).
    destruct (lookup_lt_is_Some_2 ps' i) as [p Hp]; [rewrite Hl; eapply lookup_lt_Some, Hi'|].
    destruct (H7 i p Hp) as (r & HR & Hpr). destruct (HR cs Hi') as (rs & ess & -> & Hes & Ha). subst p.
    exists rs, ess. split; [rewrite <- Hp; clear; revert i; induction ps' as [|c l IH]; intros [|i]; simpl; auto|]. split; [exact Hes|].
    apply (MirLedger.all3_in (xacts0 M)); [|exact Ha]. intros c r0 z Hin [Hx|(exc & -> & -> & ->)]; [exact Hx|]. exfalso.
    apply (no_bogus _ _ _ _ H4). etransitivity; [|apply (sublist_events i)]. rewrite Hes.
    etransitivity; [|apply MirLedger.sublist_concat, Hin]. apply sublist_cons, sublist_skip, sublist_skip, sublist_nil_l.
  Qed.
  Theorem c86_progress sch ps' s' : hl_has_lock M w0 -> x_sched E sch (x_pool M css, mkst w0 ∅) = Some (ps', s') ->
    Forall (fun p => finished p = true) ps' \/ exists i, x_sched E [i] (ps', s') <> None.
  Proof.
    intros (n & Hn) Hr. destruct (sim_sched E M n Rx w0 sch _ _ _ _ _ _ (pool_inv n Hn) Hr) as (es & v & I).
    destruct (inv_go E M n Rx w0 ps' s' es v I) as [H|(i & H)]; [left; exact H|right; exists i].
    unfold x_sched. simpl. destruct (cstep i (ps', s')); [discriminate|exact H].
  Qed.
End Account.

(** No text is lost or invented while nothing is dropped. *)
Theorem c86_text es : forall v v', hmoves false es v v' -> Forall (fun e => snd e <> HDrop /\ snd e <> HShut) es ->
  concat (map (fun e => given (snd e)) es) ++ h_held v' = h_held v ++ concat (map (fun e => added (snd e)) es).
Proof.
  intros v v' H. induction H as [v|e es v1 v2 v3 Hm H IH]; intros Hf; [simpl; rewrite app_nil_r; reflexivity|].
  inversion Hf as [|x l [Hd Hs] Hf']; subst. specialize (IH Hf'). simpl.
  assert (Hp : forall data h p h', puts false data h p h' ->
    match p with Some (m, a) => match taken a with Good _ => m | _ => [] end | None => [] end ++ h' = h ++ data).
  { intros data h p h' Hp. destruct Hp as [h _ Hn|h a _ Hn Ht|h a e' _ Hn Ht|h a Ha]; [reflexivity| | |discriminate]; rewrite Ht; [apply app_nil_r|reflexivity]. }
  rewrite <- app_assoc, IH, !app_assoc. f_equal.
  destruct Hm as [i h c|i h|i h a Ha|i h a e' Ha|i data h p h' Hq|i h p h' Hn Hq|i h|i h c|i r a v]; simpl in *; rewrite ?app_nil_r; try reflexivity;
    [exact (Hp _ _ _ _ Hq)|exact (Hp _ _ _ _ Hq)|congruence|congruence].
Qed.
(** An aggressive mirror sends every text by itself. *)
Theorem c86_text_aggressive es : forall v v', hmoves true es v v' ->
  Forall (fun e => forall data p, snd e = HText data p -> exists a, p = Some (data, a)) es.
Proof.
  intros v v' H. induction H as [v|e es v1 v2 v3 Hm H IH]; constructor; [|exact IH]. intros data p He. destruct Hm; try discriminate.
  simpl in He. injection He as -> ->. match goal with H : puts true _ _ _ _ |- _ => destruct H; try discriminate; eauto end.
Qed.
