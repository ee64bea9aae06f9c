(** * LazyImpProofs: proofs for PropLazyImp.v *)
From stdpp Require Import gmap strings.
From Coq Require Import String.
From Coq Require Import List Bool Arith Lia.
From Verif Require Import Prog ProgFacts Rely Okp Lazy LazyImp LazyImpSpec.
Import ListNotations.
Local Open Scope nat_scope.
Local Open Scope prog_scope.

(** ** One thread: the same as Lazy.v *)
Lemma miss_run E t deps : forall s, run t (i_missing E deps) s = (Good (check_is_dep_missing E deps (iw (dat s))), s).
Proof.
  induction deps as [|d deps IH]; intros s; [reflexivity|]. cbn [i_missing check_is_dep_missing].
  rewrite run_bind, run_op. cbn. destruct s as [w k]. cbn. destruct (find_spec E d (iw w)); [reflexivity| |reflexivity]. rewrite IH. reflexivity.
Qed.
Lemma filter_filter {X} (f : X -> bool) l : List.filter f (List.filter f l) = List.filter f l.
Proof. induction l as [|x l IH]; simpl; [reflexivity|]. destruct (f x) eqn:Ef; simpl; [rewrite Ef, IH; reflexivity|exact IH]. Qed.
Lemma gather_filter rel miss w ds : gather rel miss w = Ok ds -> List.filter (fun i => is_lazy i w) ds = ds.
Proof.
  unfold gather. destruct miss; [intros [= <-]; reflexivity|]. destruct rel as [| |l]; [intros [= <-]; reflexivity|discriminate|].
  destruct (rel_mods l w); [|discriminate]. intros [= <-]. apply filter_filter.
Qed.
Lemma placeholder_run t n req w mk k : exists mk',
  run t (i_placeholder t n req) (mkst (mkiw w mk) k) =
  (Good (fst (create_module_placeholder n req w)), mkst (mkiw (snd (create_module_placeholder n req w)) mk') k).
Proof.
  unfold i_placeholder, create_module_placeholder. destruct req; [exists mk; reflexivity|].
  rewrite run_bind, run_op. cbn. destruct (mods w !! n) as [[| |]|]; cbn; eauto.
Qed.
Theorem import_run E t args w mk k : exists mk',
  run t (i_import E t args) (mkst (mkiw w mk) k) =
  (Good (fst (lazy_import E args w)), mkst (mkiw (snd (lazy_import E args w)) mk') k).
Proof.
  unfold i_import, lazy_import. rewrite run_bind, run_op. cbn -[i_missing i_create].
  assert (G : exists mk', run t
     (r <- i_missing E (i_deps args) ;;
      match r with
      | Ok miss => g <- op (IGather (i_rel args) miss) ;; match g with Ok deps => i_create E t args miss deps | Err x => Ret (Err x) end
      | Err x => Ret (Err x)
      end) (mkst (mkiw w mk) k) =
     (Good (fst match check_is_dep_missing E (i_deps args) w with
        | Ok miss => match gather (i_rel args) miss w with
            | Ok deps => match match i_package args with Some ""%string => FindRaises ImportErr | _ => find_spec E (full_name args) w end with
                | FindRaises e => (Err e, w)
                | NotFound => create_module_placeholder (full_name args) (i_required args) w
                | Found l => if miss then create_module_placeholder (full_name args) (i_required args) w
                    else match l with LdNone | LdBad => (Err TypeErr, w)
                         | LdGood => let '(i, w') := register (full_name args) (mkmod (full_name args) CLazy ∅ deps true) w in (Ok i, w') end
                end
            | Err e => (Err e, w) end
        | Err e => (Err e, w) end),
      mkst (mkiw (snd match check_is_dep_missing E (i_deps args) w with
        | Ok miss => match gather (i_rel args) miss w with
            | Ok deps => match match i_package args with Some ""%string => FindRaises ImportErr | _ => find_spec E (full_name args) w end with
                | FindRaises e => (Err e, w)
                | NotFound => create_module_placeholder (full_name args) (i_required args) w
                | Found l => if miss then create_module_placeholder (full_name args) (i_required args) w
                    else match l with LdNone | LdBad => (Err TypeErr, w)
                         | LdGood => let '(i, w') := register (full_name args) (mkmod (full_name args) CLazy ∅ deps true) w in (Ok i, w') end
                end
            | Err e => (Err e, w) end
        | Err e => (Err e, w) end) mk') k)).
  { rewrite run_bind, miss_run. cbn -[i_create create_module_placeholder register]. destruct (check_is_dep_missing E (i_deps args) w) as [miss|x]; [|exists mk; reflexivity].
    cbn -[i_create create_module_placeholder register]. destruct (gather (i_rel args) miss w) as [ds|x] eqn:Eg; [|exists mk; reflexivity].
    unfold i_create.
    assert (Hf : run t match i_package args with Some ""%string => Ret (FindRaises ImportErr) | _ => op (IFind E (full_name args)) end (mkst (mkiw w mk) k)
      = (Good match i_package args with Some ""%string => FindRaises ImportErr | _ => find_spec E (full_name args) w end, mkst (mkiw w mk) k)).
    { destruct (i_package args) as [[|]|]; [reflexivity|rewrite run_op; reflexivity|rewrite run_op; reflexivity]. }
    rewrite run_bind, Hf. clear Hf. generalize (match i_package args with Some ""%string => FindRaises ImportErr | _ => find_spec E (full_name args) w end). intros [|l|e]; [apply placeholder_run| |exists mk; reflexivity].
    destruct miss; [apply placeholder_run|]. destruct l; [exists mk; reflexivity|exists mk; reflexivity|].
    rewrite run_bind, run_op. cbn -[register]. rewrite (gather_filter _ _ _ _ Eg). cbn.
    eexists. do 3 f_equal. unfold set_mod. cbn. f_equal. rewrite alter_app_r_alt by lia. rewrite Nat.sub_diag. reflexivity. }
  destruct (mods w !! full_name args) as [[|i|h]|]; [exact G|exists mk; reflexivity|exact G|exact G].
Qed.

(** ** All threads *)
Section Main.
  Variables (E : penv) (css : list (list iargs)) (w0 : world).

  Record inv (w : iworld) : Prop := {
    v_names : names_right (iw w);
    v_len : length (heap (iw w)) = length (heap w0) + length (made w);
    v_ids : map snd (made w) = seq (length (heap w0)) (length (made w));
    v_made : forall t i, In (t, i) (made w) -> exists m, heap (iw w) !! i = Some m /\ registered (m_name m) (iw w) /\ asks css t (m_name m);
    v_one : forall t i j m m', In (t, i) (made w) -> In (t, j) (made w) -> heap (iw w) !! i = Some m -> heap (iw w) !! j = Some m' ->
      m_name m = m_name m' -> i = j;
    v_old : forall i m, heap w0 !! i = Some m -> heap (iw w) !! i = Some m;
    v_reg : forall n i, mods w0 !! n = Some (EMod i) -> mods (iw w) !! n = Some (EMod i);
    v_rest : runs (iw w) = runs w0 /\ lattrs (iw w) = lattrs w0 }.

  Definition grow (u : nat) (w w' : iworld) : Prop :=
    (exists l, made w' = made w ++ l /\ Forall (fun x => fst x <> u) l) /\
    (forall n, registered n (iw w) -> registered n (iw w')) /\
    (forall i m, heap (iw w) !! i = Some m -> exists m', heap (iw w') !! i = Some m' /\ m_name m' = m_name m /\ (In (u, i) (made w) -> m' = m)).
  Definition rel (u : nat) (s s' : st iworld) : Prop := inv (dat s) -> inv (dat s') /\ grow u (dat s) (dat s').

  Lemma grow_refl u w : grow u w w.
  Proof. split; [exists []; rewrite app_nil_r; auto|]. split; [auto|]. intros i m H. eauto. Qed.
  Lemma grow_trans u a b c : grow u a b -> grow u b c -> grow u a c.
  Proof.
    intros ((l & El & Hl) & Hr & Hh) ((l' & El' & Hl') & Hr' & Hh'). split; [|split; [auto|]].
    - exists (l ++ l'). rewrite El', El, app_assoc. split; [reflexivity|apply List.Forall_app; auto].
    - intros i m Hi. destruct (Hh i m Hi) as (m1 & H1 & N1 & O1). destruct (Hh' i m1 H1) as (m2 & H2 & N2 & O2).
      exists m2. split; [exact H2|]. split; [congruence|]. intros Hin. rewrite <- (O1 Hin). apply O2. rewrite El. apply in_or_app. auto.
  Qed.
  Lemma rel_refl u s : rel u s s.
  Proof. intros H. split; [exact H|apply grow_refl]. Qed.
  Lemma rel_trans u s1 s2 s3 : rel u s1 s2 -> rel u s2 s3 -> rel u s1 s3.
  Proof. intros H1 H2 Hi. destruct (H1 Hi) as [Hi2 G1]. destruct (H2 Hi2) as [Hi3 G2]. split; [exact Hi3|eapply grow_trans; eauto]. Qed.

  Notation wp := (wp rel).
  (** A command that only looks. *)
  Lemma wp_look {X B} t (c : icmd X) (k : X -> prog icmd B) Q s : (forall w, exists x, iexec c w = (Good x, w)) ->
    (forall s1 x, rel t s s1 -> iexec c (dat s1) = (Good x, dat s1) -> wp t (k x) Q s1) -> wp t (bind (op c) k) Q s.
  Proof.
    intros Hc Hk s1 H1. cbn. destruct (Hc (dat s1)) as [x Ex]. rewrite Ex. destruct s1 as [w kk]. cbn in *.
    split; [intros u _; apply rel_refl|]. apply (Hk (mkst w kk) x H1 Ex).
  Qed.

  Lemma id_of w t i : inv w -> In (t, i) (made w) -> exists j, made w !! j = Some (t, i) /\ i = length (heap w0) + j.
  Proof.
    intros Hv Hin. apply elem_of_list_In, elem_of_list_lookup in Hin. destruct Hin as [j Hj]. exists j. split; [exact Hj|].
    assert (E2 : map snd (made w) !! j = Some i) by (rewrite list_lookup_fmap, Hj; reflexivity).
    rewrite (v_ids _ Hv) in E2. apply lookup_seq in E2. tauto.
  Qed.
  Lemma owner_unique w t u i : inv w -> In (t, i) (made w) -> In (u, i) (made w) -> t = u.
  Proof.
    intros Hv H1 H2. destruct (id_of w t i Hv H1) as (j & Ej & E1). destruct (id_of w u i Hv H2) as (j' & Ej' & E2).
    assert (j = j') by lia. subst. congruence.
  Qed.

  (** Nothing that thread [t] made has the name [n]. *)
  Definition free (t : nat) (n : string) (w : iworld) : Prop := forall i m, In (t, i) (made w) -> heap (iw w) !! i = Some m -> m_name m <> n.
  Lemma free_rel t n s s' : inv (dat s) -> rel t s s' -> free t n (dat s) -> free t n (dat s').
  Proof.
    intros Hv Hr Hf i m Hin Hm. destruct (Hr Hv) as [_ ((l & El & Hl) & _ & Hh)]. rewrite El in Hin. apply in_app_or in Hin.
    destruct Hin as [Hin|Hin]; [|rewrite List.Forall_forall in Hl; destruct (Hl _ Hin); reflexivity].
    destruct (v_made _ Hv _ _ Hin) as (m0 & H0 & _). destruct (Hh i m0 H0) as (m' & H' & N & _). rewrite Hm in H'. injection H' as <-.
    rewrite N. apply (Hf i m0 Hin H0).
  Qed.
  Lemma not_reg_free t n w : inv w -> ~ registered n (iw w) -> free t n w.
  Proof. intros Hv Hn i m Hin Hm <-. destruct (v_made _ Hv _ _ Hin) as (m0 & H0 & Hr & _). rewrite H0 in Hm. injection Hm as ->. apply Hn, Hr. Qed.

  (** What thread [t] made is complete. *)
  Definition complete (t : nat) (w : iworld) : Prop := forall i m, In (t, i) (made w) -> heap (iw w) !! i = Some m -> m_class m <> CModule.
  Lemma complete_rel t s s' : inv (dat s) -> rel t s s' -> complete t (dat s) -> complete t (dat s').
  Proof.
    intros Hv Hr Hf i m Hin Hm. destruct (Hr Hv) as [_ ((l & El & Hl) & _ & Hh)]. rewrite El in Hin. apply in_app_or in Hin.
    destruct Hin as [Hin|Hin]; [|rewrite List.Forall_forall in Hl; destruct (Hl _ Hin); reflexivity].
    destruct (v_made _ Hv _ _ Hin) as (m0 & H0 & _). destruct (Hh i m0 H0) as (m' & H' & N & O). rewrite Hm in H'. injection H' as <-.
    rewrite (O Hin). apply (Hf i m0 Hin H0).
  Qed.

  Lemma register_inv t m w i w' : inv w -> free t (m_name m) w -> asks css t (m_name m) -> ~ registered (m_name m) w0 ->
    register (m_name m) m (iw w) = (i, w') ->
    inv (mkiw w' (made w ++ [(t, i)])) /\ forall u, u <> t -> grow u w (mkiw w' (made w ++ [(t, i)])).
  Proof.
    intros Hv Hf Ha Hn [= <- <-]. set (n := m_name m) in *. pose proof (v_len _ Hv) as Hlen.
    assert (Hap : forall j x, heap (iw w) !! j = Some x -> (heap (iw w) ++ [m]) !! j = Some x) by (intros j x Hj; apply lookup_app_l_Some, Hj).
    assert (Hnew : (heap (iw w) ++ [m]) !! length (heap (iw w)) = Some m) by (rewrite lookup_app_r, Nat.sub_diag by lia; reflexivity).
    assert (Hreg : forall n', registered n' (iw w) -> exists j, <[n := EMod (length (heap (iw w)))]> (mods (iw w)) !! n' = Some (EMod j)).
    { intros n' [j Hj]. destruct (decide (n = n')) as [->|Hne]; [rewrite lookup_insert; eauto|rewrite lookup_insert_ne by exact Hne; eauto]. }
    split.
    - split; cbn.
      + intros n' j Hj. destruct (decide (n = n')) as [<-|Hne].
        * cbn in Hj. rewrite lookup_insert in Hj. injection Hj as <-. exists m. split; [exact Hnew|reflexivity].
        * cbn in Hj. rewrite lookup_insert_ne in Hj by exact Hne. destruct (v_names _ Hv n' j Hj) as (x & Hx & N). eauto.
      + rewrite !app_length. cbn. lia.
      + rewrite map_app, app_length, (v_ids _ Hv). cbn. rewrite seq_app. cbn. rewrite Hlen. reflexivity.
      + intros u j Hin. apply in_app_or in Hin. destruct Hin as [Hin|[[= <- <-]|[]]].
        * destruct (v_made _ Hv _ _ Hin) as (x & Hx & Hr & Hk). exists x. split; [apply Hap, Hx|]. split; [apply Hreg, Hr|exact Hk].
        * exists m. split; [exact Hnew|]. split; [|exact Ha]. unfold registered. cbn. rewrite lookup_insert. eauto.
      + assert (Hx : forall t' i0 x, In (t', i0) (made w) -> (heap (iw w) ++ [m]) !! i0 = Some x -> heap (iw w) !! i0 = Some x).
        { intros t' i0 x Hin Hx. destruct (v_made _ Hv _ _ Hin) as (x' & Hx' & _). rewrite (Hap _ _ Hx') in Hx. congruence. }
        intros u i0 j x x' Hi Hj Hxi Hxj N. apply in_app_or in Hi. apply in_app_or in Hj.
        destruct Hi as [Hi|[Ei|[]]], Hj as [Hj|[Ej|[]]]; [|injection Ej as <- <-; exfalso|injection Ei as <- <-; exfalso|congruence].
        * eapply (v_one _ Hv); eauto.
        * rewrite Hnew in Hxj. injection Hxj as <-. apply (Hf i0 x Hi (Hx _ _ _ Hi Hxi)). exact N.
        * rewrite Hnew in Hxi. injection Hxi as <-. apply (Hf j x' Hj (Hx _ _ _ Hj Hxj)). symmetry. exact N.
      + intros j x Hj. apply Hap, (v_old _ Hv), Hj.
      + intros n' j Hj. rewrite lookup_insert_ne; [apply (v_reg _ Hv), Hj|]. intros <-. apply Hn. exists j. exact Hj.
      + apply (v_rest _ Hv).
    - intros u Hu. split; [|split]; cbn.
      + exists [(t, length (heap (iw w)))]. split; [reflexivity|]. constructor; [cbn; auto|constructor].
      + exact Hreg.
      + intros j x Hj. exists x. auto.
  Qed.

  Lemma exec_inv t i ds w : inv w -> In (t, i) (made w) ->
    inv (mkiw (set_mod i (to_lazy ds) (iw w)) (made w)) /\ forall u, u <> t -> grow u w (mkiw (set_mod i (to_lazy ds) (iw w)) (made w)).
  Proof.
    intros Hv Hin.
    assert (Hback : forall j x, alter (to_lazy ds) i (heap (iw w)) !! j = Some x -> exists x0, heap (iw w) !! j = Some x0 /\ m_name x = m_name x0).
    { intros j x Hj. destruct (decide (i = j)) as [->|Hne].
      - rewrite list_lookup_alter in Hj. destruct (heap (iw w) !! j) as [x0|]; [|discriminate]. injection Hj as <-. exists x0. auto.
      - rewrite list_lookup_alter_ne in Hj by exact Hne. eauto. }
    assert (Hforth : forall j x0, heap (iw w) !! j = Some x0 -> exists x, alter (to_lazy ds) i (heap (iw w)) !! j = Some x /\ m_name x = m_name x0 /\ (i <> j -> x = x0)).
    { intros j x0 Hj. destruct (decide (i = j)) as [->|Hne].
      - rewrite list_lookup_alter, Hj. exists (to_lazy ds x0). split; [reflexivity|]. split; [reflexivity|]. intros []. reflexivity.
      - rewrite list_lookup_alter_ne by exact Hne. eauto. }
    split.
    - split; cbn.
      + intros n j Hj. destruct (v_names _ Hv n j Hj) as (x & Hx & N). destruct (Hforth j x Hx) as (x' & Hx' & N' & _). exists x'. split; [exact Hx'|congruence].
      + rewrite alter_length. apply (v_len _ Hv).
      + apply (v_ids _ Hv).
      + intros u j Hu. destruct (v_made _ Hv _ _ Hu) as (x & Hx & Hr & Ha). destruct (Hforth j x Hx) as (x' & Hx' & N' & _). exists x'. rewrite N'. auto.
      + intros u i0 j x x' Hi Hj Hxi Hxj N. destruct (Hback _ _ Hxi) as (y & Hy & Ny). destruct (Hback _ _ Hxj) as (y' & Hy' & Ny').
        eapply (v_one _ Hv); eauto. congruence.
      + intros j x Hj. destruct (id_of w t i Hv Hin) as (p & _ & Ei). pose proof (lookup_lt_Some _ _ _ Hj) as Hlt.
        destruct (Hforth j x (v_old _ Hv _ _ Hj)) as (x' & Hx' & _ & O). rewrite <- (O ltac:(lia)). exact Hx'.
      + apply (v_reg _ Hv).
      + apply (v_rest _ Hv).
    - intros u Hu. split; [exists []; rewrite app_nil_r; auto|]. split; [auto|]. cbn. intros j x Hj.
      destruct (Hforth j x Hj) as (x' & Hx' & N & O). exists x'. split; [exact Hx'|]. split; [exact N|]. intros Hj'. apply O. intros <-.
      apply Hu. symmetry. eapply owner_unique; eauto.
  Qed.

  (** The result of a call. *)
  Definition done_ok (args : iargs) (r : outcome (res nat)) (w : iworld) : Prop :=
    exists x, r = Good x /\ match x with
    | Ok i => (exists m, heap (iw w) !! i = Some m /\ m_name m = full_name args) /\ registered (full_name args) (iw w)
    | Err _ => True
    end.
  Lemma done_rel t args r s s' : inv (dat s) -> rel t s s' -> done_ok args r (dat s) -> done_ok args r (dat s').
  Proof.
    intros Hv Hr (x & -> & Hx). exists x. split; [reflexivity|]. destruct x as [i|]; [|exact I]. destruct Hx as [(m & Hm & N) Hreg].
    destruct (Hr Hv) as [_ (_ & G & Hh)]. destruct (Hh i m Hm) as (m' & Hm' & N' & _). split; [exists m'; split; [exact Hm'|congruence]|auto].
  Qed.
  Definition post (t : nat) (args : iargs) (r : outcome (res nat)) (s : st iworld) : Prop :=
    inv (dat s) /\ complete t (dat s) /\ done_ok args r (dat s).
  Lemma post_err t args e s : inv (dat s) -> complete t (dat s) -> wp t (Ret (Err e)) (post t args) s.
  Proof.
    intros Hv Hc s1 H1. split; [apply (H1 Hv)|]. split; [eapply complete_rel; eauto|]. exists (Err e). auto.
  Qed.

  Lemma wp_placeholder t args req s : inv (dat s) -> complete t (dat s) -> free t (full_name args) (dat s) -> asks css t (full_name args) ->
    ~ registered (full_name args) w0 -> wp t (i_placeholder t (full_name args) req) (post t args) s.
  Proof.
    intros Hv Hc Hf Ha Hn. unfold i_placeholder. destruct req; [apply post_err; auto|].
    apply wp_look; [intros w; eexists; reflexivity|]. intros s1 x H1 Ex.
    assert (Hv1 := proj1 (H1 Hv)). assert (Hc1 := complete_rel _ _ _ Hv H1 Hc). assert (Hf1 := free_rel _ _ _ _ Hv H1 Hf).
    assert (G : wp t (i <- op (IRegister t (full_name args) (mkmod (full_name args) CPlaceholder ∅ [] false)) ;; Ret (Ok i)) (post t args) s1).
    { intros s2 H2. cbn -[register].
      assert (Hv2 := proj1 (H2 Hv1)). assert (Hc2 := complete_rel _ _ _ Hv1 H2 Hc1). assert (Hf2 := free_rel _ _ _ _ Hv1 H2 Hf1).
      destruct (register (full_name args) (mkmod (full_name args) CPlaceholder ∅ [] false) (iw (dat s2))) as [i w'] eqn:Er.
      destruct (register_inv t (mkmod (full_name args) CPlaceholder ∅ [] false) (dat s2) i w' Hv2 Hf2 Ha Hn Er) as [Hv3 G3].
      split; [intros u Hu _; split; [exact Hv3|apply G3, Hu]|].
      intros s4 H4. cbn [dat] in H4.
      assert (Hlen : length (heap (iw (dat s2))) = i) by (unfold register in Er; congruence).
      assert (Hnew : heap w' !! i = Some (mkmod (full_name args) CPlaceholder ∅ [] false)).
      { unfold register in Er. injection Er as <- <-. cbn. rewrite lookup_app_r, Nat.sub_diag by lia. reflexivity. }
      split; [apply (H4 Hv3)|]. split.
      - eapply (complete_rel t); [|exact H4|]; [exact Hv3|]. intros j m Hin Hm. cbn in Hin, Hm. apply in_app_or in Hin. destruct Hin as [Hin|[[= <-]|[]]].
        + destruct (v_made _ Hv2 _ _ Hin) as (m0 & H0 & _). assert (m = m0).
          { unfold register in Er. injection Er as _ <-. cbn in Hm. rewrite (lookup_app_l_Some _ _ _ _ H0) in Hm. congruence. }
          subst. apply (Hc2 j m0 Hin H0).
        + cbn in Hm. rewrite Hnew in Hm. injection Hm as <-. discriminate.
      - eapply (done_rel t); [|exact H4|]; [exact Hv3|]. exists (Ok i). split; [reflexivity|]. cbn. split; [eauto|].
        unfold register in Er. injection Er as _ <-. unfold registered. cbn. rewrite lookup_insert. eauto. }
    destruct x as [[| |]|]; [exact G|apply post_err; auto|apply post_err; auto|exact G].
  Qed.

  Lemma wp_create t args miss ds s : inv (dat s) -> complete t (dat s) -> free t (full_name args) (dat s) -> asks css t (full_name args) ->
    ~ registered (full_name args) w0 -> wp t (i_create E t args miss ds) (post t args) s.
  Proof.
    intros Hv Hc Hf Ha Hn. unfold i_create.
    assert (G : forall f s1, inv (dat s1) -> complete t (dat s1) -> free t (full_name args) (dat s1) -> wp t
      match f with
      | FindRaises e => Ret (Err e)
      | NotFound => i_placeholder t (full_name args) (i_required args)
      | Found l =>
        if miss then i_placeholder t (full_name args) (i_required args)
        else match l with
             | LdNone | LdBad => Ret (Err TypeErr)
             | LdGood =>
                 ds <- op (IFilter ds) ;;
                 i <- op (IRegister t (full_name args) (mkmod (full_name args) CModule ∅ [] true)) ;;
                 op (IExec i ds) ;;
                 Ret (Ok i)
             end
      end (post t args) s1).
    { intros f s1 Hv1 Hc1 Hf1. destruct f as [|l|e]; [apply wp_placeholder; auto| |apply post_err; auto].
      destruct miss; [apply wp_placeholder; auto|]. destruct l; [apply post_err; auto|apply post_err; auto|].
      apply wp_look; [intros w; eexists; reflexivity|]. intros s2 ds' H2 _.
      assert (Hv2 := proj1 (H2 Hv1)). assert (Hc2 := complete_rel _ _ _ Hv1 H2 Hc1). assert (Hf2 := free_rel _ _ _ _ Hv1 H2 Hf1).
      clear Hv1 Hc1 Hf1 H2 s1. intros s3 H3. cbn -[register].
      assert (Hv3 := proj1 (H3 Hv2)). assert (Hc3 := complete_rel _ _ _ Hv2 H3 Hc2). assert (Hf3 := free_rel _ _ _ _ Hv2 H3 Hf2).
      destruct (register (full_name args) (mkmod (full_name args) CModule ∅ [] true) (iw (dat s3))) as [i w'] eqn:Er.
      destruct (register_inv t (mkmod (full_name args) CModule ∅ [] true) (dat s3) i w' Hv3 Hf3 Ha Hn Er) as [Hv4 G4].
      split; [intros u Hu _; split; [exact Hv4|apply G4, Hu]|].
      intros s5 H5. cbn [dat] in H5.
      set (s4 := mkst (mkiw w' (made (dat s3) ++ [(t, i)])) (lks s3)) in *.
      assert (Hv5 := proj1 (H5 Hv4)). destruct (proj2 (H5 Hv4)) as ((l5 & El5 & Hl5) & Hr5 & Hh5).
      assert (Hin5 : In (t, i) (made (dat s5))) by (rewrite El5; cbn; apply in_or_app; left; apply in_or_app; right; left; reflexivity).
      assert (Hnew : heap w' !! i = Some (mkmod (full_name args) CModule ∅ [] true)).
      { unfold register in Er. injection Er as <- <-. cbn. rewrite lookup_app_r, Nat.sub_diag by lia. reflexivity. }
      assert (Hreg4 : registered (full_name args) w').
      { unfold register in Er. injection Er as _ <-. unfold registered. cbn. rewrite lookup_insert. eauto. }
      destruct (Hh5 i _ Hnew) as (m5 & Hm5 & N5 & _). cbn in N5.
      destruct (exec_inv t i ds' (dat s5) Hv5 Hin5) as [Hv6 G6].
      cbn. split; [intros u Hu _; split; [exact Hv6|apply G6, Hu]|].
      intros s7 H7. split; [apply (H7 Hv6)|].
      assert (Hh6 : alter (to_lazy ds') i (heap (iw (dat s5))) !! i = Some (to_lazy ds' m5)) by (rewrite list_lookup_alter, Hm5; reflexivity).
      split.
      - eapply (complete_rel t); [|exact H7|]; [exact Hv6|]. intros j m Hin Hm. cbn in Hin, Hm. destruct (decide (i = j)) as [<-|Hne].
        + rewrite Hh6 in Hm. injection Hm as <-. discriminate.
        + rewrite list_lookup_alter_ne in Hm by exact Hne. rewrite El5 in Hin. cbn in Hin. apply in_app_or in Hin. destruct Hin as [Hin|Hin].
          * apply in_app_or in Hin. destruct Hin as [Hin|[[= ->]|[]]]; [|contradiction].
            destruct (v_made _ Hv3 _ _ Hin) as (m0 & H0 & _).
            assert (Hw' : heap w' !! j = Some m0) by (unfold register in Er; injection Er as _ <-; cbn; apply lookup_app_l_Some, H0).
            destruct (Hh5 j m0 Hw') as (m' & Hm' & _ & O). assert (m = m') by congruence. subst. rewrite O; [apply (Hc3 j m0 Hin H0)|].
            cbn. apply in_or_app. left. exact Hin.
          * rewrite List.Forall_forall in Hl5. destruct (Hl5 _ Hin). reflexivity.
      - eapply (done_rel t); [|exact H7|]; [exact Hv6|]. exists (Ok i). split; [reflexivity|]. cbn. split.
        + exists (to_lazy ds' m5). split; [exact Hh6|exact N5].
        + apply (Hr5 _ Hreg4). }
    destruct (i_package args) as [[|]|].
    - apply (G (FindRaises ImportErr) s); auto.
    - apply wp_look; [intros w; eexists; reflexivity|]. intros s1 f H1 _. apply G; [apply (H1 Hv)|eapply complete_rel; eauto|eapply free_rel; eauto].
    - apply wp_look; [intros w; eexists; reflexivity|]. intros s1 f H1 _. apply G; [apply (H1 Hv)|eapply complete_rel; eauto|eapply free_rel; eauto].
  Qed.

  Definition keeps (t : nat) (n : string) (s : st iworld) : Prop := inv (dat s) /\ complete t (dat s) /\ free t n (dat s).
  Lemma keeps_rel t n s s' : rel t s s' -> keeps t n s -> keeps t n s'.
  Proof. intros H (Hv & Hc & Hf). split; [apply (H Hv)|]. split; [eapply complete_rel; eauto|eapply free_rel; eauto]. Qed.
  Lemma wp_missing t n deps : forall s, keeps t n s -> wp t (i_missing E deps) (fun r s' => (exists x, r = Good x) /\ keeps t n s') s.
  Proof.
    induction deps as [|d deps IH]; intros s Hs.
    - intros s1 H1. split; [eauto|eapply keeps_rel; eauto].
    - cbn [i_missing]. apply wp_look; [intros w; eexists; reflexivity|]. intros s1 f H1 _. pose proof (keeps_rel _ _ _ _ H1 Hs) as Hs1.
      destruct f as [|l|e]; [|apply IH, Hs1|]; intros s2 H2; (split; [eauto|eapply keeps_rel; eauto]).
  Qed.

  Lemma wp_import t args s : inv (dat s) -> complete t (dat s) -> asks css t (full_name args) -> wp t (i_import E t args) (post t args) s.
  Proof.
    intros Hv Hc Ha. unfold i_import. apply wp_look; [intros w; eexists; reflexivity|]. intros s1 x H1 Ex.
    assert (Hv1 := proj1 (H1 Hv)). assert (Hc1 := complete_rel _ _ _ Hv H1 Hc). cbn in Ex. injection Ex as Ex.
    assert (G : ~ registered (full_name args) (iw (dat s1)) -> wp t
      (r <- i_missing E (i_deps args) ;;
       match r with
       | Ok miss => g <- op (IGather (i_rel args) miss) ;; match g with Ok deps => i_create E t args miss deps | Err x => Ret (Err x) end
       | Err x => Ret (Err x)
       end) (post t args) s1).
    { intros Hn. apply wp_bind; [exact rel_refl|].
      assert (Hn0 : ~ registered (full_name args) w0) by (intros [j Hj]; apply Hn; exists j; apply (v_reg _ Hv1), Hj).
      eapply wp_mono; [|apply (wp_missing t (full_name args)); split; [exact Hv1|split; [exact Hc1|apply not_reg_free; auto]]].
      intros r s2 ((x2 & ->) & Hv2 & Hc2 & Hf2). cbn [follows]. destruct x2 as [miss|e]; [|apply post_err; auto].
      apply wp_look; [intros w; eexists; reflexivity|]. intros s3 g H3 _.
      destruct g as [deps|e]; [|apply post_err; [apply (H3 Hv2)|eapply complete_rel; eauto]].
      apply wp_create; [apply (H3 Hv2)|eapply complete_rel; eauto|eapply free_rel; eauto|exact Ha|exact Hn0]. }
    destruct x as [[|i|h]|]; [| | |].
    - apply G. intros [j Hj]. congruence.
    - intros s2 H2. split; [apply (H2 Hv1)|]. split; [eapply complete_rel; eauto|]. eapply (done_rel t); [exact Hv1|exact H2|].
      exists (Ok i). split; [reflexivity|]. split; [|exists i; auto]. destruct (v_names _ Hv1 _ i Ex) as (m & Hm & N). eauto.
    - apply G. intros [j Hj]. congruence.
    - apply G. intros [j Hj]. congruence.
  Qed.

  Definition told_all (t : nat) (rs : list (iargs * outcome (res nat))) (s : st iworld) : Prop :=
    inv (dat s) /\ complete t (dat s) /\ Forall (fun x => done_ok (fst x) (snd x) (dat s)) rs.
  Lemma wp_threads t cs s : css !! t = Some cs -> inv (dat s) -> complete t (dat s) ->
    wp t (thread (map (i_import E t) cs)) (fun r s' => exists rs, r = Good (map snd rs) /\ map fst rs = cs /\ told_all t rs s') s.
  Proof.
    intros Ht Hv Hc. unfold thread.
    assert (G : forall done todo s, cs = map fst done ++ todo -> told_all t done s ->
      wp t (thread_from (rev (map snd done)) (map (i_import E t) todo))
        (fun r s' => exists rs, r = Good (map snd rs) /\ map fst rs = cs /\ told_all t rs s') s).
    { clear s Hv Hc. intros done todo. revert done. induction todo as [|c todo IH]; intros done s Ec (Hv & Hc & Hd); cbn [map thread_from].
      - intros s1 H1. exists done. rewrite rev_involutive. rewrite app_nil_r in Ec. split; [reflexivity|]. split; [auto|].
        split; [apply (H1 Hv)|]. split; [eapply complete_rel; eauto|]. eapply List.Forall_impl; [|exact Hd]. intros x. apply (done_rel t); auto.
      - apply wp_bind; [exact rel_refl|]. apply wp_attempt.
        assert (Ha : asks css t (full_name c)).
        { exists cs, c. split; [exact Ht|]. split; [|reflexivity]. rewrite Ec. apply in_or_app. right. left. reflexivity. }
        (* the earlier results are kept *)
        assert (Hk : wp t (i_import E t c) (fun r s' => post t c r s' /\ Forall (fun x => done_ok (fst x) (snd x) (dat s')) done) s).
        { generalize (wp_import t c s Hv Hc Ha). revert Hv Hd. clear. intros Hv Hd H. revert s Hv Hd H.
          induction (i_import E t c) as [a|e|X cm k IHk h IHh]; intros s Hv Hd H; simpl in *.
          - intros s1 H1. split; [auto|]. eapply List.Forall_impl; [|exact Hd]. intros x. apply (done_rel t); auto.
          - intros s1 H1. split; [auto|]. eapply List.Forall_impl; [|exact Hd]. intros x. apply (done_rel t); auto.
          - intros s1 H1. specialize (H s1 H1).
            assert (Hd1 : Forall (fun x => done_ok (fst x) (snd x) (dat s1)) done).
            { eapply List.Forall_impl; [|exact Hd]. intros x. apply (done_rel t); auto. }
            destruct (exec t cm s1) as [[x|e|] s2]; [| |exact I]; (destruct H as [Hg Hw]; split; [exact Hg|]).
            + destruct (Hg (S t) ltac:(lia) (proj1 (H1 Hv))) as [Hv2 _]. apply IHk; [exact Hv2| |exact Hw].
              eapply List.Forall_impl; [|exact Hd1]. intros y Hy. eapply (done_rel (S t)); [exact (proj1 (H1 Hv))|apply Hg; lia|exact Hy].
            + destruct (Hg (S t) ltac:(lia) (proj1 (H1 Hv))) as [Hv2 _]. apply IHh; [exact Hv2| |exact Hw].
              eapply List.Forall_impl; [|exact Hd1]. intros y Hy. eapply (done_rel (S t)); [exact (proj1 (H1 Hv))|apply Hg; lia|exact Hy]. }
        eapply wp_mono; [|exact Hk]. intros r s1 ((Hv1 & Hc1 & Hr) & Hd1). cbn [follows].
        specialize (IH (done ++ [(c, r)]) s1). rewrite !map_app, rev_app_distr in IH. apply IH.
        + rewrite <- app_assoc. exact Ec.
        + split; [exact Hv1|]. split; [exact Hc1|]. apply List.Forall_app. split; [exact Hd1|]. constructor; [exact Hr|constructor]. }
    apply (G [] cs s eq_refl). split; [exact Hv|]. split; [exact Hc|constructor].
  Qed.

  Lemma inv_start : names_right w0 -> inv (mkiw w0 []).
  Proof. intros H. split; cbn; auto; try (intros; contradiction). Qed.

  Lemma main_sched sch ps s : names_right w0 -> sched_run sch (i_pool E css, i_start w0) = Some (ps, s) ->
    inv (dat s) /\ forall t p, ps !! t = Some p -> wp t p (fun r s' => exists cs rs, css !! t = Some cs /\ r = Good (map snd rs) /\ map fst rs = cs /\ told_all t rs s') s.
  Proof.
    intros Hn Hs. eapply (wp_sched rel rel_refl rel_trans _ (fun s => inv (dat s)) (fun u a b Hr Hv => proj1 (Hr Hv)) sch (i_pool E css) (i_start w0) ps s); [apply inv_start, Hn| |exact Hs].
    - intros t p Hp. unfold i_pool in Hp. rewrite list_lookup_imap in Hp. destruct (css !! t) as [cs|] eqn:Et; [|discriminate]. injection Hp as <-.
      eapply wp_mono; [|apply wp_threads; [exact Et|apply inv_start, Hn|intros i m []]]. intros r s' (rs & Er & Ec & Ht). exists cs, rs. auto.
  Qed.
End Main.

Lemma zip_lookup {X Y} (a : list X) (b : list Y) i x y : a !! i = Some x -> b !! i = Some y -> zip a b !! i = Some (x, y).
Proof. revert b i. induction a as [|a0 a IH]; intros [|b0 b] [|i] Ha Hb; simpl in *; try discriminate; [congruence|eauto]. Qed.

Theorem c104_objects : forall E css w sch ps s, names_right w -> sched_run sch (i_pool E css, i_start w) = Some (ps, s) ->
  let w' := iw (dat s) in
  runs w' = runs w /\ lattrs w' = lattrs w /\
  exists new owners, heap w' = heap w ++ new /\
    Forall2 (fun t m => asks css t (m_name m) /\ registered (m_name m) w') owners new /\
    List.NoDup (combine owners (map m_name new)).
Proof.
  intros E css w sch ps s Hn Hs. destruct (main_sched E css w sch ps s Hn Hs) as [Hv _]. cbv zeta.
  split; [apply (v_rest _ _ _ Hv)|]. split; [apply (v_rest _ _ _ Hv)|].
  set (new := drop (length (heap w)) (heap (iw (dat s)))).
  assert (Eh : heap (iw (dat s)) = heap w ++ new).
  { unfold new. apply list_eq. intros i. destruct (decide (i < length (heap w))) as [Hi|Hi].
    - rewrite lookup_app_l by exact Hi. destruct (lookup_lt_is_Some_2 _ _ Hi) as [m Hm]. rewrite Hm. apply (v_old _ _ _ Hv), Hm.
    - rewrite lookup_app_r by lia. rewrite lookup_drop. f_equal. lia. }
  exists new, (map fst (made (dat s))). split; [exact Eh|].
  assert (Hl : length new = length (made (dat s))) by (unfold new; rewrite drop_length, (v_len _ _ _ Hv); lia).
  assert (Hat : forall k t m, map fst (made (dat s)) !! k = Some t -> new !! k = Some m ->
    In (t, length (heap w) + k) (made (dat s)) /\ heap (iw (dat s)) !! (length (heap w) + k) = Some m).
  { intros k t m Ht Hm. split; [|unfold new in Hm; rewrite lookup_drop in Hm; exact Hm].
    rewrite list_lookup_fmap in Ht. destruct (made (dat s) !! k) as [[t' i]|] eqn:Ek; [|discriminate]. injection Ht as <-.
    assert (Ei : map snd (made (dat s)) !! k = Some i) by (rewrite list_lookup_fmap, Ek; reflexivity).
    rewrite (v_ids _ _ _ Hv) in Ei. apply lookup_seq in Ei. destruct Ei as [Ei _]. subst i. apply elem_of_list_In, elem_of_list_lookup. eauto. }
  split.
  - apply Forall2_same_length_lookup_2; [rewrite map_length; auto|]. intros k t m Ht Hm. destruct (Hat k t m Ht Hm) as [Hin Hh].
    destruct (v_made _ _ _ Hv _ _ Hin) as (m0 & H0 & Hr & Ha). rewrite H0 in Hh. injection Hh as ->. auto.
  - apply NoDup_ListNoDup, NoDup_alt. intros k j [t n] Hk Hj.
    assert (Hget : forall k, combine (map fst (made (dat s))) (map m_name new) !! k = Some (t, n) ->
      exists m, map fst (made (dat s)) !! k = Some t /\ new !! k = Some m /\ m_name m = n).
    { clear -Hl. intros k Hk. assert (Hlt := lookup_lt_Some _ _ _ Hk). rewrite combine_length, !map_length, Hl, Nat.min_id in Hlt.
      destruct (lookup_lt_is_Some_2 (made (dat s)) k Hlt) as [[t' i] Et]. destruct (lookup_lt_is_Some_2 new k ltac:(lia)) as [m Em].
      assert (E1 : map fst (made (dat s)) !! k = Some t') by (rewrite list_lookup_fmap, Et; reflexivity).
      assert (E2 : map m_name new !! k = Some (m_name m)) by (rewrite list_lookup_fmap, Em; reflexivity).
      pose proof (zip_lookup _ _ _ _ _ E1 E2) as Ez. change (zip (map fst (made (dat s))) (map m_name new)) with (combine (map fst (made (dat s))) (map m_name new)) in Ez.
      rewrite Hk in Ez. injection Ez as -> ->. eauto. }
    destruct (Hget k Hk) as (m & Ht & Hm & N). destruct (Hget j Hj) as (m' & Ht' & Hm' & N').
    destruct (Hat k t m Ht Hm) as [I1 H1]. destruct (Hat j t m' Ht' Hm') as [I2 H2].
    pose proof (v_one _ _ _ Hv _ _ _ _ _ I1 I2 H1 H2 ltac:(congruence)). lia.
Qed.

Theorem c104_registered : forall E css w sch ps s n i, names_right w -> sched_run sch (i_pool E css, i_start w) = Some (ps, s) ->
  mods w !! n = Some (EMod i) -> mods (iw (dat s)) !! n = Some (EMod i).
Proof. intros E css w sch ps s n i Hn Hs H. destruct (main_sched E css w sch ps s Hn Hs) as [Hv _]. apply (v_reg _ _ _ Hv), H. Qed.

Lemma pool_len E css w sch : forall ps s, sched_run sch (i_pool E css, i_start w) = Some (ps, s) -> length ps = length css.
Proof.
  assert (G : forall ps0 s0 ps s, sched_run sch (ps0, s0) = Some (ps, s) -> length ps = length (ps0 : list (prog icmd (list (outcome (res nat)))))).
  { induction sch as [|i sch IH]; intros ps0 s0 ps s H; simpl in H; [injection H as <- <-; reflexivity|].
    destruct (cstep i (ps0, s0)) as [[ps1 s1]|] eqn:Es; [|discriminate]. rewrite (IH _ _ _ _ H). unfold cstep in Es. simpl in Es.
    destruct (ps0 !! i); [|discriminate]. destruct (pstep i p s0) as [[p' s']|]; [|discriminate]. injection Es as <- _. apply insert_length. }
  intros ps s H. rewrite (G _ _ _ _ H). unfold i_pool. apply imap_length.
Qed.

Theorem c104_results : forall E css w sch ps s t k args r, names_right w -> sched_run sch (i_pool E css, i_start w) = Some (ps, s) ->
  called css ps t k args r ->
  exists x, r = Good x /\ forall i, x = Ok i ->
    (exists m, heap (iw (dat s)) !! i = Some m /\ m_name m = full_name args) /\ registered (full_name args) (iw (dat s)).
Proof.
  intros E css w sch ps s t k args r Hn Hs (cs & rs & Hc & Hp & Ha & Hr).
  destruct (main_sched E css w sch ps s Hn Hs) as [Hv Hw]. specialize (Hw t _ Hp s (rel_refl _ _ _ _)). simpl in Hw.
  destruct Hw as (cs' & rs' & Hc' & [= ->] & Hm & _ & _ & Hd). rewrite Hc in Hc'. injection Hc' as <-. subst cs.
  rewrite list_lookup_fmap in Ha. change (map snd rs') with (snd <$> rs') in Hr. rewrite list_lookup_fmap in Hr. destruct (rs' !! k) as [[a o]|] eqn:Ek; [|discriminate]. injection Ha as <-. injection Hr as <-.
  rewrite Forall_lookup in Hd. destruct (Hd _ _ Ek) as (x & Ex & Hx). cbn in Ex. subst o. exists x. split; [reflexivity|]. intros i ->. exact Hx.
Qed.

(** When all have ended, every new module is lazy or a placeholder. *)
Theorem c104_complete : forall E css w sch ps s i m, names_right w -> sched_run sch (i_pool E css, i_start w) = Some (ps, s) ->
  Forall (fun p => finished p = true) ps -> heap (iw (dat s)) !! i = Some m -> heap w !! i = None -> m_class m <> CModule.
Proof.
  intros E css w sch ps s i m Hn Hs Hf Hi Hw. destruct (main_sched E css w sch ps s Hn Hs) as [Hv Hp].
  apply lookup_ge_None in Hw. pose proof (lookup_lt_Some _ _ _ Hi) as Hlt. rewrite (v_len _ _ _ Hv) in Hlt.
  destruct (lookup_lt_is_Some_2 (made (dat s)) (i - length (heap w)) ltac:(lia)) as [[t j] Ek].
  assert (Ej : map snd (made (dat s)) !! (i - length (heap w)) = Some j) by (rewrite list_lookup_fmap, Ek; reflexivity).
  rewrite (v_ids _ _ _ Hv) in Ej. apply lookup_seq in Ej. destruct Ej as [-> _]. replace (length (heap w) + (i - length (heap w))) with i in Ek by lia.
  assert (Hin : In (t, i) (made (dat s))) by (apply elem_of_list_In, elem_of_list_lookup; eauto).
  destruct (v_made _ _ _ Hv _ _ Hin) as (_ & _ & _ & cs & args & Ht & _).
  assert (Hlt2 : t < length ps) by (rewrite (pool_len _ _ _ _ _ _ Hs); apply (lookup_lt_Some _ _ _ Ht)).
  destruct (lookup_lt_is_Some_2 _ _ Hlt2) as [p Ep]. rewrite Forall_lookup in Hf. specialize (Hf t p Ep). specialize (Hp t p Ep).
  destruct p as [rs|e|]; [| |discriminate]; specialize (Hp s (rel_refl _ _ _ _)); simpl in Hp; destruct Hp as (? & ? & _ & _ & _ & _ & Hc & _); exact (Hc i m Hin Hi).
Qed.

(** ** Calls for one name *)
Section Name.
  Variables (E : penv) (n : string) (cond : nat -> Prop).
  Definition rel2 (u : nat) (s s' : st iworld) : Prop := cond u -> mods (iw (dat s')) !! n = mods (iw (dat s)) !! n.
  Lemma rel2_refl u s : rel2 u s s.
  Proof. intros _. reflexivity. Qed.
  Lemma rel2_trans u s1 s2 s3 : rel2 u s1 s2 -> rel2 u s2 s3 -> rel2 u s1 s3.
  Proof. intros H1 H2 Hc. rewrite (H2 Hc). apply H1, Hc. Qed.
  Notation wp2 := (wp rel2).

  Definition leaves (X : Type) (c : icmd X) : Prop := forall w, mods (iw (snd (iexec c w))) !! n = mods (iw w) !! n.
  Notation calm := (okp leaves (fun X (c : icmd X) x => True) (fun _ => True)).
  Lemma calm_wp {A} t (p : prog icmd A) (v : option entry) : calm p -> forall s, (cond t -> mods (iw (dat s)) !! n = v) ->
    wp2 t p (fun _ s' => cond t -> mods (iw (dat s')) !! n = v) s.
  Proof.
    intros H. induction H as [a _|e|l m k h _ IHk _ IHh|l k h _ IHk _ IHh|X c k h Hc _ IHk _ IHh]; intros s Hs.
    - intros s1 H1 Ht. rewrite (H1 Ht). auto.
    - intros s1 H1 Ht. rewrite (H1 Ht). auto.
    - intros s1 H1. assert (Hs1 : cond t -> mods (iw (dat s1)) !! n = v) by (intros Ht; rewrite (H1 Ht); auto). simpl.
      destruct (lock_acq _ _ _ _ _) as [[[]|e|] k']; [| |exact I]; (split; [intros u _ _; reflexivity|]); [apply IHk|apply IHh]; exact Hs1.
    - intros s1 H1. assert (Hs1 : cond t -> mods (iw (dat s1)) !! n = v) by (intros Ht; rewrite (H1 Ht); auto). simpl.
      destruct (lock_rel _ _ _) as [[[]|e|] k']; [| |exact I]; (split; [intros u _ _; reflexivity|]); [apply IHk|apply IHh]; exact Hs1.
    - intros s1 H1. assert (Hs1 : cond t -> mods (iw (dat s1)) !! n = v) by (intros Ht; rewrite (H1 Ht); auto). simpl.
      specialize (Hc (dat s1)). destruct (iexec c (dat s1)) as [[x|e|] d'] eqn:Ec; cbn in Hc; [| |exact I];
        (split; [intros u _ _; exact Hc|]); [apply IHk|apply IHh]; solve [exact I|intros Ht; cbn; rewrite Hc; auto].
  Qed.
  Lemma calm_op {X} (c : icmd X) : leaves X c -> calm (op c).
  Proof. intros H. eapply ok_more; [apply ok_cmd, H|auto]. Qed.
  Lemma calm_bind {X B} (c : icmd X) (f : X -> prog icmd B) : leaves X c -> (forall x, calm (f x)) -> calm (bind (op c) f).
  Proof. intros H Hf. eapply ok_bind; [apply calm_op, H|auto]. Qed.
  Lemma calm_missing deps : calm (i_missing E deps).
  Proof.
    induction deps as [|d deps IH]; cbn [i_missing]; [constructor; exact I|]. apply calm_bind; [intros w; reflexivity|].
    intros [|l|e]; [constructor; exact I|exact IH|constructor; exact I].
  Qed.
  Lemma register_leaves t n' m : n' <> n -> leaves nat (IRegister t n' m).
  Proof. intros Hn w. cbn. apply lookup_insert_ne, Hn. Qed.
  Lemma calm_import t args : full_name args <> n -> calm (i_import E t args).
  Proof.
    intros Hn. unfold i_import. apply calm_bind; [intros w; reflexivity|]. intros x.
    assert (P : calm (i_placeholder t (full_name args) (i_required args))).
    { unfold i_placeholder. destruct (i_required args); [constructor; exact I|]. apply calm_bind; [intros w; reflexivity|].
      intros [[| |]|]; try solve [constructor; exact I]; (apply calm_bind; [apply register_leaves, Hn|intros i; constructor; exact I]). }
    assert (G : calm (r <- i_missing E (i_deps args) ;;
       match r with
       | Ok miss => g <- op (IGather (i_rel args) miss) ;; match g with Ok deps => i_create E t args miss deps | Err x => Ret (Err x) end
       | Err x => Ret (Err x)
       end)).
    { eapply ok_bind; [apply calm_missing|]. intros [miss|e] _; [|constructor; exact I]. apply calm_bind; [intros w; reflexivity|].
      intros [ds|e]; [|constructor; exact I]. unfold i_create.
      eapply (ok_bind _ _ (fun _ => True)); [destruct (i_package args) as [[|]|]; [constructor; exact I| |]; apply calm_op; intros w; reflexivity|].
      intros [|l|e] _; [exact P| |constructor; exact I]. destruct miss; [exact P|]. destruct l; [constructor; exact I|constructor; exact I|].
      apply calm_bind; [intros w; reflexivity|]. intros ds'. apply calm_bind; [apply register_leaves, Hn|]. intros i.
      apply calm_bind; [intros w; reflexivity|]. intros _. constructor. exact I. }
    destruct x as [[|i|h]|]; [exact G|constructor; exact I|exact G|exact G].
  Qed.

  (** The only thread that asks for the name. *)
  Definition is_result (r : outcome (res nat)) (s : st iworld) : Prop :=
    forall i, r = Good (Ok i) -> mods (iw (dat s)) !! n = Some (EMod i).
  Lemma ret_err t e s : wp2 t (Ret (Err e)) is_result s.
  Proof. intros s1 H1 i. discriminate. Qed.
  (** What is registered does not matter here, only the state at the end. *)
  Lemma look2 {X B} t (c : icmd X) (k : X -> prog icmd B) Q s : (forall w, exists x, iexec c w = (Good x, w)) ->
    (forall s1 x, rel2 t s s1 -> iexec c (dat s1) = (Good x, dat s1) -> wp2 t (k x) Q s1) -> wp2 t (bind (op c) k) Q s.
  Proof.
    intros Hc Hk s1 H1. cbn. destruct (Hc (dat s1)) as [x Ex]. rewrite Ex. destruct s1 as [w kk]. cbn in *.
    split; [intros u _; apply rel2_refl|]. apply (Hk (mkst w kk) x H1 Ex).
  Qed.
  Hypothesis others : forall u, cond u -> forall v, cond v -> u = v.
  Lemma wp2_placeholder t args req s : cond t -> full_name args = n -> wp2 t (i_placeholder t (full_name args) req) is_result s.
  Proof using others.
    intros Ht Hn. rewrite Hn. unfold i_placeholder. destruct req; [apply ret_err|]. apply look2; [intros w; eexists; reflexivity|]. intros s1 x H1 _.
    destruct x as [[| |]|]; try apply ret_err.
    all: intros s2 H2; cbn; split; [intros u Hu Hc; destruct Hu; apply others; auto|];
      intros s3 H3 i [= <-]; rewrite (H3 Ht); cbn; apply lookup_insert.
  Qed.
  Lemma wp2_missing t deps s : cond t -> wp2 t (i_missing E deps) (fun r _ => exists x, r = Good x) s.
  Proof.
    intros Ht. revert s. induction deps as [|d deps IH]; intros s; [intros s1 H1; eauto|]. cbn [i_missing].
    apply look2; [intros w; eexists; reflexivity|]. intros s1 [|l|e] H1 _; [|apply IH|]; intros s2 H2; eauto.
  Qed.
  Lemma wp2_import t args s : cond t -> full_name args = n ->
    wp2 t (i_import E t args) (fun r s' => is_result r s' /\ forall i, mods (iw (dat s)) !! n = Some (EMod i) -> r = Good (Ok i) /\ mods (iw (dat s')) !! n = Some (EMod i)) s.
  Proof using others.
    intros Ht Hn. unfold i_import. apply look2; [intros w; eexists; reflexivity|]. intros s1 x H1 Ex. cbn in Ex. injection Ex as Ex.
    rewrite Hn in Ex. pose proof (H1 Ht) as E1.
    assert (G : (forall i, mods (iw (dat s)) !! n <> Some (EMod i)) -> wp2 t
      (r <- i_missing E (i_deps args) ;;
       match r with
       | Ok miss => g <- op (IGather (i_rel args) miss) ;; match g with Ok deps => i_create E t args miss deps | Err x => Ret (Err x) end
       | Err x => Ret (Err x)
       end) (fun r s' => is_result r s' /\ forall i, mods (iw (dat s)) !! n = Some (EMod i) -> r = Good (Ok i) /\ mods (iw (dat s')) !! n = Some (EMod i)) s1).
    { intros Hno. eapply wp_mono; [intros r s2 H2; split; [exact H2|intros i Hi; destruct (Hno i Hi)]|].
      apply wp_bind; [exact rel2_refl|]. eapply wp_mono; [|apply wp2_missing, Ht]. intros r s2 (x2 & ->). cbn [follows].
      destruct x2 as [miss|e]; [|apply ret_err]. apply look2; [intros w; eexists; reflexivity|]. intros s3 g _ _.
      destruct g as [ds|e]; [|apply ret_err]. unfold i_create.
      assert (F : forall f s4, wp2 t
        match f with
        | FindRaises e => Ret (Err e)
        | NotFound => i_placeholder t (full_name args) (i_required args)
        | Found l =>
          if miss then i_placeholder t (full_name args) (i_required args)
          else match l with
               | LdNone | LdBad => Ret (Err TypeErr)
               | LdGood =>
                   ds <- op (IFilter ds) ;;
                   i <- op (IRegister t (full_name args) (mkmod (full_name args) CModule ∅ [] true)) ;;
                   op (IExec i ds) ;;
                   Ret (Ok i)
               end
        end is_result s4).
      { intros f s4. destruct f as [|l|e]; [apply wp2_placeholder; auto| |apply ret_err]. destruct miss; [apply wp2_placeholder; auto|].
        destruct l; [apply ret_err|apply ret_err|]. apply look2; [intros w; eexists; reflexivity|]. intros s5 ds' _ _ s6 _. cbn. rewrite Hn.
        split; [intros u Hu Hc; destruct Hu; apply others; auto|]. intros s7 H7. split; [intros u Hu Hc; destruct Hu; apply others; auto|].
        intros s8 H8 i [= <-]. rewrite (H8 Ht). cbn. rewrite (H7 Ht). cbn. apply lookup_insert. }
      destruct (i_package args) as [[|]|]; [apply (F (FindRaises ImportErr) s3)| |];
        (apply look2; [intros w; eexists; reflexivity|]; intros s4 f _ _; apply F). }
    destruct x as [[|i|h]|].
    - apply G. intros j. rewrite <- E1, Ex. discriminate.
    - intros s2 H2. assert (E2 : mods (iw (dat s2)) !! n = Some (EMod i)) by (rewrite (H2 Ht); exact Ex). split.
      + intros j [= <-]. exact E2.
      + intros j Hj. rewrite <- E1, Ex in Hj. injection Hj as <-. auto.
    - apply G. intros j. rewrite <- E1, Ex. discriminate.
    - apply G. intros j. rewrite <- E1, Ex. discriminate.
  Qed.
End Name.

(** If one thread only asks for a name, all its calls that succeed give the same module. *)
Theorem c104_alone : forall E css w sch ps s t n, (forall u, asks css u n -> u = t) -> sched_run sch (i_pool E css, i_start w) = Some (ps, s) ->
  forall k args i, called css ps t k args (Good (Ok i)) -> full_name args = n -> mods (iw (dat s)) !! n = Some (EMod i).
Proof.
  intros E css w sch ps s t n Honly Hs. set (cond := fun u => u = t).
  set (K := fun (rs : list (iargs * outcome (res nat))) (s : st iworld) =>
    forall a i, In (a, Good (Ok i)) rs -> full_name a = n -> mods (iw (dat s)) !! n = Some (EMod i)).
  assert (Hw : forall u p, i_pool E css !! u = Some p -> wp (rel2 n cond) u p
    (fun r s' => u = t -> exists cs rs, css !! t = Some cs /\ r = Good (map snd rs) /\ map fst rs = cs /\ K rs s') (i_start w)).
  { intros u p Hp. unfold i_pool in Hp. rewrite list_lookup_imap in Hp. destruct (css !! u) as [cs|] eqn:Eu; [|discriminate]. injection Hp as <-.
    destruct (decide (u = t)) as [->|Hne].
    - assert (Hall : forall a, In a cs -> True) by auto.
      eapply wp_mono; [|apply (wp_thread (rel2 n cond) (rel2_refl n cond) (rel2_trans n cond) t (i_import E t) K) with (cs := cs) (rs := [])].
      + intros r s' (rs & -> & Em & HK) _. exists cs, rs. auto.
      + intros rs a b Hr HK x i Hin Hx. rewrite (Hr eq_refl). eauto.
      + intros rs c a HK. destruct (decide (full_name c = n)) as [Hc|Hc].
        * eapply wp_mono; [|apply (wp2_import E n cond); [intros x Hx y Hy; unfold cond in *; congruence|reflexivity|exact Hc]].
          intros r s' [Hr Hold] x i Hin Hx. apply in_app_or in Hin. destruct Hin as [Hin|[[= <- Er]|[]]].
          -- apply (Hold i (HK x i Hin Hx)).
          -- apply Hr, Er.
        * eapply wp_mono; [|apply (calm_wp n cond t (i_import E t c) (mods (iw (dat a)) !! n)); [apply calm_import, Hc|reflexivity]].
          intros r s' Hr x i Hin Hx. apply in_app_or in Hin. destruct Hin as [Hin|[[= <- _]|[]]]; [|contradiction].
          rewrite (Hr eq_refl). eauto.
      + intros x i [].
    - eapply wp_mono; [|apply (calm_wp n cond u _ None)].
      + intros r s' _ Hu. contradiction.
      + assert (Hcs : forall c, In c cs -> full_name c <> n) by (intros c Hc Hn; apply Hne, Honly; exists cs, c; auto).
        unfold thread. revert Hcs. clear. generalize (@nil (outcome (res nat))). induction cs as [|c cs IH]; intros rs Hcs; cbn [map thread_from].
        * constructor. exact I.
        * eapply ok_bind; [eapply ok_more; [apply ok_attempt, calm_import, Hcs; left; reflexivity|intros; exact I]|].
          intros r _. apply IH. intros c' Hc'. apply Hcs. right. exact Hc'.
      + intros Hu. contradiction. }
  destruct (wp_sched (rel2 n cond) (rel2_refl n cond) (rel2_trans n cond) _ (fun _ => True) (fun _ _ _ _ _ => I) sch _ _ _ _ I Hw Hs) as [_ Hw'].
  intros k args i (cs & rs & Hc & Hp & Ha & Hr) Hn. specialize (Hw' t _ Hp s (rel2_refl n cond t s) eq_refl).
  destruct Hw' as (cs' & rs' & Hc' & [= ->] & Em & HK). rewrite Hc in Hc'. injection Hc' as <-. subst cs.
  rewrite list_lookup_fmap in Ha. change (map snd rs') with (snd <$> rs') in Hr. rewrite list_lookup_fmap in Hr.
  destruct (rs' !! k) as [[a o]|] eqn:Ek; [|discriminate]. injection Ha as <-. injection Hr as Hr. cbn in Hr. subst o.
  apply (HK a i); [|exact Hn]. apply elem_of_list_In, elem_of_list_lookup. eauto.
Qed.

(** What is registered when the threads start stays so, and every call gives it. *)
Theorem c104_known : forall E css w sch ps s n i, mods w !! n = Some (EMod i) -> sched_run sch (i_pool E css, i_start w) = Some (ps, s) ->
  mods (iw (dat s)) !! n = Some (EMod i) /\
  forall t k args r, called css ps t k args r -> full_name args = n -> r = Good (Ok i).
Proof.
  intros E css w sch ps s n i Hi Hs. set (cond := fun u : nat => True).
  set (K := fun (rs : list (iargs * outcome (res nat))) (s : st iworld) =>
    mods (iw (dat s)) !! n = Some (EMod i) /\ forall a r, In (a, r) rs -> full_name a = n -> r = Good (Ok i)).
  assert (Hw : forall u p, i_pool E css !! u = Some p -> wp (rel2 n cond) u p
    (fun r s' => exists cs rs, css !! u = Some cs /\ r = Good (map snd rs) /\ map fst rs = cs /\ K rs s') (i_start w)).
  { intros u p Hp. unfold i_pool in Hp. rewrite list_lookup_imap in Hp. destruct (css !! u) as [cs|] eqn:Eu; [|discriminate]. injection Hp as <-.
    eapply wp_mono; [|apply (wp_thread (rel2 n cond) (rel2_refl n cond) (rel2_trans n cond) u (i_import E u) K) with (cs := cs) (rs := [])].
    - intros r s' (rs & -> & Em & HK). exists cs, rs. auto.
    - intros rs a b Hr [HK1 HK2]. split; [rewrite (Hr I); exact HK1|exact HK2].
    - intros rs c a [HK1 HK2]. destruct (decide (full_name c = n)) as [Hc|Hc].
      + unfold i_import. apply look2; [intros x; eexists; reflexivity|]. intros s1 x H1 Ex. cbn in Ex. injection Ex as Ex.
        rewrite Hc, (H1 I), HK1 in Ex. subst x. intros s2 H2. split; [rewrite (H2 I), (H1 I); exact HK1|].
        intros b r Hin Hb. apply in_app_or in Hin. destruct Hin as [Hin|[[= _ <-]|[]]]; [eauto|reflexivity].
      + eapply wp_mono; [|apply (calm_wp n cond u (i_import E u c) (Some (EMod i))); [apply calm_import, Hc|intros _; exact HK1]].
        intros r s' Hr. split; [apply Hr, I|]. intros b r' Hin Hb. apply in_app_or in Hin. destruct Hin as [Hin|[[= -> _]|[]]]; [eauto|contradiction].
    - split; [exact Hi|intros a r []]. }
  destruct (wp_sched (rel2 n cond) (rel2_refl n cond) (rel2_trans n cond) _ (fun s => mods (iw (dat s)) !! n = Some (EMod i))
    (fun u a b Hr Ha => eq_trans (Hr I) Ha) sch (i_pool E css) (i_start w) ps s Hi Hw Hs) as [He Hw'].
  split; [exact He|]. intros t k args r (cs & rs & Hc & Hp & Ha & Hr) Hn. specialize (Hw' t _ Hp s (rel2_refl n cond t s)).
  destruct Hw' as (cs' & rs' & Hc' & [= ->] & Em & _ & HK). rewrite Hc in Hc'. injection Hc' as <-. subst cs.
  rewrite list_lookup_fmap in Ha. change (map snd rs') with (snd <$> rs') in Hr. rewrite list_lookup_fmap in Hr.
  destruct (rs' !! k) as [[a o]|] eqn:Ek; [|discriminate]. injection Ha as <-. injection Hr as <-.
  apply (HK a o); [|exact Hn]. apply elem_of_list_In, elem_of_list_lookup. eauto.
Qed.

(** ** Modules that can be found *)
Section Found.
  Variables (E : penv) (w0 : world).
  Definition good3 (w : iworld) : Prop :=
    (forall n, findable E w0 n -> findable E (iw w) n) /\ (forall n, registered n w0 -> registered n (iw w)).
  Definition arg3 (X : Type) (c : icmd X) : Prop :=
    match c with IRegister t n m => m_spec m = true | _ => True end.
  Definition res3 (X : Type) (c : icmd X) : X -> Prop :=
    match c in icmd X return X -> Prop with
    | IFind E' n => fun f => E' = E -> findable E w0 n -> f = Found LdGood
    | IGather rel miss => fun g => match rel with
        | RelNone => True
        | RelStr => False
        | RelMods l => Forall (fun x => exists n, x = Some n /\ registered n w0) l
        end -> exists ds, g = Ok ds
    | _ => fun _ => True
    end.
  Lemma cmd3 X (c : icmd X) d r d' : arg3 X c -> good3 d -> cexec c d = (r, d') -> good3 d' /\ forall x, r = Good x -> res3 X c x.
  Proof.
    intros Ha [H1 H2] Ec. destruct c as [n|E' n|rel miss|ds|t n m|i ds]; cbn in Ec; injection Ec as <- <-.
    - split; [split; auto|]. intros x _. exact I.
    - split; [split; auto|]. intros x [= <-] -> Hf. destruct (H1 n Hf) as [Hg He]. unfold find_spec.
      destruct (mods (iw d) !! n) as [[|i|h]|]; [contradiction| |contradiction|exact Hg]. destruct He as (m & -> & ->). reflexivity.
    - split; [split; auto|]. intros x [= <-] Hr. unfold gather. destruct miss; [eauto|]. destruct rel as [| |l]; [eauto|contradiction|].
      assert (G : exists r, rel_mods l (iw d) = Some r).
      { clear Ha. induction Hr as [|x l (n & -> & Hn) Hl IH]; [exists []; reflexivity|]. cbn. destruct IH as [r ->]. destruct (H2 n Hn) as [i ->]. eauto. }
      destruct G as [r ->]. eauto.
    - split; [split; auto|]. intros x _. exact I.
    - split; [|intros x _; exact I]. cbn in Ha. split; cbn.
      + intros n' Hf. destruct (H1 n' Hf) as [Hg He]. split; [exact Hg|]. cbn. destruct (decide (n = n')) as [<-|Hne].
        * rewrite lookup_insert. exists m. split; [rewrite lookup_app_r, Nat.sub_diag by lia; reflexivity|exact Ha].
        * rewrite lookup_insert_ne by exact Hne. destruct (mods (iw d) !! n') as [[|i|h]|]; auto. destruct He as (m' & Hm & Hs).
          exists m'. split; [apply lookup_app_l_Some, Hm|exact Hs].
      + intros n' Hr. destruct (H2 n' Hr) as [i Hi]. unfold registered. cbn. destruct (decide (n = n')) as [<-|Hne];
          [rewrite lookup_insert; eauto|rewrite lookup_insert_ne by exact Hne; eauto].
    - split; [|intros x _; exact I]. split; cbn; [|exact H2]. intros n Hf. destruct (H1 n Hf) as [Hg He]. split; [exact Hg|]. cbn.
      destruct (mods (iw d) !! n) as [[|j|h]|]; auto. destruct He as (m & Hm & Hs). destruct (decide (i = j)) as [->|Hne].
      + rewrite list_lookup_alter, Hm. exists (to_lazy ds m). auto.
      + rewrite list_lookup_alter_ne by exact Hne. eauto.
  Qed.
  Notation ok3 := (okp arg3 res3).
  Lemma ok3_bind {X B} (R : B -> Prop) (c : icmd X) (f : X -> prog icmd B) : arg3 X c -> (forall x, res3 X c x -> ok3 R (f x)) -> ok3 R (bind (op c) f).
  Proof. intros H Hf. eapply ok_bind; [apply ok_cmd, H|auto]. Qed.
  Lemma ok3_import t args : plain_args E w0 args -> ok3 (fun x => exists i, x = Ok i) (i_import E t args).
  Proof.
    intros (Hp & Hf & Hd & Hr). unfold i_import. apply ok3_bind; [exact I|]. intros x _.
    assert (M : ok3 (fun r => r = Ok false) (i_missing E (i_deps args))).
    { induction Hd as [|d deps H _ IH]; cbn [i_missing]; [constructor; reflexivity|]. apply ok3_bind; [exact I|].
      intros f Hres. rewrite (Hres eq_refl H). exact IH. }
    assert (G : ok3 (fun x => exists i, x = Ok i) (r <- i_missing E (i_deps args) ;;
       match r with
       | Ok miss => g <- op (IGather (i_rel args) miss) ;; match g with Ok deps => i_create E t args miss deps | Err x => Ret (Err x) end
       | Err x => Ret (Err x)
       end)).
    { eapply ok_bind; [exact M|]. intros r ->. apply ok3_bind; [exact I|]. intros g Hg. destruct (Hg Hr) as [ds ->]. unfold i_create.
      eapply (ok_bind _ _ (fun f => f = Found LdGood)).
      - destruct (i_package args) as [[|]|]; [destruct Hp; reflexivity| |];
          (eapply ok_more; [apply ok_cmd; exact I|]; intros f Hres; apply Hres; auto).
      - intros f ->. apply ok3_bind; [exact I|]. intros ds' _. apply ok3_bind; [reflexivity|]. intros i _.
        apply ok3_bind; [exact I|]. intros u _. constructor. eauto. }
    destruct x as [[|i|h]|]; [exact G|constructor; eauto|exact G|exact G].
  Qed.
End Found.

Theorem c104_found : forall E css w sch ps s t k args r, names_right w -> (forall cs a, In cs css -> In a cs -> plain_args E w a) ->
  sched_run sch (i_pool E css, i_start w) = Some (ps, s) -> called css ps t k args r -> exists i, r = Good (Ok i).
Proof.
  intros E css w sch ps s t k args r Hn Hall Hs Hcall. destruct (c104_results E css w sch ps s t k args r Hn Hs Hcall) as (x & -> & _).
  destruct Hcall as (cs & rs & Hc & Hp & Ha & Hr).
  assert (Hpool : Forall (okp arg3 (res3 E w) (all_ok (fun x => exists i, x = Ok i))) (i_pool E css)).
  { unfold i_pool. rewrite Forall_lookup. intros u p Hu. rewrite list_lookup_imap in Hu. destruct (css !! u) as [cs'|] eqn:Eu; [|discriminate].
    injection Hu as <-. apply ok_thread. rewrite List.Forall_forall. intros q Hq. apply in_map_iff in Hq. destruct Hq as (a & <- & Hq).
    apply ok3_import, (Hall cs'); [|exact Hq]. apply elem_of_list_In, elem_of_list_lookup. eauto. }
  destruct (ok_sched arg3 (res3 E w) (good3 E w) (cmd3 E w) _ sch (i_pool E css) (i_start w) ps s Hpool (conj (fun n H => H) (fun n H => H)) Hs) as [Hok _].
  rewrite Forall_lookup in Hok. specialize (Hok t _ Hp). apply ok_shape in Hok. cbn in Hok. unfold all_ok in Hok. rewrite Forall_lookup in Hok.
  destruct (Hok k _ Hr x eq_refl) as [i ->]. eauto.
Qed.
