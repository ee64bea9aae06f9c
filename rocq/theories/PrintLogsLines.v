(** * PrintLogsLines: the lines of processes that print into LineFileBuffers with different identifiers *)
From stdpp Require Import gmap.
From Coq Require Import List NArith ZArith Bool Arith Lia.
From Verif Require Import PyStr Prog ProgFacts PyIO Base Spec SpecFacts LineBuf LineBufSpec LineBufFacts LineBufProofs Conc Locks Atomic Serial Blocks
  FileBuf FileFacts FileSpec FileMore FileStmt FileProofs FileConcSpec FileConc FileTmpSpec FileTmp Ctx Print PrintSpec PrintPool PrintLogs PrintLogsProofs.
Import ListNotations.
Local Open Scope prog_scope.
Local Open Scope nat_scope.

(** ** The steps of one process *)
Definition mt1 (v : text) (s : fstep) : text := match s with SEmpty => [] | SApp r => v ++ r | _ => v end.
Definition mtmp (es : list fstep) (v : text) : text := fold_left mt1 es v.
Fixpoint mine (es : list fstep) (v : text) : Prop :=
  match es with [] => True | s :: es' => match s with SGet x => x = v | _ => True end /\ mine es' (mt1 v s) end.
Lemma mtmp_app a b v : mtmp (a ++ b) v = mtmp b (mtmp a v).
Proof. apply fold_left_app. Qed.
Lemma mine_app a b : forall v, mine (a ++ b) v <-> mine a v /\ mine b (mtmp a v).
Proof. induction a as [|s a IH]; intros v; cbn [app mine]; [cbn; tauto|]. rewrite IH. cbn [mtmp fold_left]. tauto. Qed.
Definition rec1 (s : fstep) : list text := match s with SLog (Adds b) => b | _ => [] end.
Definition recs (es : list fstep) : list text := flat_map rec1 es.
Lemma recs_app a b : recs (a ++ b) = recs a ++ recs b.
Proof. apply flat_map_app. Qed.
Definition mix (g : list (nat * fstep)) : list (nat * text) := flat_map (fun e => map (pair (fst e)) (rec1 (snd e))) g.
Lemma mix_app a b : mix (a ++ b) = mix a ++ mix b.
Proof. apply flat_map_app. Qed.

Lemma own_cons {A} i (e : nat * A) g : events_of i (e :: g) = (if fst e =? i then [snd e] else []) ++ events_of i g.
Proof. unfold events_of. cbn [filter]. destruct (fst e =? i); reflexivity. Qed.
Lemma own_app {A} i (g g' : list (nat * A)) : events_of i (g ++ g') = events_of i g ++ events_of i g'.
Proof. unfold events_of. rewrite filter_app, map_app. reflexivity. Qed.
Lemma own_tagged {A} i k (es : list A) : events_of i (map (pair k) es) = if k =? i then es else [].
Proof.
  induction es as [|x es IH]; [destruct (k =? i); reflexivity|]. cbn [map]. rewrite own_cons, IH. cbn [fst snd]. destruct (k =? i); reflexivity.
Qed.
Lemma own_mix i g : events_of i (mix g) = recs (events_of i g).
Proof.
  induction g as [|e g IH]; [reflexivity|]. unfold mix in *. cbn [flat_map]. rewrite own_app, own_tagged, IH, own_cons, recs_app.
  destruct (fst e =? i); [|reflexivity]. unfold recs at 2. cbn [flat_map]. rewrite app_nil_r. reflexivity.
Qed.
Lemma own_split {A} i (g : list (nat * A)) : forall a b, events_of i g = a ++ b ->
  exists g1 g2, g = g1 ++ g2 /\ events_of i g1 = a /\ events_of i g2 = b.
Proof.
  induction g as [|e g IH]; intros a b E.
  - destruct a; [|discriminate]. exists [], []. auto.
  - rewrite own_cons in E. destruct (fst e =? i) eqn:Ei; cbn [app] in E.
    + destruct a as [|x a].
      * exists [], (e :: g). split; [reflexivity|]. split; [reflexivity|]. rewrite own_cons, Ei. exact E.
      * injection E as <- E. destruct (IH a b E) as (g1 & g2 & -> & <- & <-). exists (e :: g1), g2. rewrite own_cons, Ei. auto.
    + destruct (IH a b E) as (g1 & g2 & -> & <- & <-). exists (e :: g1), g2. rewrite own_cons, Ei. auto.
Qed.
Lemma own_in {A} i (s : A) g : In s (events_of i g) <-> In (i, s) g.
Proof.
  unfold events_of. rewrite in_map_iff. split.
  - intros ([k x] & <- & H). apply filter_In in H. destruct H as [H E]. apply Nat.eqb_eq in E. cbn in E. subst. exact H.
  - intros H. exists (i, s). split; [reflexivity|]. apply filter_In. split; [exact H|apply Nat.eqb_refl].
Qed.

Section Own.
  Variables (n : nat) (tmp : nat -> text).
  Hypothesis Hinj : forall i j, i < n -> j < n -> tmp i = tmp j -> i = j.
  Lemma own_tmp i g : i < n -> Forall (fun e => fst e < n) g -> forall v,
    tmpf tmp (tmp i) g v = mtmp (events_of i g) v /\ (gott tmp (tmp i) g v <-> mine (events_of i g) v).
  Proof using Hinj.
    intros Hi. induction 1 as [|[k s] g Hk _ IH]; intros v; [cbn; tauto|]. rewrite own_cons. cbn [tmpf fold_left gott fst snd] in *.
    change (fold_left (tmpf1 tmp (tmp i)) g) with (tmpf tmp (tmp i) g). unfold tmpf1. cbn [fst snd].
    destruct (k =? i) eqn:E.
    - apply Nat.eqb_eq in E. subst k. rewrite text_eqb_refl. cbn [app mtmp fold_left mine]. destruct (IH (mt1 v s)) as [I1 I2].
      split; [exact I1|]. rewrite <- I2. reflexivity.
    - assert (Ht : text_eqb (tmp i) (tmp k) = false).
      { apply text_eqb_neq. intros Et. apply Nat.eqb_neq in E. apply E. symmetry. apply Hinj; auto. }
      rewrite Ht. cbn [app]. destruct (IH v) as [I1 I2]. split; [exact I1|]. rewrite <- I2. tauto.
  Qed.
End Own.

(** ** Records without a clear() *)
Definition no_wipe (g : list (nat * fstep)) : Prop := Forall (fun e => snd e <> SLog Wipes) g.
Lemma logf_mix m g : no_wipe g -> forall l, length l <= m -> logf m g l = last_items m (l ++ map snd (mix g)).
Proof.
  induction 1 as [|[k s] g Hs _ IH]; intros l Hl.
  - cbn. rewrite app_nil_r. symmetry. apply last_items_all, Hl.
  - assert (Hm : map snd (mix ((k, s) :: g)) = rec1 s ++ map snd (mix g)).
    { unfold mix. cbn [flat_map fst snd]. rewrite map_app, map_map, map_id. reflexivity. }
    rewrite Hm. change (logf m ((k, s) :: g) l) with (logf m g (logf1 m l (k, s))). cbn [snd] in Hs. unfold logf1. cbn [snd].
    destruct s as [[b|]|l'|x| |r]; [|congruence|..]; cbn [rec1 app]; try (apply IH, Hl).
    rewrite IH by (rewrite last_items_length; lia). rewrite app_assoc. apply last_items_app_idem.
Qed.

(** ** Processes that print *)
Lemma mine_writes m ts : forall o es o' rs v d, plays_all m (map XWrite ts) o es o' rs -> o = true -> mine es v ->
  o' = true /\ gsteps (map SWrite ts) (mkslog d v) = mkslog (d ++ map IStr (recs es)) (mtmp es v).
Proof.
  induction ts as [|t ts IH]; intros o es o' rs v d H -> Hm; cbn [map] in H; inversion H; subst.
  - split; [reflexivity|]. cbn. rewrite app_nil_r. reflexivity.
  - match goal with H : plays _ _ _ _ _ _ |- _ => inversion H; subst end; [discriminate|].
    apply mine_app in Hm. destruct Hm as [M1 M2].
    match goal with H : plays_all _ _ true ?es' _ _ |- _ => destruct (IH _ es' _ _ _ (d ++ map IStr (recs (write_steps ls r0 x))) H eq_refl M2) as [I1 I2] end.
    split; [exact I1|]. rewrite recs_app, mtmp_app, map_app, app_assoc. rewrite <- I2. cbn [map]. unfold gsteps. cbn [fold_left]. f_equal.
    cbn [gstep]. symmetry. apply log_write_fun. unfold write_steps in *. destruct ls as [|l0 ls].
    + cbn [app] in *. destruct r0 as [|c r0].
      * cbn. rewrite app_nil_r. pose proof (lw_none t d v [] ltac:(assumption)) as Hl. rewrite app_nil_r in Hl. exact Hl.
      * cbn. rewrite app_nil_r. apply lw_none. assumption.
    + destruct M1 as [-> _]. destruct r0 as [|c r0]; cbn; rewrite ?app_nil_r; apply lw_some; assumption.
Qed.
Lemma plays_all_split m a b : forall o es o' rs, plays_all m (a ++ b) o es o' rs ->
  exists es1 o1 rs1 es2 rs2, es = es1 ++ es2 /\ plays_all m a o es1 o1 rs1 /\ plays_all m b o1 es2 o' rs2.
Proof.
  induction a as [|c a IH]; intros o es o' rs H.
  - exists [], o, [], es, rs. split; [reflexivity|]. split; [constructor|exact H].
  - cbn [app] in H. inversion H; subst.
    match goal with H : plays_all _ _ _ _ _ _ |- _ => destruct (IH _ _ _ _ H) as (f1 & q & t1 & f2 & t2 & -> & K1 & K2) end.
    exists (es0 ++ f1), q, (r :: t1), f2, t2. rewrite app_assoc. split; [reflexivity|]. split; [econstructor; eauto|exact K2].
Qed.
Lemma prints_of m exc j l r es o' rs v : fjob_does exc j l r -> plays_all m (fjob_calls j l r) true es o' rs -> mine es v ->
  fjob_prints exc j v r (recs es) (mtmp es v).
Proof.
  intros Hd Hp Hm. unfold fjob_calls in Hp. apply plays_all_split in Hp. destruct Hp as (es1 & o1 & rs1 & es2 & rs2 & -> & P1 & P2).
  apply mine_app in Hm. destruct Hm as [M1 M2]. destruct (mine_writes m _ _ _ _ _ v [] P1 eq_refl M1) as [-> Hg].
  exists l, (recs es1), (mtmp es1 v). split; [exact Hd|]. split; [apply log_steps_fun; symmetry; exact Hg|].
  rewrite recs_app, mtmp_app. inversion P2; subst. match goal with H : plays_all _ [] _ _ _ _ |- _ => inversion H; subst end.
  rewrite app_nil_r in *. destruct (exc_value r) as [e|].
  - match goal with H : plays _ _ _ _ _ _ |- _ => inversion H; subst end; [discriminate|].
    eexists. split; [eassumption|]. split; reflexivity.
  - match goal with H : plays _ _ _ _ _ _ |- _ => inversion H; subst end; [discriminate| |].
    + destruct M2 as [<- _]. cbn. auto.
    + cbn in M2. destruct M2 as (-> & -> & _). cbn. split; [|reflexivity]. destruct (mtmp es1 v); [congruence|reflexivity].
Qed.

(** ** Processes that look *)
Definition look (s : fstep) : Prop := match s with SSee _ | SGet _ => True | _ => False end.
Lemma looking_plays m c es o' r : looking c -> plays m c true es o' r -> o' = true /\ Forall look es.
Proof. intros Hl Hp. inversion Hp; subst; try destruct Hl; (split; [reflexivity|]); repeat constructor. Qed.
Lemma looking_all m cs : forall o es o' rs, Forall looking cs -> plays_all m cs o es o' rs -> o = true -> Forall look es.
Proof.
  induction cs as [|c cs IH]; intros o es o' rs Hl H ->; inversion H; subst; [constructor|]. inversion Hl; subst.
  match goal with H : plays _ _ _ _ _ _ |- _ => destruct (looking_plays _ _ _ _ _ ltac:(eassumption) H) as [-> G] end.
  apply List.Forall_app. split; [exact G|]. eapply IH; eauto.
Qed.
Lemma look_tmp es : Forall look es -> forall v, mtmp es v = v.
Proof. induction 1 as [|s es Hs _ IH]; intros v; [reflexivity|]. destruct s; try destruct Hs; apply IH. Qed.

Section Reads.
  Variables (m : nat) (l : list text) (i : nat) (g : list (nat * fstep)) (v : text).
  Hypotheses (Hl : length l <= m) (Hn : no_wipe g) (Hs : sawl m g l).
  Notation all := (l ++ map snd (mix g)).
  (** A look at the records that happens after [ga]. *)
  Lemma see_at ga l' gb : g = ga ++ (i, SSee l') :: gb ->
    let q := length l + length (mix ga) in q <= length all /\ l' = last_items m (firstn q all) /\ length l' = Nat.min m q.
  Proof using Hl Hn Hs.
    intros E q. rewrite E in Hs, Hn. apply sawl_app in Hs. destruct Hs as [_ H]. cbn [sawl snd] in H. destruct H as [H _].
    apply List.Forall_app in Hn. destruct Hn as [Hn1 _]. rewrite (logf_mix m ga Hn1 l Hl) in H.
    assert (Ef : firstn q all = l ++ map snd (mix ga)).
    { rewrite E, mix_app, map_app, app_assoc. unfold q. rewrite <- (map_length snd (mix ga)), <- app_length.
      rewrite firstn_app, Nat.sub_diag. cbn [firstn]. rewrite app_nil_r. apply firstn_all. }
    assert (Hq : q <= length all).
    { rewrite E, app_length, map_length, mix_app, app_length. unfold q. lia. }
    split; [exact Hq|]. rewrite Ef. split; [exact H|]. rewrite H, last_items_length, <- Ef, firstn_length. lia.
  Qed.
  Lemma own_sees (g0 : list (nat * fstep)) : forall a x b, events_of i g0 = a ++ x :: b -> exists ga gb, g0 = ga ++ (i, x) :: gb /\ events_of i ga = a /\ events_of i gb = b.
  Proof using.
    intros a x b E. destruct (own_split i g0 a (x :: b) E) as (g1 & g2 & -> & E1 & E2). clear E.
    revert g1 E1. induction g2 as [|[k s] g2 IH]; intros g1 E1; [discriminate|]. rewrite own_cons in E2. cbn [fst snd] in E2. destruct (k =? i) eqn:Ek.
    - apply Nat.eqb_eq in Ek. subst k. injection E2 as -> E2. exists g1, g2. auto.
    - cbn [app] in E2. destruct (IH E2 (g1 ++ [(k, s)])) as (ga & gb & E & H).
      + rewrite own_app, own_cons. cbn [fst]. rewrite Ek. cbn. rewrite app_nil_r. exact E1.
      + exists ga, gb. split; [|exact H]. rewrite <- E, <- app_assoc. reflexivity.
  Qed.
  Lemma seen cs : forall o es o' rs g1 g2 q, Forall looking cs -> plays_all m cs o es o' rs -> o = true -> Some g = Some (g1 ++ g2) ->
    events_of i g2 = es -> mine es v -> q <= length l + length (mix g1) -> logs_seen m all v q cs rs.
  Proof using Hl Hn Hs.
    induction cs as [|c cs IH]; intros o es o' rs g1 g2 q Hk H -> E Eo Hm Hq; inversion H as [|? ? ? ? ? ? ? ? ? Hp Hps]; subst; [constructor|]. inversion Hk as [|? ? Hc Hcs]; subst.
    destruct (looking_plays _ _ _ _ _ Hc Hp) as [-> Hlook]. match goal with E : _ ++ _ = events_of i g2 |- _ => symmetry in E; rename E into Eo end.
    rewrite Eo in Hm. apply mine_app in Hm. destruct Hm as [M1 M2]. rewrite (look_tmp _ Hlook) in M2.
    inversion Hp; subst; try (destruct Hc; fail).
    - apply se_look; [assumption|]. eapply IH; eauto.
    - change ([SGet x; SSee l0] ++ es') with ([SGet x] ++ SSee l0 :: es') in Eo. destruct (own_sees g2 _ _ _ Eo) as (ga & gb & -> & _ & Eb).
      destruct (see_at (g1 ++ ga) l0 gb) as (Q1 & Q2 & Q3); [rewrite app_assoc in E; injection E as E; exact E|]. destruct M1 as [-> _].
      rewrite mix_app, app_length in *. eapply (se_read _ _ _ _ (length l + (length (mix g1) + length (mix ga)))); [lia|assumption|congruence|].
      eapply (IH true es' o' _ ((g1 ++ ga) ++ [(i, SSee l0)]) gb); eauto.
      + rewrite E, <- !app_assoc. reflexivity.
      + rewrite !mix_app, !app_length. lia.
    - change ([SSee l0; SGet x] ++ es') with ([] ++ SSee l0 :: SGet x :: es') in Eo. destruct (own_sees g2 _ _ _ Eo) as (ga & gb & -> & _ & Eb).
      destruct (see_at (g1 ++ ga) l0 gb) as (Q1 & Q2 & Q3); [rewrite app_assoc in E; injection E as E; exact E|]. destruct M1 as (_ & -> & _). cbn [mt1].
      change (SGet v :: es') with ([SGet v] ++ es') in Eb. destruct (own_split i gb [SGet v] es' Eb) as (gc & gd & -> & _ & Ed).
      rewrite Q3, mix_app, app_length in *. eapply (se_len _ _ _ _ (length l + (length (mix g1) + length (mix ga)))); [lia|].
      eapply (IH true es' o' _ ((g1 ++ ga) ++ [(i, SSee l0)] ++ gc) gd); eauto.
      + rewrite E, <- !app_assoc. reflexivity.
      + rewrite !mix_app, !app_length. lia.
  Qed.
End Reads.

(** ** At any time *)
Lemma no_wipe_calls m cs : forall o es o' rs, Forall (fun c => c <> XClear) cs -> plays_all m cs o es o' rs -> ~ In (SLog Wipes) es.
Proof.
  induction cs as [|c cs IH]; intros o es o' rs Hc H; inversion H as [|? ? ? ? ? ? ? ? ? Hp Hps]; subst; [intros []|].
  inversion Hc as [|? ? Hc1 Hc2]; subst. intros Hi. apply in_app_iff in Hi. destruct Hi as [Hi|Hi]; [|exact (IH _ _ _ _ Hc2 Hps Hi)].
  clear - Hp Hc1 Hi. induction Hp; cbn in Hi; try (decompose [or] Hi; congruence).
  - unfold write_steps in Hi. apply in_app_iff in Hi. destruct ls, r; cbn in Hi; decompose [or] Hi; congruence.
  - apply IHHp; [discriminate|exact Hi].
  - apply IHHp; [discriminate|exact Hi].
Qed.
Lemma calls_no_wipe j l r : Forall (fun c => c <> XClear) (fjob_calls j l r).
Proof.
  unfold fjob_calls. apply List.Forall_app. split.
  - apply List.Forall_map, List.Forall_forall. discriminate.
  - constructor; [|constructor]. destruct (exc_value r); discriminate.
Qed.
Lemma looking_no_wipe cs : Forall looking cs -> Forall (fun c => c <> XClear) cs.
Proof. intros H. eapply List.Forall_impl; [|exact H]. intros c Hc ->. exact Hc. Qed.

Theorem c94_any_time n name fl bs m exc ws d0 sch ps' s' l :
  one_log n name fl bs -> (forall i, i < n -> b_max (bs i) = m) ->
  (forall i j, i < n -> j < n -> b_tmp (bs i) = b_tmp (bs j) -> i = j) ->
  length ws = n -> Forall (fwork_ok name) ws -> (forall cs, In (FCalls cs) ws -> Forall looking cs) ->
  records name (files d0) l -> length l <= m ->
  (forall i, i < n -> open_flag (bs i) d0 true /\
     no_break (unfinished name (b_tmp (bs i)) (files d0)) /\ utf8 (unfinished name (b_tmp (bs i)) (files d0))) ->
  sched_run sch (print_files exc bs ws, mkst d0 ∅) = Some (ps', s') ->
  exists mixed : list (nat * text),
    Forall (fun e => exists j, nth_error ws (fst e) = Some (FPrints j)) mixed /\
    ((forall t q, lks s' !! fl <> Some (Excl t q)) -> records name (files (dat s')) (last_items m (l ++ map snd mixed))) /\
    (forall i j, nth_error ws i = Some (FPrints j) -> exists rest r v',
       fjob_prints exc j (unfinished name (b_tmp (bs i)) (files d0)) r (events_of i mixed ++ rest) v') /\
    (forall i j p, nth_error ws i = Some (FPrints j) -> nth_error ps' i = Some p -> finished p = true ->
       exists r s2, p = Ret (FPrinted r s2) /\ out s2 = out (fj_sys j) /\ err s2 = err (fj_sys j) /\
         fjob_prints exc j (unfinished name (b_tmp (bs i)) (files d0)) r (events_of i mixed) (unfinished name (b_tmp (bs i)) (files (dat s')))) /\
    (forall i cs p, nth_error ws i = Some (FCalls cs) -> nth_error ps' i = Some p -> finished p = true ->
       exists rs, p = Ret (FCalled rs) /\
         logs_seen m (l ++ map snd mixed) (unfinished name (b_tmp (bs i)) (files d0)) (length l) cs rs).
Proof.
  intros Hol Hmax Hinj Hlen Hok Hlk Hrec Hll Hv Hr.
  pose (v := fun t => unfinished name t (files d0)).
  destruct (core_any n name fl bs m exc ws d0 sch ps' s' l v (fun _ => true)) as (g & g2 & d2 & G1 & G2 & G3 & G4 & G5); auto.
  { intros i Hi. destruct (Hv i Hi) as (V1 & V2 & V3). auto. }
  pose proof (core_len n bs exc ws d0 sch ps' s' Hlen Hr) as Hl.
  pose proof (proj1 (List.Forall_app _ _ _) G1) as [G1a _].
  assert (Hlt : forall i x, nth_error ws i = Some x -> i < n) by (intros i x Hx; rewrite <- Hlen; apply nth_error_Some; congruence).
  (* what is known of all steps, also those that are still to come *)
  destruct (G5 fl (or_introl eq_refl)) as [J1 _]. destruct (J1 eq_refl) as (S1 & _ & _). clear J1.
  assert (Hmine : forall i, i < n -> mine (events_of i (g ++ g2)) (v (b_tmp (bs i)))).
  { intros i Hi. destruct (G5 (b_tl (bs i))) as [_ J2]; [right; eauto|]. destruct (J2 i Hi eq_refl) as (T1 & _).
    apply (own_tmp n (fun i => b_tmp (bs i)) Hinj i (g ++ g2) Hi G1 (v (b_tmp (bs i)))). exact T1. }
  assert (Hminea : forall i, i < n -> mine (events_of i g) (v (b_tmp (bs i)))).
  { intros i Hi. specialize (Hmine i Hi). rewrite own_app in Hmine. apply mine_app in Hmine. apply Hmine. }
  assert (Hnw : no_wipe (g ++ g2)).
  { apply List.Forall_forall. intros [i s] He E. cbn [snd] in E. subst s. rewrite List.Forall_forall in G1. pose proof (G1 _ He) as Hi. cbn [fst] in Hi.
    destruct (nth_error ws i) as [x|] eqn:Hx; [|apply nth_error_None in Hx; lia]. apply own_in in He.
    destruct (G4 i x Hx) as (o' & res & H). destruct x as [j|cs]; cbn [fwork_plays] in H.
    - destruct H as (lh & r & s2 & rs & _ & _ & _ & _ & Hp). exact (no_wipe_calls _ _ _ _ _ _ (calls_no_wipe j lh r) Hp He).
    - destruct H as (rs & _ & Hp). apply nth_error_In in Hx. exact (no_wipe_calls _ _ _ _ _ _ (looking_no_wipe _ (Hlk _ Hx)) Hp He). }
  pose proof (proj1 (List.Forall_app _ _ _) Hnw) as [Hnwa _]. apply sawl_app in S1. destruct S1 as [S1 _].
  exists (mix g). split; [|split; [|split; [|split]]].
  - apply List.Forall_forall. intros [i t] He. cbn [fst].
    assert (Hi : i < n).
    { unfold mix in He. apply in_flat_map in He. destruct He as (e & He & H). apply in_map_iff in H. destruct H as (y & [= <- _] & _).
      rewrite List.Forall_forall in G1a. apply G1a, He. }
    destruct (nth_error ws i) as [[j|cs]|] eqn:Hx; [eauto| |apply nth_error_None in Hx; lia]. exfalso.
    apply own_in in He. rewrite own_mix in He. destruct (G4 i _ Hx) as (o' & res & rs & _ & Hp).
    apply nth_error_In in Hx. pose proof (looking_all m cs _ _ _ _ (Hlk _ Hx) Hp eq_refl) as Hk. rewrite own_app in Hk. apply List.Forall_app in Hk. destruct Hk as [Hk _].
    clear - Hk He. unfold recs in He. apply in_flat_map in He. destruct He as (s & Hs & H). rewrite List.Forall_forall in Hk. specialize (Hk s Hs).
    destruct s; (exact Hk || exact H).
  - intros Hno. destruct (G3 fl (or_introl eq_refl)) as [J1 _].
    + intros t p _ _ (q & H). exact (Hno t q H).
    + destruct (J1 eq_refl) as (_ & S2 & _). rewrite (logf_mix m g Hnwa l Hll) in S2. exact S2.
  - intros i j Hx. destruct (G4 i _ Hx) as (o' & res & lh & r & s2 & rs & Hd & _ & _ & _ & Hp).
    exists (recs (events_of i g2)), r, (mtmp (events_of i (g ++ g2)) (v (b_tmp (bs i)))).
    pose proof (prints_of m exc j lh r _ _ _ _ Hd Hp (Hmine i (Hlt i _ Hx))) as H. rewrite own_mix, <- recs_app, <- own_app. exact H.
  - intros i j p Hx Hp Hfin. destruct (G2 i _ p Hx Hp Hfin) as (res & -> & lh & r & s2 & rs & Hd & -> & Eo & Ee & Hpl).
    pose proof (Hlt i _ Hx) as Hi. exists r, s2. split; [reflexivity|]. split; [exact Eo|]. split; [exact Ee|].
    pose proof (prints_of m exc j lh r _ _ _ _ Hd Hpl (Hminea i Hi)) as H. rewrite own_mix.
    destruct (G3 (b_tl (bs i))) as [_ J2]; [right; eauto| |].
    + intros t pt Hpt Hft (q & Hq). assert (Ht : t < n) by (rewrite <- Hl; eapply lookup_lt_Some; eauto).
      assert (HH : holders (fun t L => L = b_tl (bs t) \/ L = b_fl (bs t)) ps' (lks s')).
      { eapply holders_sched; [|exact Hr]. split; [|intros ? ? ? He; cbn in He; rewrite lookup_empty in He; discriminate].
        intros k pk Hk. destruct (pool_job _ _ _ _ _ Hk) as (x & _ & ->). apply acqs_work. }
      destruct HH as [_ HH]. destruct (HH _ _ _ Hq) as [E|E].
      * assert (t = i); [|subst t; rewrite nth_lookup in Hp; rewrite Hp in Hpt; injection Hpt as <-; congruence].
        destruct (decide (t = i)) as [|Hne]; [assumption|]. apply Hinj; auto. symmetry. apply (ol_two _ _ _ _ Hol i t Hi Ht); auto.
      * destruct (ol_one _ _ _ _ Hol t Ht) as (_ & E2 & _). destruct (ol_one _ _ _ _ Hol i Hi) as (_ & _ & _ & E3 & _). lia.
    + destruct (J2 i Hi eq_refl) as (_ & T2 & _). rewrite T2.
      destruct (own_tmp n (fun i => b_tmp (bs i)) Hinj i g Hi G1a (v (b_tmp (bs i)))) as [E _]. rewrite E. exact H.
  - intros i cs p Hx Hp Hfin. destruct (G2 i _ p Hx Hp Hfin) as (res & -> & rs & -> & Hpl). exists rs. split; [reflexivity|].
    pose proof (Hlt i _ Hx) as Hi. apply nth_error_In in Hx.
    apply (seen m l i g _ Hll Hnwa S1 cs true (events_of i g) _ rs [] g (length l) (Hlk _ Hx) Hpl eq_refl eq_refl eq_refl (Hminea i Hi)). lia.
Qed.
