(** * HostReads: what the calls of a reader return while mirrors write (C93) *)
From stdpp Require Import gmap.
From Coq Require Import List NArith ZArith Bool Arith Lia.
From Verif Require Import PyStr Prog PyIO Base Spec SpecFacts LineBuf LineBufFacts LineBufSpec LineBufProofs
  Atomic Json Host HostSpec HostFacts HostProofs HostCli HostCliSpec HostCliFacts HostCliProofs HostCliConc.
Import ListNotations.
Local Open Scope nat_scope.

Lemma hmsg_steps_fun E os : forall g g1 g2, hmsg_steps E os g g1 -> hmsg_steps E os g g2 -> g1 = g2.
Proof.
  induction os as [|o os IH]; intros g g1 g2 H1 H2; inversion H1; inversion H2; subst; [reflexivity|].
  match goal with A : hmsg_step E o g ?x, B : hmsg_step E o g ?y |- _ => pose proof (hmsg_step_fun E o g x y A B); subst end. eauto.
Qed.
Lemma hmsg_steps_split E a : forall b g g2, hmsg_steps E (a ++ b) g g2 -> exists g1, hmsg_steps E a g g1 /\ hmsg_steps E b g1 g2.
Proof.
  induction a as [|o a IH]; intros b g g2 H; [exists g; split; [constructor|exact H]|]. cbn [app] in H. inversion H; subst.
  destruct (IH _ _ _ ltac:(eassumption)) as (g3 & K1 & K2). exists g3. split; [econstructor; eassumption|exact K2].
Qed.

Section Reads.
  Variables (E : henv) (m : nat) (g0 : slog) (order : list (nat * hmsg)).
  Hypothesis Hm : 1 <= m.

  Lemma read_after size q r g : (forall i, In i (done g0) -> ~ is_raw i) ->
    returns_after E m g0 order (RdRead size) q r -> hmsg_steps E (map snd (firstn q order)) g0 g ->
    r = Good (CItems (map wire_item (view m (option_map (Z.max 0) size) g))).
  Proof using Hm.
    intros Hraw (g1 & d & H1 & H2 & H3) Hg. pose proof (hmsg_steps_fun _ _ _ _ _ H1 Hg). subst g1. rewrite <- (H3 0 ∅).
    rewrite (rd_read_good E m g false (mkworld d ∅ []) 0 size Hm H2 eq_refl); [reflexivity|].
    intros i Hi. apply view_in in Hi. destruct Hi as [Hi|[s ->]]; [|intros [v Hv]; discriminate].
    eapply msgs_not_raw; eassumption.
  Qed.
  Lemma len_after q r g : returns_after E m g0 order RdLen q r -> hmsg_steps E (map snd (firstn q order)) g0 g ->
    exists n, r = Good (CJson (JNum (Z.of_nat n))) /\
      (n = length (visible m g) <-> (pend g <> [] \/ m <= length (done g))) /\ (n <> length (visible m g) -> n = S (length (visible m g))).
  Proof using Hm.
    intros (g1 & d & H1 & H2 & H3) Hg. pose proof (hmsg_steps_fun _ _ _ _ _ H1 Hg). subst g1.
    destruct (rd_len E m g false (mkworld d ∅ []) 0 Hm H2 eq_refl) as (n & L1 & L2). specialize (H3 0 ∅). rewrite L2 in H3. cbn [fst] in H3.
    destruct (host_len E m _ g 0 Hm (srv_served _ _ _ _ _ H2) (srv_holds _ _ _ _ _ H2)) as (n' & items & K1 & _ & _ & -> & K2 & K3).
    cbn [w_srv] in L1. rewrite L1 in K1. injection K1 as <-. eauto.
  Qed.
  Lemma closed_after q r : returns_after E m g0 order RdClosed q r -> r = Good (CJson (JBool false)).
  Proof using.
    intros (g1 & d & H1 & H2 & H3). rewrite <- (H3 0 ∅). rewrite call_rd. cbn [fst r_call]. unfold as_cres. rewrite srun_bind.
    rewrite (sr_get E k_closed (JBool false) (mkworld d ∅ [])); [reflexivity|reflexivity|].
    apply (serve_flag E d false (srv_flag _ _ _ _ _ H2)).
  Qed.
End Reads.

(** Records do not change and do not vanish from the log while nobody empties it. *)
Lemma log_grows E os : forall g g', Forall (fun o => o <> HEmpty) os -> hmsg_steps E os g g' -> exists more, done g' = done g ++ more.
Proof.
  assert (Hnl : forall ga gb, log_new_line ga gb -> exists more, done gb = done ga ++ more).
  { intros ga gb H. inversion H; subst; cbn [done]; [exists []; rewrite app_nil_r|eexists]; reflexivity. }
  induction os as [|o os IH]; intros g g' Ho H; inversion H; subst; [exists []; rewrite app_nil_r; reflexivity|].
  apply List.Forall_cons_iff in Ho. destruct Ho as [Ho1 Ho2].
  match goal with A : hmsg_steps E os ?x g' |- _ => destruct (IH _ _ Ho2 A) as [more2 E2]; rewrite E2 end.
  assert (H1 : exists more1, done g1 = done g ++ more1).
  { match goal with A : hmsg_step E o g _ |- _ => destruct A as [v ga gb _ Hw|error x ga gb Hw|ga gb Hw|ga] end; [| |eauto|congruence].
    - inversion Hw; subst; cbn [done]; [exists []; rewrite app_nil_r|eexists]; reflexivity.
    - inversion Hw; subst. match goal with A : log_new_line _ _ |- _ => apply Hnl in A; destruct A as [more A]; cbn [done] in *; rewrite A end.
      rewrite <- app_assoc. eauto. }
  destruct H1 as [more1 ->]. exists (more1 ++ more2). rewrite app_assoc. reflexivity.
Qed.
Lemma firstn_split {X} q q' (l : list X) : q <= q' -> exists more, firstn q' l = firstn q l ++ more.
Proof.
  intros H. exists (skipn q (firstn q' l)). rewrite <- (firstn_skipn q (firstn q' l)) at 1. f_equal. rewrite firstn_firstn. f_equal. lia.
Qed.
Lemma grows_along E (order : list (nat * hmsg)) q q' g0 g g' : q <= q' -> Forall (fun o => snd o <> HEmpty) order ->
  hmsg_steps E (map snd (firstn q order)) g0 g -> hmsg_steps E (map snd (firstn q' order)) g0 g' -> exists more, done g' = done g ++ more.
Proof.
  intros Hq Ho H1 H2. destruct (firstn_split q q' order Hq) as [more Em]. rewrite Em, map_app in H2. apply hmsg_steps_split in H2.
  destruct H2 as (g1 & A & B). pose proof (hmsg_steps_fun _ _ _ _ _ H1 A). subst g1. eapply log_grows; [|exact B].
  apply List.Forall_map. apply List.Forall_forall. intros x Hx. apply (proj1 (List.Forall_forall _ _) Ho).
  rewrite <- (firstn_skipn q' order), Em. apply in_or_app. left. apply in_or_app. right. exact Hx.
Qed.
(** Mirrors empty nothing. *)
Lemma mcalls_no_empty aggr cs x ms rs x' : mcalls_do aggr cs x ms rs x' -> Forall (fun o => o <> HEmpty) ms.
Proof.
  assert (Hl : forall v, Forall (fun o => o <> HEmpty) (says_line v)) by (intros [|c v]; repeat constructor; discriminate).
  induction 1 as [x|c cs x ms r x1 ms' rs x2 H _ IH]; [constructor|]. apply List.Forall_app. split; [|exact IH].
  destruct H; repeat (apply List.Forall_app; split); try apply Hl; repeat constructor; discriminate.
Qed.

(** ** Mirrors and readers *)
Lemma snapshots E m g0 ws x0 w sch ps' s' : 1 <= m -> work_ok ws -> server E m (w_srv w) g0 false -> w_faults w = [] ->
  (forall i M cs, nth_error ws i = Some (Mirror M cs) -> mirror_is M (x0 i) w /\ (hm_aggr M = true -> x0 i = Some [] \/ x0 i = None)) ->
  @sched_run ccmd world (clisem E) _ sch (cli_pool ws, mkst w ∅) = Some (ps', s') ->
  exists order,
    (forall i M cs, nth_error ws i = Some (Mirror M cs) -> exists rest rs x', mcalls_do (hm_aggr M) cs (x0 i) (events_of i order ++ rest) rs x') /\
    (forall i o, In (i, o) order -> o <> HEmpty /\ exists M cs, nth_error ws i = Some (Mirror M cs)) /\
    (exists g, hmsg_steps E (map snd order) g0 g /\ server E m (w_srv (dat s')) g false) /\
    (forall i cs r, nth_error ws i = Some (Reader cs) -> nth_error ps' i = Some r -> finished r = true ->
       exists rs, r = Ret rs /\ reads_along E m g0 order 0 cs rs).
Proof.
  intros Hm Hok Hs Hu Hx Hr.
  destruct (clients_any_time E m g0 ws x0 w sch ps' s' Hm Hok Hs Hu Hx Hr) as (order & g & T1 & T2 & T3 & T4 & T5 & _).
  exists order. split; [intros i M cs H; apply (T4 i M cs H)|]. split; [|split; [eauto|exact T5]].
  intros i o Hin. destruct (T3 i o Hin) as (M & cs & H). split; [|eauto]. destruct (T4 i M cs H) as [(rest & rs & x' & K) _].
  apply mcalls_no_empty in K. apply List.Forall_app in K. destruct K as [K _]. apply (proj1 (List.Forall_forall _ _) K).
  unfold events_of. apply in_map_iff. exists (i, o). split; [reflexivity|]. apply filter_In. split; [exact Hin|]. apply Nat.eqb_refl.
Qed.
