(** * LineBufProofs: the sequential properties of LineBuffer (lemmas for PropLineBuf.v) *)
From stdpp Require Import gmap.
From Coq Require Import List NArith ZArith Bool Arith Lia.
From Verif Require Import PyStr Prog ProgFacts PyIO Base Spec SpecFacts LineBuf LineBufFacts LineBufSpec.
Import ListNotations.
Local Open Scope nat_scope.

(** ** The log as a function *)
Definition gwrite (data : text) (g : slog) : slog :=
  mkslog (done g ++ wlines (pend g) data) (wtail (pend g) data).
Definition gnewline (g : slog) : slog :=
  match pend g with [] => g | p => mkslog (done g ++ [IStr p]) [] end.
Definition gstep (o : sop) (g : slog) : slog :=
  match o with SWrite d => gwrite d g | SNewLine => gnewline g | SClear => slog0 end.

Lemma log_write_fun data g g' : log_write data g g' <-> g' = gwrite data g.
Proof.
  split.
  - intros H. destruct H as [d p r H|d p l ls r H]; apply segments_seg in H;
      unfold gwrite, wlines, wtail; simpl; rewrite H; [rewrite app_nil_r|]; reflexivity.
  - intros ->. destruct g as [d p]. unfold gwrite, wlines, wtail. simpl.
    pose proof (seg_segments data) as H. destruct (seg data) as [[|l ls] r]; simpl in H.
    + rewrite app_nil_r. constructor. exact H.
    + constructor. exact H.
Qed.

Lemma log_new_line_fun g g' : log_new_line g g' <-> g' = gnewline g.
Proof.
  split.
  - intros [d|d p H]; unfold gnewline; simpl; [reflexivity|]. destruct p; [congruence|reflexivity].
  - intros ->. destruct g as [d p]. unfold gnewline. simpl. destruct p; constructor. congruence.
Qed.

Lemma log_step_fun o g g' : log_step o g g' <-> g' = gstep o g.
Proof.
  split.
  - intros []; simpl; [apply log_write_fun|apply log_new_line_fun|reflexivity]; assumption.
  - intros ->. destruct o; constructor; [apply log_write_fun|apply log_new_line_fun]; reflexivity.
Qed.

Definition gsteps (os : list sop) (g : slog) : slog := fold_left (fun g o => gstep o g) os g.

Lemma log_steps_fun os : forall g g', log_steps os g g' <-> g' = gsteps os g.
Proof.
  induction os as [|o os IH]; intros g g'; split.
  - inversion 1; reflexivity.
  - intros ->. constructor.
  - inversion 1 as [|? ? ? g1 ? Hs Hss]; subst. apply log_step_fun in Hs. subst g1.
    apply IH. assumption.
  - intros ->. econstructor; [apply log_step_fun; reflexivity|]. apply IH. reflexivity.
Qed.

Definition absg (m : nat) (g : slog) : abuf := mkabuf (last_items m (done g)) (pend g) false.

Lemma absg_ok m g : 1 <= m -> aok m (absg m g).
Proof.
  intros. split; [assumption|]. split; [|discriminate].
  simpl. rewrite last_items_length. lia.
Qed.

Lemma astep_gstep m o g : snd (astep m (call_of o) (absg m g)) = absg m (gstep o g).
Proof.
  destruct o; simpl.
  - unfold absg, gwrite. simpl. rewrite last_items_app_idem. reflexivity.
  - unfold gnewline. destruct (pend g) as [|c p] eqn:E; simpl.
    + unfold absg. rewrite E. reflexivity.
    + unfold absg. simpl. rewrite last_items_app_idem. reflexivity.
  - reflexivity.
Qed.

Lemma ahist_gsteps m os : forall g,
  snd (ahist m (hist_of os) (absg m g)) = absg m (gsteps (map snd os) g).
Proof.
  induction os as [|[t o] os IH]; intros g; [reflexivity|]. cbn [hist_of map ahist fst snd].
  pose proof (astep_gstep m o g) as E. destruct (astep m (call_of o) (absg m g)) as [r a1].
  cbn [snd] in E. subst a1. specialize (IH (gstep o g)). unfold hist_of in IH.
  destruct (ahist m _ (absg m (gstep o g))) as [rs a2]. exact IH.
Qed.

Lemma a0_absg m : a0 = absg m slog0.
Proof. reflexivity. Qed.

Lemma run_hist_gsteps m os : 1 <= m ->
  snd (run_hist (hist_of os) (fresh m)) = cst m (absg m (gsteps (map snd os) slog0)) stdpp.base.empty.
Proof.
  intros Hm. rewrite fresh_cst, run_hist_ahist; [|apply lookup_empty|apply a0_ok; auto].
  simpl snd. rewrite (a0_absg m), ahist_gsteps. reflexivity.
Qed.

Lemma opt_item_items g : done g ++ opt_item (pend g) = items_of g.
Proof. unfold items_of, opt_item. destruct (pend g); reflexivity. Qed.

Lemma visible_absg m g :
  last_items m (last_items m (done g) ++ opt_item (pend g)) = visible m g.
Proof. rewrite last_items_app_idem, opt_item_items. reflexivity. Qed.

Lemma aread_view m size g : aread m size (absg m g) = view m size g.
Proof.
  unfold aread, view. destruct size as [z|]; cbn [absg aq av].
  - rewrite visible_absg. destruct (Z.ltb_spec 0 z), (Z.leb_spec z 0); try lia; reflexivity.
  - apply visible_absg.
Qed.

Lemma empty_LL : (stdpp.base.empty : locks) !! LL = None.
Proof. apply lookup_empty. Qed.

(** C01 *)
Lemma c01 m os g t size : 1 <= m -> log_steps (map snd os) slog0 g ->
  let s := snd (run_hist (hist_of os) (fresh m)) in
  run t (lb_read size) s = (Good (view m size g), s).
Proof.
  intros Hm Hg s. apply log_steps_fun in Hg. subst g. subst s.
  rewrite run_hist_gsteps by assumption. unfold cst.
  rewrite run_read_open; [|assumption|apply empty_LL|simpl; rewrite last_items_length; lia].
  rewrite <- aread_view. reflexivity.
Qed.

Lemma c01_total os : exists! g, log_steps os slog0 g.
Proof.
  exists (gsteps os slog0). split; [apply log_steps_fun; reflexivity|].
  intros g H. apply log_steps_fun in H. auto.
Qed.

(** C02 *)
Lemma gwrites_conserve texts : forall g,
  concat (map item_text (done (gsteps (map SWrite texts) g))) ++ pend (gsteps (map SWrite texts) g) =
  (concat (map item_text (done g)) ++ pend g) ++ drop_breaks (concat texts).
Proof.
  induction texts as [|x texts IH]; intros g; simpl.
  - rewrite app_nil_r. reflexivity.
  - rewrite IH. unfold gwrite at 1 2, wlines, wtail. simpl. rewrite drop_breaks_app, (seg_conserve x).
    destruct (seg x) as [[|l ls] r]; simpl.
    + rewrite app_nil_r, <- !app_assoc. reflexivity.
    + rewrite map_app, concat_app. simpl. rewrite map_map. simpl.
      rewrite <- !app_assoc. do 4 f_equal. f_equal. clear.
      induction ls; simpl; [reflexivity|]. f_equal. assumption.
Qed.

Lemma items_text g : concat (map item_text (items_of g)) =
  concat (map item_text (done g)) ++ pend g.
Proof.
  unfold items_of. rewrite map_app, concat_app. destruct (pend g); simpl; [reflexivity|].
  rewrite app_nil_r. reflexivity.
Qed.

Lemma c02 m (texts : list (nat * text)) t r s' : 1 <= m ->
  let s := snd (run_hist (map (fun p => (fst p, Write (snd p))) texts) (fresh m)) in
  run t (lb_read None) s = (Good r, s') ->
  let all := drop_breaks (concat (map snd texts)) in
  (exists lost, all = lost ++ concat (map item_text r)) /\
  (length r < m -> concat (map item_text r) = all) /\
  (forall g, log_steps (map (fun p => SWrite (snd p)) texts) slog0 g ->
     concat (map item_text (done g)) ++ pend g = all /\
     (length (items_of g) <= m -> r = items_of g)).
Proof.
  intros Hm s Hr all. subst s.
  set (os := map (fun p : nat * text => (fst p, SWrite (snd p))) texts).
  assert (E : map (fun p : nat * text => (fst p, Write (snd p))) texts = hist_of os).
  { unfold hist_of, os. rewrite map_map. reflexivity. }
  assert (E2 : map snd os = map SWrite (map snd texts)).
  { unfold os. rewrite !map_map. reflexivity. }
  set (g0 := gsteps (map snd os) slog0).
  assert (Hg0 : log_steps (map snd os) slog0 g0) by (apply log_steps_fun; reflexivity).
  rewrite E in Hr. pose proof (c01 m os g0 t None Hm Hg0) as H. cbv zeta in H.
  rewrite H in Hr. injection Hr as Hr _. simpl in Hr.
  assert (Hc : concat (map item_text (items_of g0)) = all).
  { rewrite items_text. unfold g0. rewrite E2. rewrite gwrites_conserve. reflexivity. }
  assert (Hlen : length (items_of g0) <= m -> r = items_of g0).
  { intros Hl. rewrite <- Hr. unfold visible. apply last_items_all. exact Hl. }
  split; [|split].
  - subst r. unfold visible. destruct (last_items_suffix m (items_of g0)) as [l0 Hl0].
    exists (concat (map item_text l0)). rewrite <- concat_app, <- map_app, <- Hl0. auto.
  - intros Hl. rewrite Hlen; [exact Hc|]. subst r. unfold visible in Hl.
    rewrite last_items_length in Hl. lia.
  - intros g Hg. assert (g = g0).
    { apply log_steps_fun in Hg. subst g. unfold g0. f_equal. unfold os.
      rewrite map_map. reflexivity. }
    subst g. split; [|exact Hlen]. rewrite <- items_text. exact Hc.
Qed.

(** C03 *)
Lemma gwrite_app a b g : ~ (ends_cr a /\ starts_lf b) ->
  gwrite b (gwrite a g) = gwrite (a ++ b) g.
Proof.
  intros H. unfold gwrite, wlines, wtail. simpl. rewrite (seg_app a b) by assumption.
  destruct (seg a) as [[|l ls] r], (seg b) as [[|l' ls'] r']; simpl;
    rewrite ?app_nil_r, <- ?app_assoc; try reflexivity.
  f_equal. rewrite map_app. reflexivity.
Qed.

Lemma seg_crlf a b : seg ((a ++ [13%N]) ++ 10%N :: b) =
  (fst (seg (a ++ [13%N])) ++ fst (seg b), snd (seg b)) /\ snd (seg (a ++ [13%N])) = [].
Proof.
  split.
  - rewrite <- app_assoc. simpl.
    assert (Hb : ~ (ends_cr a /\ starts_lf (13%N :: 10%N :: b)))
      by (intros [_ [x Hx]]; discriminate).
    rewrite (seg_app a _ Hb).
    assert (Hb2 : ~ (ends_cr a /\ starts_lf [13%N])) by (intros [_ [x Hx]]; discriminate).
    rewrite (seg_app a _ Hb2). simpl. rewrite app_nil_r, <- app_assoc. reflexivity.
  - assert (E : is_end_line_break (a ++ [13%N]) = true) by (rewrite is_end_line_break_app; reflexivity).
    apply seg_end_break in E. tauto.
Qed.

Lemma gwrite_crlf a b g :
  pend (gwrite (a ++ [13%N]) g) = [] /\
  gwrite ((a ++ [13%N]) ++ 10%N :: b) g = gwrite b (gwrite (a ++ [13%N]) g) /\
  gwrite (10%N :: b) (gwrite (a ++ [13%N]) g) =
    gwrite b (mkslog (done (gwrite (a ++ [13%N]) g) ++ [IStr []]) []).
Proof.
  destruct (seg_crlf a b) as [E1 E2].
  assert (Hne : exists l ls, seg (a ++ [13%N]) = (l :: ls, [])).
  { destruct (seg (a ++ [13%N])) as [[|l ls] r] eqn:E.
    - simpl in E2. subst r. apply seg_nil_nil in E. destruct a; discriminate.
    - simpl in E2. subst r. eauto. }
  destruct Hne as (l & ls & E). rewrite E in *. simpl in E1.
  repeat split.
  - unfold gwrite, wtail. simpl. rewrite E. reflexivity.
  - unfold gwrite, wlines, wtail. simpl. rewrite E1, E. simpl.
    destruct (seg b) as [[|l' ls'] r']; simpl; rewrite ?app_nil_r, <- ?app_assoc; try reflexivity.
    rewrite map_app. reflexivity.
  - unfold gwrite, wlines, wtail. simpl. rewrite E. simpl.
    destruct (seg b) as [[|l' ls'] r']; simpl; rewrite ?app_nil_r, <- ?app_assoc; reflexivity.
Qed.

(** Any open state is the abstraction of the log "storage then pending". *)
Lemma open_absg m q v : length q <= m -> mkabuf q v false = absg m (mkslog q v).
Proof. intros H. unfold absg. simpl. rewrite last_items_all by assumption. reflexivity. Qed.

Lemma run_write_absg m t k data g : 1 <= m -> k !! LL = None ->
  run t (lb_write data) (cst m (absg m g) k) = (Good (wres data), cst m (absg m (gwrite data g)) k).
Proof.
  intros Hm Hk. unfold cst. simpl aq. simpl av. simpl acl.
  rewrite run_write_open; auto; [|rewrite last_items_length; lia].
  unfold gwrite. simpl. rewrite last_items_app_idem. reflexivity.
Qed.

Lemma reachable_open m s : 1 <= m -> reachable m s -> sclosed (last_line (dat s)) = false ->
  exists g, s = cst m (absg m g) stdpp.base.empty /\ length (done g) <= m.
Proof.
  intros Hm Hs Ho. destruct (reachable_inv m s Hm Hs) as ([q v cl] & -> & (_ & Hq & _)).
  simpl in *. subst cl. exists (mkslog q v). split; [|exact Hq]. rewrite <- open_absg; auto.
Qed.

Lemma c03 m s t a b : 1 <= m -> reachable m s -> sclosed (last_line (dat s)) = false ->
  ~ ((exists a', a = a' ++ [13%N]) /\ (exists b', b = 10%N :: b')) ->
  snd (run t (bind (lb_write a) (fun _ => lb_write b)) s) = snd (run t (lb_write (a ++ b)) s).
Proof.
  intros Hm Hs Ho Hn. destruct (reachable_open m s Hm Hs Ho) as (g & -> & _).
  rewrite run_bind, !run_write_absg by auto using empty_LL. cbn [snd].

  rewrite gwrite_app by assumption. reflexivity.
Qed.

Lemma c03_crlf m s t a b : 1 <= m -> reachable m s -> sclosed (last_line (dat s)) = false ->
  let s1 := snd (run t (lb_write (a ++ [13%N])) s) in
  (* cutting inside CR LF records one more, empty, line than not cutting *)
  snd (run t (lb_write ((a ++ [13%N]) ++ 10%N :: b)) s) = snd (run t (lb_write b) s1) /\
  snd (run t (lb_write (10%N :: b)) s1) =
    snd (run t (lb_write b)
      (mkst (mklbuf (dq_append (IStr []) (storage (dat s1))) (last_line (dat s1))) (lks s1))).
Proof.
  intros Hm Hs Ho s1. destruct (reachable_open m s Hm Hs Ho) as (g & -> & _). subst s1.
  destruct (gwrite_crlf a b g) as (E0 & E1 & E2).
  rewrite !run_write_absg by auto using empty_LL. cbn [snd].
  rewrite !run_write_absg by auto using empty_LL. cbn [snd].
  rewrite E1, E2. split; [reflexivity|].
  set (g1 := gwrite (a ++ [13%N]) g) in *. clearbody g1.
  assert (E : mkst (mklbuf (dq_append (IStr []) (storage (dat (cst m (absg m g1) stdpp.base.empty))))
     (last_line (dat (cst m (absg m g1) stdpp.base.empty)))) (lks (cst m (absg m g1) stdpp.base.empty))
     = cst m (absg m (mkslog (done g1 ++ [IStr []]) [])) stdpp.base.empty).
  { unfold cst, bd, absg. simpl. rewrite E0. unfold dq_append.
    pose proof (dq_append_spec (IStr []) (last_items m (done g1)) m) as H.
    rewrite last_items_length in H. specialize (H ltac:(lia) Hm). unfold dq_append in H.
    rewrite H, last_items_app_idem. reflexivity. }
  rewrite E, run_write_absg by auto using empty_LL. reflexivity.
Qed.

(** C04 *)
Lemma c04 m s : 1 <= m -> reachable m s ->
  length (dq (storage (dat s))) <= m /\
  (forall t r s', run t (lb_read None) s = (Good r, s') -> length r <= m) /\
  (forall t n r s', run t (lb_read (Some n)) s = (Good r, s') ->
      length r <= m /\ (Z.of_nat (length r) <= Z.max 0 n)%Z) /\
  (forall t, exists n, run t lb_len s = (Good n, s) /\ n <= m).
Proof.
  intros Hm Hs. destruct (reachable_inv m s Hm Hs) as ([q v cl] & -> & (_ & Hq & _)).
  cbn [aq] in Hq. unfold cst. cbn [aq av acl]. split; [exact Hq|]. split; [|split].
  - intros t r s' H. destruct cl; [rewrite run_read_closed in H by auto using empty_LL; discriminate|].
    rewrite run_read_open in H by auto using empty_LL. injection H as <- _.
    simpl. rewrite last_items_length. lia.
  - intros t n r s' H. destruct cl; [rewrite run_read_closed in H by auto using empty_LL; discriminate|].
    rewrite run_read_open in H by auto using empty_LL. injection H as <- _.
    simpl. destruct (Z.ltb_spec 0 n).
    + rewrite !last_items_length. lia.
    + simpl. lia.
  - intros t. rewrite run_len by auto using empty_LL. eexists; split; [reflexivity|]. lia.
Qed.

(** C05 *)
Lemma c05 m s t n : 1 <= m -> reachable m s ->
  match fst (run t (lb_read None) s) with
  | Good r => fst (run t (lb_read (Some n)) s) =
              Good (if (n <=? 0)%Z then [] else last_items (Z.to_nat n) r)
  | Fail e => e = OSError /\ fst (run t (lb_read (Some n)) s) = Fail OSError
  | Block => False
  end.
Proof.
  intros Hm Hs. destruct (reachable_inv m s Hm Hs) as ([q v cl] & -> & (_ & Hq & _)).
  cbn [aq] in Hq. unfold cst. cbn [aq av acl].
  destruct cl; [rewrite !run_read_closed by auto using empty_LL; split; reflexivity|].
  rewrite !run_read_open by auto using empty_LL. cbn [fst]. f_equal. simpl.
  destruct (Z.ltb_spec 0 n), (Z.leb_spec n 0); try lia; reflexivity.
Qed.

(** C06 *)
Lemma c06 m s t size : 1 <= m -> reachable m s ->
  snd (run t (lb_read size) s) = s.
Proof.
  intros Hm Hs. destruct (reachable_inv m s Hm Hs) as ([q v cl] & -> & (_ & Hq & _)).
  cbn [aq] in Hq. unfold cst. cbn [aq av acl].
  destruct cl; [rewrite !run_read_closed by auto using empty_LL; reflexivity|].
  rewrite !run_read_open by auto using empty_LL. reflexivity.
Qed.

Lemma c06_hist m s t size h : 1 <= m -> reachable m s ->
  run_hist ((t, Read size) :: h) s =
  (fst (run t (lb_call (Read size)) s) :: fst (run_hist h s), snd (run_hist h s)).
Proof.
  intros Hm Hs. cbn [run_hist].
  assert (E : snd (run t (lb_call (Read size)) s) = s).
  { cbn [lb_call]. pose proof (c06 m s t size Hm Hs) as H.
    destruct (run t (lb_read size) s) as [r s'] eqn:E. simpl in H. subst s'.
    rewrite (run_ret_as t RItems _ _ _ _ E). reflexivity. }
  destruct (run t (lb_call (Read size)) s) as [r s']. simpl in E. subst s'.
  destruct (run_hist h s) as [rs s2]. reflexivity.
Qed.

(** C07 *)
Lemma Forall_last_items {A} (P : A -> Prop) n l : Forall P l -> Forall P (last_items n l).
Proof.
  intros H. destruct (last_items_suffix n l) as [l0 E]. rewrite E in H.
  apply Forall_app in H. tauto.
Qed.

Definition itext (i : item) : Prop := exists x, i = IStr x /\ no_break x.
Definition aclean' (a : abuf) : Prop := Forall itext (aq a) /\ no_break (av a).

Lemma wlines_clean' v data : no_break v -> Forall itext (wlines v data) /\ no_break (wtail v data).
Proof.
  intros Hv. destruct (seg_no_break data) as [H1 H2]. unfold wlines, wtail.
  destruct (seg data) as [[|l ls] r]; simpl in *.
  - split; [constructor|]. apply Forall_app; auto.
  - apply Forall_cons_iff in H1. destruct H1 as [Hl Hls]. split; [|assumption].
    constructor.
    + eexists; split; [reflexivity|]. apply Forall_app; auto.
    + rewrite Forall_map. revert Hls. apply Forall_impl. intros x Hx. eexists; eauto.
Qed.

Lemma astep_clean' m c a : aclean' a -> aclean' (snd (astep m c a)).
Proof.
  intros [H1 H2]. destruct a as [q v cl]. simpl in *.
  destruct c; cbn [astep]; try (split; assumption); destruct cl; try (split; assumption).
  - destruct (wlines_clean' v data H2). split; simpl; [|assumption].
    apply Forall_last_items, Forall_app; auto.
  - destruct v; split; simpl; auto; try constructor.
    apply Forall_last_items, Forall_app; split; auto. constructor; [|constructor].
    eexists; eauto.
  - split; constructor.
  - split; constructor.
Qed.

Lemma ahist_clean' m h : forall a, aclean' a -> aclean' (snd (ahist m h a)).
Proof.
  induction h as [|[t c] h IH]; intros a Ha; [exact Ha|]. cbn [ahist].
  pose proof (astep_clean' m c a Ha) as Ha'. destruct (astep m c a) as [r a1]. cbn [snd] in Ha'.
  specialize (IH a1 Ha'). destruct (ahist m h a1) as [rs a2]. exact IH.
Qed.

Lemma c07 m s t size r s' : 1 <= m -> reachable m s ->
  run t (lb_read size) s = (Good r, s') ->
  Forall (fun i => exists x, i = IStr x /\ no_break x) r.
Proof.
  intros Hm [h ->]. rewrite fresh_cst, run_hist_ahist; [|apply empty_LL|apply a0_ok; auto].
  simpl snd. pose proof (ahist_ok m h a0 (a0_ok m Hm)) as Ho.
  assert (Hc : aclean' (snd (ahist m h a0))) by (apply ahist_clean'; split; constructor).
  destruct (snd (ahist m h a0)) as [q v cl]. destruct Ho as (_ & Hq & _). destruct Hc as [Hc1 Hc2].
  unfold cst. cbn [aq av acl] in *. intros H.
  destruct cl; [rewrite run_read_closed in H by auto using empty_LL; discriminate|].
  rewrite run_read_open in H by auto using empty_LL. injection H as <- _.
  assert (Hall : Forall itext (last_items m (q ++ opt_item v))).
  { apply Forall_last_items, Forall_app; split; [assumption|]. destruct v; constructor; [|constructor].
    eexists; eauto. }
  destruct size as [z|]; simpl; [|exact Hall].
  destruct (0 <? z)%Z; [|constructor]. apply Forall_last_items, Hall.
Qed.

(** C08 *)
Lemma c08 m s t : 1 <= m -> reachable m s -> sclosed (last_line (dat s)) = false ->
  (sval (last_line (dat s)) = [] -> run t lb_new_line s = (Good tt, s)) /\
  (sval (last_line (dat s)) <> [] ->
     run t lb_new_line s = (Good tt, snd (run t (lb_write [10%N]) s))) /\
  (let s1 := snd (run t lb_new_line s) in
   sval (last_line (dat s1)) = [] /\ run t lb_new_line s1 = (Good tt, s1)).
Proof.
  intros Hm Hs Ho. destruct (reachable_inv m s Hm Hs) as ([q v cl] & -> & (_ & Hq & _)).
  unfold cst in *. cbn [aq av acl] in *. cbn in Ho. subst cl.
  split; [|split].
  - intros Hv. cbn in Hv. subst v. rewrite run_new_line_open by auto using empty_LL. reflexivity.
  - intros Hv. cbn in Hv. rewrite run_new_line_open by auto using empty_LL.
    rewrite run_write_open by auto using empty_LL. unfold wlines, wtail.
    change (seg [10%N]) with ([@nil N], @nil N). cbv iota. rewrite app_nil_r.
    destruct v; [congruence|]. reflexivity.
  - rewrite run_new_line_open by auto using empty_LL. destruct v as [|c v]; cbn [snd].
    + split; [reflexivity|]. rewrite run_new_line_open by auto using empty_LL. reflexivity.
    + split; [reflexivity|]. rewrite run_new_line_open; auto using empty_LL.
      rewrite last_items_length. lia.
Qed.

(** C09 *)
Lemma c09 m s t : 1 <= m -> reachable m s -> sclosed (last_line (dat s)) = false ->
  exists n r, run t lb_len s = (Good n, s) /\ run t (lb_read None) s = (Good r, s) /\
    (sval (last_line (dat s)) <> [] \/ length (dq (storage (dat s))) = m -> n = length r) /\
    (sval (last_line (dat s)) = [] -> length (dq (storage (dat s))) <> m -> n = length r + 1).
Proof.
  intros Hm Hs Ho. destruct (reachable_inv m s Hm Hs) as ([q v cl] & -> & (_ & Hq & _)).
  unfold cst in *. cbn [aq av acl] in *. cbn in Ho. subst cl.
  rewrite run_len, run_read_open by auto using empty_LL.
  do 2 eexists. split; [reflexivity|]. split; [reflexivity|]. cbn -[last_items].
  rewrite last_items_length, app_length. split.
  - intros [H|H].
    + destruct v; [congruence|]. simpl. lia.
    + destruct v; simpl; lia.
  - intros -> H. simpl. lia.
Qed.

(** C10 *)
Lemma single_break_spec data : single_break data = true <-> segments data [[]] [].
Proof.
  rewrite segments_iff. unfold single_break. split.
  - destruct (seg data) as [[|[|] [|]] [|]]; try discriminate. reflexivity.
  - intros ->. reflexivity.
Qed.

Lemma no_break_seg data : no_break data -> seg data = ([], data).
Proof. intros H. apply segments_seg. constructor. exact H. Qed.

Lemma c10 m s t data : 1 <= m -> reachable m s -> sclosed (last_line (dat s)) = false ->
  exists n s', run t (lb_write data) s = (Good n, s') /\
    (data = [] -> n = 0) /\
    (segments data [[]] [] -> n = 1) /\
    (no_break data -> n = length data) /\
    (forall ls r, segments data ls r -> ls <> [] -> ~ segments data [[]] [] -> n = length r).
Proof.
  intros Hm Hs Ho. destruct (reachable_open m s Hm Hs Ho) as (g & -> & _).
  rewrite run_write_absg by auto using empty_LL. do 2 eexists. split; [reflexivity|].
  unfold wres. repeat split.
  - intros ->. reflexivity.
  - intros H. apply single_break_spec in H. rewrite H. reflexivity.
  - intros H. apply no_break_seg in H. unfold single_break. rewrite H. reflexivity.
  - intros ls r H _ Hn. destruct (single_break data) eqn:E.
    + apply single_break_spec in E. contradiction.
    + apply segments_seg in H. rewrite H. reflexivity.
Qed.

(** C11 *)
Lemma astep_closed m c : astep m c (mkabuf [] [] true) = (closed_answer m c, mkabuf [] [] true).
Proof. destruct c; reflexivity. Qed.

Lemma ahist_closed m h : ahist m h (mkabuf [] [] true) =
  (map (fun tc => closed_answer m (snd tc)) h, mkabuf [] [] true).
Proof.
  induction h as [|[t c] h IH]; [reflexivity|]. cbn [ahist]. rewrite astep_closed, IH. reflexivity.
Qed.

Lemma c11 m s t h : 1 <= m -> reachable m s ->
  fst (run t lb_close s) = Good tt /\
  let s1 := snd (run t lb_close s) in
  run_hist h s1 = (map (fun tc => closed_answer m (snd tc)) h, s1).
Proof.
  intros Hm Hs. destruct (reachable_inv m s Hm Hs) as ([q v cl] & -> & (_ & Hq & Hc)).
  unfold cst in *. cbn [aq av acl] in *.
  assert (E : run t lb_close (mkst (bd m q v cl) stdpp.base.empty) =
              (Good tt, cst m (mkabuf [] [] true) stdpp.base.empty)).
  { destruct cl.
    - destruct (Hc eq_refl) as [-> ->]. rewrite run_close_closed by auto using empty_LL. reflexivity.
    - rewrite run_close_open by auto using empty_LL. reflexivity. }
  rewrite E. split; [reflexivity|]. cbn [snd]. cbv zeta.
  rewrite run_hist_ahist; [|apply empty_LL|].
  - rewrite ahist_closed. reflexivity.
  - repeat split; simpl; auto. lia.
Qed.

(** C12 *)
Lemma c12 m s t : 1 <= m -> reachable m s -> sclosed (last_line (dat s)) = false ->
  run t lb_clear s = (Good tt, fresh m).
Proof.
  intros Hm Hs Ho. destruct (reachable_open m s Hm Hs Ho) as (g & -> & _).
  unfold cst. cbn [absg aq av acl]. rewrite run_clear_open by auto using empty_LL. reflexivity.
Qed.

(** C13 *)
Lemma c13 s : is_end_line_break s = true <-> exists s' c, s = s' ++ [c] /\ line_break c.
Proof.
  split.
  - destruct s as [|c s] using rev_ind; [discriminate|]. rewrite is_end_line_break_app.
    intros H. apply is_break_spec in H. eauto.
  - intros (s' & c & -> & H). rewrite is_end_line_break_app. apply is_break_spec. exact H.
Qed.

(** C14 *)
Lemma c14 v :
  match lb_init v with
  | Good s => exists z, as_int v = Some z /\ (1 <= z)%Z /\
      forall h t, fst (run t (lb_call Maxlen) (snd (run_hist h s))) = Good (RNat (Z.to_nat z))
  | Fail e => e = TypeError /\ (as_int v = None \/ exists z, as_int v = Some z /\ (z < 1)%Z)
  | Block => False
  end.
Proof.
  unfold lb_init. destruct (as_int v) as [z|] eqn:E; [|auto].
  destruct (Z.ltb_spec z 1) as [H|H]; [split; eauto|].
  exists z. split; [reflexivity|]. split; [lia|]. intros h t.
  change (mkst _ _) with (fresh (Z.to_nat z)).
  rewrite fresh_cst, run_hist_ahist; [|apply empty_LL|apply a0_ok; lia].
  reflexivity.
Qed.
