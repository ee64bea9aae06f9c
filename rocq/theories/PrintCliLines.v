(** * PrintCliLines: clients that print whole lines *)
From stdpp Require Import gmap.
From Coq Require Import List NArith ZArith Bool Arith Lia.
From Verif Require Import Prog PyStr Base Spec Proc ProcSpec ProcPool ProcPoolProofs ProcMore.
From Verif Require Import PrintSpec PrintPoolProofs.
From Verif Require Import PyIO SpecFacts LineBuf Json JsonSpec JsonFacts Host HostSpec HostFacts HostProofs HostCli HostCliSpec HostCliFacts HostCliProofs HostCliConc HostReads
  Ctx Print PrintSpec PrintProofs PrintPool PrintCli PrintCliProofs.
Import ListNotations.
Local Open Scope nat_scope.

(** ** The messages of mirrors as those of a queue *)
Definition as_msg (x : hmsg) : msg :=
  match x with HText (JStr s) => QStr s | HNote _ m => QError m | HEof => QClose | _ => QOther end.
Definition of_mirror (x : hmsg) : Prop := match x with HText (JStr _) | HNote _ _ | HEof => True | _ => False end.
Lemma recorded_hlog E ms : Forall of_mirror ms -> forall is dn g, recorded (map as_msg ms) is -> hmsg_steps E ms (mkslog dn []) g -> g = mkslog (dn ++ is) [].
Proof.
  induction 1 as [|x ms Hx _ IH]; intros is dn g Hr Hs.
  - inversion Hr; subst. inversion Hs; subst. rewrite app_nil_r. reflexivity.
  - inversion Hs as [|o os ga gb gc H1 H2]; subst. destruct x as [v|error e| |]; [destruct v as [| | |s| |]; try contradiction| | |contradiction]; cbn [map as_msg] in Hr.
    + inversion Hr as [|s0 ls xs is' Hseg Hr'|e xs is' Hr'|e xs is' Hr'|y xs is' Hy Hr']; subst; [|cbn in Hy; intuition discriminate].
      inversion H1; subst. match goal with A : log_write _ _ _ |- _ => cbn [py_str] in A; apply (log_write_complete _ _ _ _ Hseg) in A; subst end.
      apply (IH _ _ _ Hr') in H2. rewrite <- app_assoc in H2. exact H2.
    + inversion Hr as [|s0 ls xs is' Hseg Hr'|e0 xs is' Hr'|e0 xs is' Hr'|y xs is' Hy Hr']; subst; [|cbn in Hy; intuition discriminate].
      inversion H1 as [|? ? ? ? Hn| |]; subst. inversion Hn as [ga g1 Hl E1]; subst. inversion Hl; subst; [|congruence].
      apply (IH _ _ _ Hr') in H2. cbn [done pend] in H2. rewrite <- app_assoc in H2. exact H2.
    + inversion Hr as [| | | |y xs is' Hy Hr']; subst. inversion H1 as [| |? ? Hl|]; subst. inversion Hl; subst; [|congruence].
      apply (IH _ _ _ Hr') in H2. exact H2.
Qed.
Lemma recorded_split xs : forall ys is, recorded (xs ++ ys) is -> exists a b, is = a ++ b /\ recorded xs a /\ recorded ys b.
Proof.
  induction xs as [|x xs IH]; intros ys is H; [exists [], is; split; [reflexivity|]; split; [constructor|exact H]|].
  cbn [app] in H. destruct (recorded_cons _ _ _ H) as (h & r & -> & H1 & H2). destruct (IH _ _ H1) as (a & b & -> & H3 & H4).
  exists (h ++ a), b. split; [apply app_assoc|]. split; [apply H2, H3|exact H4].
Qed.

(** ** The messages of one client *)
Lemma writes_sent ts : forall v ms rs x', mcalls_do false (map HWrite ts) (Some v) ms rs x' ->
  exists ds v', sent_by v ts ds v' /\ ms = map says_text ds /\ x' = Some v'.
Proof.
  induction ts as [|t ts IH]; intros v ms rs x' H.
  - inversion H; subst. exists [], v. split; [constructor|auto].
  - cbn [map] in H. inversion H as [|c cs x ms1 r x1 ms2 rs2 x2 H1 H2]; subst.
    apply write_inv in H1. destruct H1 as (-> & [(A1 & A2 & -> & ->)|[(A1 & A2 & -> & ->)|(A1 & _)]]); [| |discriminate].
    + destruct (IH _ _ _ _ H2) as (ds & v' & I1 & I2 & I3). exists ds, v'. split; [constructor; assumption|auto].
    + destruct (IH _ _ _ _ H2) as (ds & v' & I1 & I2 & I3). exists ((v ++ t) :: ds), v'. split; [constructor; assumption|]. subst. auto.
Qed.
Lemma mcalls_split aggr cs1 : forall cs2 x ms rs x', mcalls_do aggr (cs1 ++ cs2) x ms rs x' ->
  exists ms1 rs1 y ms2 rs2, ms = ms1 ++ ms2 /\ mcalls_do aggr cs1 x ms1 rs1 y /\ mcalls_do aggr cs2 y ms2 rs2 x'.
Proof.
  induction cs1 as [|c cs1 IH]; intros cs2 x ms rs x' H.
  - exists [], [], x, ms, rs. split; [reflexivity|]. split; [constructor|exact H].
  - cbn [app] in H. inversion H as [|c0 cs x0 ma r x1 mb rsb x2 H1 H2]; subst. destruct (IH _ _ _ _ _ H2) as (m1 & r1 & y & m2 & r2 & -> & I1 & I2).
    exists (ma ++ m1), (r :: r1), y, m2, r2. split; [apply app_assoc|]. split; [econstructor; eassumption|exact I2].
Qed.
Lemma sent_plain v ts ds v' : sent_by v ts ds v' -> plain v -> Forall plain ts -> Forall plain ds /\ plain v'.
Proof.
  induction 1 as [v|v t ts ds v' Ht H IH|v t ts ds v' Ht H IH]; intros Hv Hl.
  - auto.
  - apply List.Forall_cons_iff in Hl. destruct Hl as [H1 H2]. apply IH; [apply plain_app; auto|exact H2].
  - apply List.Forall_cons_iff in Hl. destruct Hl as [H1 H2]. destruct (IH ltac:(constructor) H2) as [I1 I2]. split; [|exact I2].
    constructor; [apply plain_app; auto|exact I1].
Qed.
Lemma says_plain ds : Forall plain ds -> map as_msg (map says_text ds) = map QStr ds.
Proof.
  induction 1 as [|s ds Hs _ IH]; [reflexivity|]. cbn [map]. rewrite IH. unfold says_text. cbn [as_msg]. rewrite wire_plain by exact Hs. reflexivity.
Qed.
Lemma told_plain exc k j b l r : told exc (Some k) (Some k) b l r -> Forall plain (code_texts b) -> Forall plain (texts_to j l).
Proof. intros H Hp. eapply told_texts; eassumption. Qed.

Lemma client_lines exc j l r ms : hm_aggr (hj_mir j) = false -> Forall whole_lines (code_texts (hj_code j)) -> Forall plain (code_texts (hj_code j)) ->
  client_says exc j l r ms -> Forall of_mirror ms /\ exists items, client_prints exc j items /\ recorded (map as_msg ms) items.
Proof.
  intros Hag Hl Hp (H1 & rs & H2). rewrite Hag in H2. apply mcalls_split in H2. destruct H2 as (ms1 & rs1 & y & ms2 & rs2 & -> & W1 & W2).
  destruct (writes_sent _ _ _ _ _ W1) as (ds & v & S1 & -> & ->).
  pose proof (told_texts _ _ (hj_obj j) _ _ _ _ _ (proj1 H1) Hl) as Ht.
  pose proof (told_texts _ _ (hj_obj j) _ _ _ _ _ (proj1 H1) Hp) as Htp.
  destruct (sent_plain _ _ _ _ S1 ltac:(constructor) Htp) as [P1 P2].
  destruct (sent_lines _ _ _ _ S1 ltac:(constructor) Ht) as (Hv & is & H3 & H4). specialize (H4 []).
  assert (Hms2 : ms2 = says_line v ++ [match exc_value r with Some e => says_exc true e | None => HEof end]).
  { inversion W2 as [|c cs x ma r0 x1 mb rsb x2 K1 K2]; subst. inversion K2; subst. rewrite app_nil_r.
    destruct (exc_value r); inversion K1; subst; try reflexivity; 
      repeat match goal with A : _ \/ _ |- _ => destruct A | A : exists _, _ |- _ => destruct A end; try discriminate;
      match goal with A : In _ _ |- _ => cbn in A; intuition congruence end. }
  subst ms2. split.
  { apply List.Forall_app. split; [apply List.Forall_map, List.Forall_forall; intros; exact I|]. apply List.Forall_app. split.
    - destruct v; repeat constructor.
    - destruct (exc_value r); repeat constructor. }
  set (last := match exc_value r with Some e => [IMsg (wire_msg (gm_init (GMExc e)))] | None => [] end).
  assert (He : recorded (map as_msg [match exc_value r with Some e => says_exc true e | None => HEof end]) last).
  { unfold last. destruct (exc_value r); [repeat constructor|]. apply re_other; [simpl; auto|constructor]. }
  assert (Hn : exists ns, log_new_line (mkslog is v) (mkslog (is ++ ns) []) /\ recorded (map as_msg (says_line v)) ns).
  { destruct v as [|c v].
    - exists []. rewrite app_nil_r. split; constructor.
    - exists [IStr (c :: v)]. split; [constructor; discriminate|]. unfold says_line, says_text. cbn [map as_msg].
      rewrite wire_plain by (apply plain_app; split; [exact P2|]; repeat constructor; lia).
      apply (re_str _ [c :: v] [] []); [|constructor].
      rewrite <- (app_nil_r [10%N]). apply seg_line; [exact Hv| |constructor; constructor].
      apply term_one; [vm_compute; auto|]. intros [? ?]; discriminate. }
  destruct Hn as (ns & N1 & N2).
  exists ((is ++ ns) ++ last). split.
  - exists l, r, (mkslog is v), (is ++ ns), []. split; [exact H1|]. split; [exact H4|]. split; [exact N1|reflexivity].
  - rewrite !map_app, says_plain by exact P1. rewrite <- app_assoc. apply recorded_app; [exact H3|]. apply recorded_app; [exact N2|exact He].
Qed.

(** ** All clients *)
Definition rec_of (x : msg) : list item :=
  match x with QStr s => map IStr (fst (seg s)) | QError e | QWarning e => [IMsg e] | _ => [] end.
Lemma recorded_rec xs is : recorded xs is -> is = flat_map rec_of xs.
Proof.
  induction 1 as [|s ls xs is Hs H IH|e xs is H IH|e xs is H IH|x xs is Hx H IH]; cbn [flat_map rec_of]; [reflexivity| | | |].
  - apply segments_iff in Hs. rewrite Hs, IH. reflexivity.
  - rewrite IH. reflexivity.
  - rewrite IH. reflexivity.
  - cbn in Hx. destruct Hx as [<-|[<-|[<-|[]]]]; exact IH.
Qed.
Definition hrec (x : hmsg) : list item := rec_of (as_msg x).
Lemma hrecorded ms is : recorded (map as_msg ms) is -> is = flat_map hrec ms.
Proof. intros H. apply recorded_rec in H. subst is. induction ms as [|x ms IH]; [reflexivity|]. cbn. rewrite IH. reflexivity. Qed.
Definition tagged (order : list (nat * hmsg)) : list (nat * item) := flat_map (fun x => map (pair (fst x)) (hrec (snd x))) order.
Lemma tagged_app a b : tagged (a ++ b) = tagged a ++ tagged b.
Proof. apply flat_map_app. Qed.
Lemma tagged_snd order : map snd (tagged order) = flat_map hrec (map snd order).
Proof.
  induction order as [|[k x] order IH]; [reflexivity|]. unfold tagged in *. cbn [flat_map map fst snd]. rewrite map_app, IH. f_equal.
  induction (hrec x) as [|y l IHl]; cbn; congruence.
Qed.
Lemma tagged_events k order : events_of k (tagged order) = flat_map hrec (events_of k order).
Proof.
  induction order as [|[i x] order IH]; [reflexivity|]. change ((i, x) :: order) with ([(i, x)] ++ order) at 1. rewrite tagged_app, Conc.events_of_app, IH.
  unfold tagged. cbn [flat_map fst snd]. rewrite app_nil_r. unfold events_of at 2 3. cbn [List.filter fst].
  destruct (Nat.eqb_spec i k) as [->|Hne].
  - cbn [map snd flat_map]. f_equal. apply events_own.
  - rewrite events_not by exact Hne. reflexivity.
Qed.
(** Of any part. *)
Definition part_ok (ms : list hmsg) : Prop := Forall of_mirror ms /\ recorded (map as_msg ms) (flat_map hrec ms).
Lemma part_split a b : part_ok (a ++ b) -> part_ok a /\ part_ok b.
Proof.
  intros [H1 H2]. apply List.Forall_app in H1. rewrite map_app in H2. apply recorded_split in H2. destruct H2 as (x & y & E & H3 & H4).
  pose proof (hrecorded _ _ H3). pose proof (hrecorded _ _ H4). subst x y. unfold part_ok. tauto.
Qed.
Lemma part_app a b : part_ok a -> part_ok b -> part_ok (a ++ b).
Proof.
  intros [H1 H2] [H3 H4]. split; [apply List.Forall_app; auto|]. rewrite map_app, flat_map_app. apply recorded_app; assumption.
Qed.
Lemma part_all order : (forall k, part_ok (events_of k order)) -> part_ok (map snd order).
Proof.
  induction order as [|[k x] order IH]; intros H; [split; constructor|]. cbn [map snd]. change (x :: map snd order) with ([x] ++ map snd order).
  assert (Hs : forall j, part_ok (events_of j [(k, x)]) /\ part_ok (events_of j order)).
  { intros j. apply part_split. rewrite <- Conc.events_of_app. apply (H j). }
  apply part_app; [|apply IH; intros j; apply Hs]. destruct (Hs k) as [H1 _]. unfold events_of in H1. cbn in H1. rewrite Nat.eqb_refl in H1. exact H1.
Qed.

Section Lines.
  Variable E : henv.
  #[local] Hint Extern 0 (Sem ccmd world) => exact (clisem E) : typeclass_instances.

  Lemma log_of_part ms dn g : part_ok ms -> hmsg_steps E ms (mkslog dn []) g -> g = mkslog (dn ++ flat_map hrec ms) [].
  Proof. intros [H1 H2] H. eapply recorded_hlog; eassumption. Qed.

  Lemma lines_along m dn order cs rs : 1 <= m -> (forall i, In i dn -> ~ is_raw i) -> part_ok (map snd order) ->
    (exists g, hmsg_steps E (map snd order) (mkslog dn []) g) ->
    forall q, reads_along E m (mkslog dn []) order q cs rs ->
    lines_read m (dn ++ flat_map hrec (map snd order)) (length dn + length (flat_map hrec (map snd (firstn q order)))) cs rs.
  Proof.
    intros Hm Hraw Hp [g Hg] q H. induction H as [q|q q' c cs r rs Hq Hr _ IH]; [constructor|].
    assert (Hle : forall a b, a <= b -> length (flat_map hrec (map snd (firstn a order))) <= length (flat_map hrec (map snd (firstn b order)))).
    { intros a b Hab. destruct (firstn_split a b order Hab) as [more ->]. rewrite map_app, flat_map_app, app_length. lia. }
    assert (Hmono : forall a b cs rs, a <= b -> lines_read m (dn ++ flat_map hrec (map snd order)) b cs rs -> lines_read m (dn ++ flat_map hrec (map snd order)) a cs rs).
    { clear. intros a b cs rs Hab H. revert a Hab. induction H; intros a Hab; constructor; auto. lia. }
    destruct c as [size| | | | | |]; try (constructor; [discriminate|]; eapply Hmono; [|exact IH]; apply Nat.add_le_mono_l, Hle; lia).
    assert (Ho : map snd order = map snd (firstn q' order) ++ map snd (skipn q' order)) by (rewrite <- map_app, firstn_skipn; reflexivity).
    pose proof Hp as Hp'. rewrite Ho in Hp'. apply part_split in Hp'. pose proof Hg as Hg'. rewrite Ho in Hg'. apply hmsg_steps_split in Hg'. destruct Hg' as (g1 & G1 & _).
    rewrite (read_after E m (mkslog dn []) order Hm size q' r g1 Hraw Hr G1). apply (log_of_part _ _ _ (proj1 Hp')) in G1. subst g1.
    replace (mkslog (dn ++ flat_map hrec (map snd (firstn q' order))) [])
      with (mkslog (firstn (length dn + length (flat_map hrec (map snd (firstn q' order)))) (dn ++ flat_map hrec (map snd order))) []).
    - constructor; [|exact IH]. split; [apply Nat.add_le_mono_l, Hle; lia|]. rewrite app_length. apply Nat.add_le_mono_l.
      rewrite <- (firstn_all order) at 2. apply Hle. lia.
    - f_equal. rewrite firstn_app_2. f_equal. rewrite Ho, flat_map_app, firstn_app, Nat.sub_diag, firstn_all. cbn [firstn]. apply app_nil_r.
  Qed.

  Lemma c92_lines m g0 exc ws w sch ps' s' : 1 <= m -> clients_ok ws w -> line_clients ws -> server E m (w_srv w) g0 false -> w_faults w = [] ->
    pend g0 = [] -> sched_run sch (print_clients exc ws, mkst (w : world) ∅) = Some (ps', s') ->
    exists li : list (nat * item),
      server E m (w_srv (dat s')) (mkslog (done g0 ++ map snd li) []) false /\
      (forall i x, In (i, x) li -> exists j, nth_error ws i = Some (Prints j)) /\
      (forall i j, nth_error ws i = Some (Prints j) ->
         (exists rest, client_prints exc j (events_of i li ++ rest)) /\
         (forall p, nth_error ps' i = Some p -> finished p = true -> client_prints exc j (events_of i li))) /\
      ((forall x, In x (done g0) -> ~ is_raw x) ->
       forall i cs p, nth_error ws i = Some (Reads cs) -> nth_error ps' i = Some p -> finished p = true ->
         exists rs, p = Ret (CRead rs) /\ lines_read m (done g0 ++ map snd li) (length (done g0)) cs rs).
  Proof.
    intros Hm Hok Hl Hs Hu Hp Hr.
    destruct (c92_any_time E m g0 exc ws w sch ps' s' Hm Hok Hs Hu Hr) as (order & g & T1 & T2 & T3 & T4 & T5 & _).
    assert (Hin : forall i j, nth_error ws i = Some (Prints j) -> In (Prints j) ws) by (intros i j H; eapply nth_error_In, H).
    assert (Hc : forall i j l r ms, nth_error ws i = Some (Prints j) -> client_says exc j l r ms -> part_ok ms /\ client_prints exc j (flat_map hrec ms)).
    { intros i j l r ms Hw H. destruct (Hl j (Hin i j Hw)) as (L1 & L2 & L3). destruct (client_lines exc j l r ms L1 L2 L3 H) as (K1 & items & K2 & K3).
      pose proof (hrecorded _ _ K3). subst items. split; [split; assumption|exact K2]. }
    assert (Hpart : part_ok (map snd order)).
    { apply part_all. intros k. destruct (events_of k order) as [|x xs] eqn:Ek; [split; constructor|].
      assert (Hk : In (k, x) order).
      { assert (H : In x (events_of k order)) by (rewrite Ek; left; reflexivity). unfold events_of in H. apply in_map_iff in H.
        destruct H as ([k' x'] & E1 & H). apply filter_In in H. destruct H as [H H']. apply Nat.eqb_eq in H'. cbn in *. subst. exact H. }
      destruct (T3 k x Hk) as [j Hw]. destruct (T4 k j Hw) as [(rest & l & r & H) _]. rewrite Ek in H.
      destruct (Hc k j l r _ Hw H) as [H' _]. apply part_split in H'. apply H'. }
    destruct g0 as [dn pe]. cbn [done pend] in *. subst pe.
    pose proof (log_of_part _ _ _ Hpart T1) as ->.
    exists (tagged order). rewrite tagged_snd. split; [exact T2|]. split.
    { intros i x Hx. unfold tagged in Hx. apply in_flat_map in Hx. destruct Hx as ([k y] & H1 & H2). apply in_map_iff in H2.
      destruct H2 as (z & E1 & _). cbn in E1. injection E1 as <- _. eapply T3, H1. }
    split.
    { intros i j Hw. rewrite tagged_events. destruct (T4 i j Hw) as [(rest & l & r & H) H']. split.
      - destruct (Hc i j l r _ Hw H) as [_ K]. rewrite flat_map_app in K. eauto.
      - intros p Hp Hfin. destruct (H' p Hp Hfin) as (l' & r' & s2 & _ & K & _). apply (Hc i j l' r' _ Hw K). }
    intros Hraw i cs p Hw Hp Hfin. destruct (T5 i cs p Hw Hp Hfin) as (rs & -> & H). exists rs. split; [reflexivity|].
    pose proof (lines_along m dn order cs rs Hm Hraw Hpart (ex_intro _ _ T1) 0 H) as K. cbn [firstn map flat_map length] in K. rewrite Nat.add_0_r in K. exact K.
  Qed.
End Lines.
