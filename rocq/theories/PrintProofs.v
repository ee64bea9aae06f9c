(** * PrintProofs: proofs about printing inside contexts *)
From stdpp Require Import gmap.
From Coq Require Import List NArith Bool Arith Lia.
From Verif Require Import PyStr Prog Base Spec LineBuf Ctx CtxProofs Print PrintSpec.
Import ListNotations.
Local Open Scope nat_scope.

Lemma effects_nil_inv {W} (C : classes W) w w' : effects C w [] w' -> w' = w.
Proof. inversion 1. reflexivity. Qed.
Lemma effects_cons_inv {W} (C : classes W) w x l w' : effects C w (x :: l) w' ->
  exists w1, effects C w1 l w' /\
    match x with
    | Wrote o data r => c_write C o data w = (r, w1)
    | Left o e r => c_exit C o e w = (r, w1)
    | Happened n => w1 = c_event C n w
    end.
Proof. inversion 1; subst; eauto. Qed.
Lemma effects_app {W} (C : classes W) w l1 w1 l2 w2 :
  effects C w l1 w1 -> effects C w1 l2 w2 -> effects C w (l1 ++ l2) w2.
Proof. induction 1; intros H2; [exact H2| | |]; econstructor; eauto. Qed.

Definition keeps (b : code) (s s' : sys) : Prop :=
  out s' = out s /\ err s' = err s /\
  (forall o, ~ In o (entered b) -> saved s' o = saved s o) /\ (forall o, olds s' o = olds s o).

Lemma kexec_told {W} (C : classes W) b : well_nested b -> forall s w,
  let '(r, s', w') := kexec C b s w in
  exists l, told (c_exc C) (out s) (err s) b l r /\ effects C w l w' /\ (r <> Hangs -> keeps b s s').
Proof.
  induction b as [|te data|n|e|b1 IH1 b2 IH2|b IH|m b IH]; intros Hn s w; cbn [kexec].
  - exists []. split; [constructor|]. split; [constructor|]. intros _. repeat split.
  - unfold target. destruct te.
    + destruct (err s) as [o|] eqn:Ey.
      * destruct (c_write C o data w) as [x w1] eqn:Ew.
        assert (H : exists l, told (c_exc C) (out s) (Some o) (KPut true data) l (after_call (c_exc C) x Ends) /\ effects C w l w1).
        { eexists. split; [apply t_err; reflexivity|]. econstructor; [exact Ew|constructor]. }
        destruct H as (l & H1 & H2). destruct x; exists l; (split; [exact H1|split; [exact H2|]]); repeat split.
      * destruct (out s) as [o|] eqn:Ex.
        -- destruct (c_write C o data w) as [x w1] eqn:Ew.
           assert (H : exists l, told (c_exc C) (Some o) None (KPut true data) l (after_call (c_exc C) x Ends) /\ effects C w l w1).
           { eexists. split; [apply t_err_out; reflexivity|]. econstructor; [exact Ew|constructor]. }
           destruct H as (l & H1 & H2). destruct x; exists l; (split; [exact H1|split; [exact H2|]]); repeat split.
        -- exists []. split; [constructor|]. split; [constructor|]. repeat split.
    + destruct (out s) as [o|] eqn:Ex.
      * destruct (c_write C o data w) as [x w1] eqn:Ew.
        assert (H : exists l, told (c_exc C) (Some o) (err s) (KPut false data) l (after_call (c_exc C) x Ends) /\ effects C w l w1).
        { eexists. split; [apply t_out; reflexivity|]. econstructor; [exact Ew|constructor]. }
        destruct H as (l & H1 & H2). destruct x; exists l; (split; [exact H1|split; [exact H2|]]); repeat split.
      * exists []. split; [constructor|]. split; [constructor|]. repeat split.
  - exists [Happened n]. split; [constructor|]. split; [repeat constructor|]. repeat split.
  - exists []. split; [constructor|]. split; [constructor|]. repeat split.
  - destruct Hn as [Hn1 Hn2]. specialize (IH1 Hn1 s w). destruct (kexec C b1 s w) as [[r1 s1] w1].
    destruct IH1 as (l1 & H1 & He1 & Hk1). cbn [entered].
    assert (Hmono : forall s2, keeps b1 s s2 -> keeps (KSeq b1 b2) s s2).
    { intros s2 (K1 & K2 & K3 & K4). repeat split; auto. intros o Ho. apply K3. intros H. apply Ho. cbn [entered].
      apply in_or_app. left. exact H. }
    destruct r1.
    + destruct (Hk1 ltac:(discriminate)) as (K1 & K2 & K3 & K4).
      specialize (IH2 Hn2 s1 w1). destruct (kexec C b2 s1 w1) as [[r2 s2] w2].
      destruct IH2 as (l2 & H2 & He2 & Hk2). exists (l1 ++ l2). rewrite K1, K2 in H2.
      split; [econstructor; eassumption|]. split; [eapply effects_app; eassumption|]. intros Hr.
      destruct (Hk2 Hr) as (J1 & J2 & J3 & J4). split; [congruence|]. split; [congruence|]. split.
      * intros o Ho. cbn [entered] in Ho. rewrite J3, K3; [reflexivity| |]; intros H; apply Ho, in_or_app; auto.
      * intros o. rewrite J4. apply K4.
    + exists l1. split; [apply t_stop; [discriminate|exact H1]|]. split; [exact He1|]. intros Hr. apply Hmono, Hk1, Hr.
    + exists l1. split; [apply t_stop; [discriminate|exact H1]|]. split; [exact He1|]. intros Hr. congruence.
  - specialize (IH Hn s w). destruct (kexec C b s w) as [[r s1] w1]. destruct IH as (l & H & He & Hk).
    destruct r; exists l.
    + split; [apply t_try; [left; reflexivity|exact H]|]. split; [exact He|]. exact Hk.
    + split; [eapply t_caught; exact H|]. split; [exact He|]. intros _. apply Hk. discriminate.
    + split; [apply t_try; [right; reflexivity|exact H]|]. split; [exact He|]. exact Hk.
  - destruct m as [o|o t|o t]; cbn [well_nested entered] in *.
    + destruct Hn as [Hi Hn]. specialize (IH Hn (enter (Buf o) s) w).
      destruct (kexec C b (enter (Buf o) s) w) as [[r s1] w1]. destruct IH as (l & H & He & Hk).
      cbn [enter out err] in H.
      assert (Hl : r <> Hangs -> forall s2, s2 = leave (Buf o) s1 -> keeps (KWith (Buf o) b) s s2).
      { intros Hr s2 ->. destruct (Hk Hr) as (K1 & K2 & K3 & K4). cbn [enter out err saved olds] in *.
        unfold keeps. cbn [leave out err saved olds entered]. rewrite (K3 o Hi), upd_same. cbn [fst snd].
        split; [reflexivity|]. split; [reflexivity|]. split; [|exact K4]. intros o' Ho'.
        rewrite upd_other by (intros ->; apply Ho'; left; reflexivity).
        rewrite K3 by (intros Hb; apply Ho'; right; exact Hb). apply upd_other. intros ->. apply Ho'. left. reflexivity. }
      destruct r.
      * cbn [exc_value]. destruct (c_exit C o None w1) as [x w2] eqn:Ee.
        assert (T : told (c_exc C) (out s) (err s) (KWith (Buf o) b) (l ++ [Left o None x]) (after_call (c_exc C) x Ends)).
        { apply (t_buf (c_exc C) _ _ o b l Ends x); [discriminate|exact H]. }
        assert (F : effects C w (l ++ [Left o None x]) w2).
        { eapply effects_app; [exact He|]. econstructor; [exact Ee|constructor]. }
        destruct x; (eexists; split; [exact T|split; [exact F|]]); intros Hx; try congruence;
          (eapply Hl; [discriminate|reflexivity]).
      * cbn [exc_value]. destruct (c_exit C o (Some e) w1) as [x w2] eqn:Ee.
        assert (T : told (c_exc C) (out s) (err s) (KWith (Buf o) b) (l ++ [Left o (Some e) x]) (after_call (c_exc C) x (Throws e))).
        { apply (t_buf (c_exc C) _ _ o b l (Throws e) x); [discriminate|exact H]. }
        assert (F : effects C w (l ++ [Left o (Some e) x]) w2).
        { eapply effects_app; [exact He|]. econstructor; [exact Ee|constructor]. }
        destruct x; (eexists; split; [exact T|split; [exact F|]]); intros Hx; try congruence;
          (eapply Hl; [discriminate|reflexivity]).
      * exists l. split; [apply t_hang_buf; exact H|]. split; [exact He|]. congruence.
    + specialize (IH Hn (enter (ROut o t) s) w).
      destruct (kexec C b (enter (ROut o t) s) w) as [[r s1] w1]. destruct IH as (l & H & He & Hk).
      cbn [enter out err] in H.
      assert (Hl : r <> Hangs -> keeps (KWith (ROut o t) b) s (leave (ROut o t) s1)).
      { intros Hr. destruct (Hk Hr) as (K1 & K2 & K3 & K4). cbn [enter out err saved olds] in *.
        unfold leave. rewrite (K4 o), upd_same. split; [reflexivity|]. split; [exact K2|]. split; [exact K3|].
        intros o'. cbn [olds]. destruct (Nat.eq_dec o' o) as [->|Hd]; [apply upd_same|].
        rewrite upd_other, K4, upd_other by exact Hd. reflexivity. }
      destruct r; exists l.
      * split; [apply t_rout; [discriminate|exact H]|]. split; [exact He|]. exact Hl.
      * split; [apply t_rout; [discriminate|exact H]|]. split; [exact He|]. exact Hl.
      * split; [apply t_hang_out; exact H|]. split; [exact He|]. congruence.
    + specialize (IH Hn (enter (RErr o t) s) w).
      destruct (kexec C b (enter (RErr o t) s) w) as [[r s1] w1]. destruct IH as (l & H & He & Hk).
      cbn [enter out err] in H.
      assert (Hl : r <> Hangs -> keeps (KWith (RErr o t) b) s (leave (RErr o t) s1)).
      { intros Hr. destruct (Hk Hr) as (K1 & K2 & K3 & K4). cbn [enter out err saved olds] in *.
        unfold leave. rewrite (K4 o), upd_same. split; [exact K1|]. split; [reflexivity|]. split; [exact K3|].
        intros o'. cbn [olds]. destruct (Nat.eq_dec o' o) as [->|Hd]; [apply upd_same|].
        rewrite upd_other, K4, upd_other by exact Hd. reflexivity. }
      destruct r; exists l.
      * split; [apply t_rerr; [discriminate|exact H]|]. split; [exact He|]. exact Hl.
      * split; [apply t_rerr; [discriminate|exact H]|]. split; [exact He|]. exact Hl.
      * split; [apply t_hang_err; exact H|]. split; [exact He|]. congruence.
Qed.

Lemma routing {W} (C : classes W) b s w r s' w' : well_nested b -> kexec C b s w = (r, s', w') ->
  exists l, told (c_exc C) (out s) (err s) b l r /\ effects C w l w' /\
    (r <> Hangs -> out s' = out s /\ err s' = err s).
Proof.
  intros Hn E. pose proof (kexec_told C b Hn s w) as H. rewrite E in H. destruct H as (l & H1 & H2 & H3).
  exists l. split; [exact H1|]. split; [exact H2|]. intros Hr. destruct (H3 Hr) as (K1 & K2 & _). auto.
Qed.

(** ** Code in which nothing fails *)


Definition within (D : text -> Prop) (os : list nat) (l : list happened) : Prop :=
  Forall (fun x => match x with Wrote _ data _ => D data | Left o _ _ => In o os | Happened _ => True end) l.

Lemma within_mono D os os' l : incl os os' -> within D os l -> within D os' l.
Proof. intros Hi. apply Forall_impl. intros [o data r|o e r|n]; auto. Qed.

Lemma told_within exc D b : Forall D (code_texts b) -> forall x y l r, told exc x y b l r -> within D (entered b) l.
Proof.
  induction b as [|te data|n|e|b1 IH1 b2 IH2|b IH|m b IH]; intros HD x y l r H; cbn [code_texts entered] in *.
  - inversion H; subst; constructor.
  - inversion HD; subst. inversion H; subst; repeat constructor; assumption.
  - inversion H; subst; repeat constructor.
  - inversion H; subst; constructor.
  - apply Forall_app in HD as [H1 H2]. inversion H; subst.
    + apply Forall_app. split.
      * eapply within_mono; [apply incl_appl, incl_refl|]. eapply IH1; eassumption.
      * eapply within_mono; [apply incl_appr, incl_refl|]. eapply IH2; eassumption.
    + eapply within_mono; [apply incl_appl, incl_refl|]. eapply IH1; eassumption.
  - inversion H; subst; eapply IH; eassumption.
  - destruct m; inversion H; subst; try (eapply IH; eassumption).
    + apply Forall_app. split; [eapply within_mono; [apply incl_tl, incl_refl|eapply IH; eassumption]|].
      constructor; [left; reflexivity|constructor].
    + eapply within_mono; [apply incl_tl, incl_refl|eapply IH; eassumption].
Qed.

Lemma told_good exc x y b l r : told exc x y b l r -> all_good l -> r <> Hangs.
Proof.
  intros H. induction H; intros HA; try discriminate.
  - apply List.Forall_inv in HA. destruct HA as [nn ->]. discriminate.
  - apply List.Forall_inv in HA. destruct HA as [nn ->]. discriminate.
  - apply List.Forall_inv in HA. destruct HA as [nn ->]. discriminate.
  - apply Forall_app in HA as [_ HA]. apply IHtold2, HA.
  - apply IHtold, HA.
  - apply IHtold, HA.
  - apply Forall_app in HA as [HA1 HA2]. apply List.Forall_inv in HA2. cbn beta iota in HA2. rewrite HA2. cbn [after_call]. apply IHtold, HA1.
  - apply IHtold, HA.
  - apply IHtold, HA.
  - intros _. apply (IHtold HA). reflexivity.
  - intros _. apply (IHtold HA). reflexivity.
  - intros _. apply (IHtold HA). reflexivity.
Qed.

Lemma told_raised exc x y b l r : told exc x y b l r -> all_good l -> forall e, r = Throws e -> In e (raised b).
Proof.
  intros H. induction H; intros HA e0 Ee; cbn [raised]; try discriminate.
  - apply List.Forall_inv in HA. destruct HA as [nn ->]. discriminate.
  - apply List.Forall_inv in HA. destruct HA as [nn ->]. discriminate.
  - apply List.Forall_inv in HA. destruct HA as [nn ->]. discriminate.
  - injection Ee as ->. left. reflexivity.
  - apply Forall_app in HA as [_ HA]. apply in_or_app. right. apply IHtold2; assumption.
  - apply in_or_app. left. apply IHtold; assumption.
  - apply IHtold; assumption.
  - apply Forall_app in HA as [HA1 HA2]. apply List.Forall_inv in HA2. cbn beta iota in HA2. subst r'. apply IHtold; assumption.
  - apply IHtold; assumption.
  - apply IHtold; assumption.
Qed.

Lemma texts_to_app o l1 l2 : texts_to o (l1 ++ l2) = texts_to o l1 ++ texts_to o l2.
Proof. apply flat_map_app. Qed.

(** ** One object *)

(** Calls of an object that may be written and with which no block inside is entered: the
    state of the object changes through the texts written to it and the events only. *)
Lemma alone_effects {W} k write exit_ event exc (P : W -> list text -> W -> Prop) (D : text -> Prop) l :
  (forall w0 ts w data, P w0 ts w -> D data -> exists n w1, write data w = (Good n, w1) /\ P w0 (ts ++ [data]) w1) ->
  (forall w0 ts w n, P w0 ts w -> P w0 ts (event n w)) ->
  forall os, ~ In k os -> within D os l -> forall w0 ts w w',
  P w0 ts w -> effects (alone k write exit_ event exc) w l w' -> all_good l /\ P w0 (ts ++ texts_to k l) w'.
Proof.
  intros Hw He os Hk. induction l as [|x l IH]; intros HD w0 ts w w' HP HF.
  - apply effects_nil_inv in HF. subst. split; [constructor|]. cbn. rewrite app_nil_r. exact HP.
  - inversion HD as [|x0 l0 Hx Hl]; subst. apply effects_cons_inv in HF. destruct HF as (w1 & HF & Hc).
    destruct x as [o data r|o e r|n]; cbn [c_write c_exit c_event alone] in Hc.
    + destruct (o =? k) eqn:Eo.
      * destruct (Hw _ _ _ data HP Hx) as (n & w3 & E & HP'). rewrite E in Hc. injection Hc as <- <-.
        destruct (IH Hl _ _ _ _ HP' HF) as [Hg HP2]. split; [constructor; [eauto|exact Hg]|].
        cbn [texts_to flat_map]. rewrite Eo. rewrite <- app_assoc in HP2. exact HP2.
      * injection Hc as <- <-. destruct (IH Hl _ _ _ _ HP HF) as [Hg HP2]. split; [constructor; [eauto|exact Hg]|].
        cbn [texts_to flat_map]. rewrite Eo. exact HP2.
    + destruct (o =? k) eqn:Eo; [apply Nat.eqb_eq in Eo; subst; contradiction|].
      injection Hc as <- <-. destruct (IH Hl _ _ _ _ HP HF) as [Hg HP2]. split; [constructor; [eauto|exact Hg]|exact HP2].
    + subst w1. destruct (IH Hl _ _ _ _ (He _ _ _ n HP) HF) as [Hg HP2].
      split; [constructor; [exact I|exact Hg]|exact HP2].
Qed.

(** The block [with object: b]. *)
Lemma with_alone {W : Type} k write exit_ event exc b s (w : W) r s' w' : well_nested b -> ~ In k (entered b) ->
  kexec (alone k write exit_ event exc) (KWith (Buf k) b) s w = (r, s', w') ->
  exists l r0 w1, told exc (Some k) (Some k) b l r0 /\ effects (alone k write exit_ event exc) w l w1 /\
    (r0 = Hangs -> r = Hangs /\ w' = w1) /\
    (r0 <> Hangs -> out s' = out s /\ err s' = err s /\
       exists x, exit_ (exc_value r0) w1 = (x, w') /\ r = after_call exc x r0).
Proof.
  intros Hn Hk. cbn [kexec]. pose proof (kexec_told (alone k write exit_ event exc) b Hn (enter (Buf k) s) w) as H.
  destruct (kexec _ b (enter (Buf k) s) w) as [[r0 s1] w1]. destruct H as (l & H1 & H2 & H3).
  cbn [enter out err c_exc alone] in H1. intros E. exists l, r0, w1. split; [exact H1|]. split; [exact H2|].
  assert (Hsame : r0 <> Hangs -> out (leave (Buf k) s1) = out s /\ err (leave (Buf k) s1) = err s).
  { intros Hr. destruct (H3 Hr) as (_ & _ & K3 & _). cbn [leave out err]. rewrite (K3 k Hk). cbn [enter saved].
    rewrite upd_same. auto. }
  destruct r0.
  - split; [discriminate|]. intros Hr. cbn [c_exit alone] in E. rewrite Nat.eqb_refl in E.
    destruct (exit_ (exc_value Ends) w1) as [x w2] eqn:Ex. destruct (Hsame Hr).
    destruct x; injection E as <- <- <-; (split; [assumption|]); (split; [assumption|]); eexists; (split; [reflexivity|]); reflexivity.
  - split; [discriminate|]. intros Hr. cbn [c_exit alone] in E. rewrite Nat.eqb_refl in E.
    destruct (exit_ (exc_value (Throws e)) w1) as [x w2] eqn:Ex. destruct (Hsame Hr).
    destruct x; injection E as <- <- <-; (split; [assumption|]); (split; [assumption|]); eexists; (split; [reflexivity|]); reflexivity.
  - injection E as <- <- <-. split; [auto|congruence].
Qed.

Lemma effects_app_inv {W} (C : classes W) l1 : forall w l2 w2, effects C w (l1 ++ l2) w2 ->
  exists w1, effects C w l1 w1 /\ effects C w1 l2 w2.
Proof.
  induction l1 as [|x l1 IH]; intros w l2 w2 H; [exists w; split; [constructor|exact H]|].
  cbn [app] in H. inversion H; subst; destruct (IH _ _ _ ltac:(eassumption)) as (w3 & H1 & H2); exists w3;
    (split; [econstructor; eassumption|exact H2]).
Qed.


Lemma within_app D os l1 l2 : within D os (l1 ++ l2) <-> within D os l1 /\ within D os l2.
Proof. apply Forall_app. Qed.

Lemma no_hang exc x y b l r : told exc x y b l r ->
  (forall o data r, In (Wrote o data r) l -> r <> Block) -> (forall o e r, In (Left o e r) l -> r <> Block) -> r <> Hangs.
Proof.
  intros H. induction H; intros HA HB; try discriminate.
  - specialize (HA _ _ _ (or_introl eq_refl)). destruct r; [discriminate|discriminate|congruence].
  - specialize (HA _ _ _ (or_introl eq_refl)). destruct r; [discriminate|discriminate|congruence].
  - specialize (HA _ _ _ (or_introl eq_refl)). destruct r; [discriminate|discriminate|congruence].
  - apply IHtold2; intros * Hi; [eapply HA|eapply HB]; apply in_or_app; right; exact Hi.
  - apply IHtold; assumption.
  - apply IHtold; assumption.
  - assert (Hr' : r' <> Block) by (apply (HB o (exc_value r) r'), in_or_app; right; left; reflexivity).
    destruct r'; [|discriminate|congruence]. cbn [after_call]. assumption.
  - assumption.
  - assumption.
  - intros _. apply (IHtold HA HB). reflexivity.
  - intros _. apply (IHtold HA HB). reflexivity.
  - intros _. apply (IHtold HA HB). reflexivity.
Qed.

Lemma exits_good {W} k write exit_ event exc os l : ~ In k os -> forall D, within D os l -> forall (w w' : W),
  effects (alone k write exit_ event exc) w l w' -> forall o e r, In (Left o e r) l -> r = Good tt.
Proof.
  intros Hk D. induction l as [|x l IH]; intros HD w w' HF o e r Hi; [destruct Hi|].
  inversion HD as [|x0 l0 Hx Hl]; subst. apply effects_cons_inv in HF. destruct HF as (w1 & HF & Hc).
  destruct Hi as [->|Hi]; [|eauto]. cbn [c_exit alone] in Hc.
  destruct (o =? k) eqn:Eo; [apply Nat.eqb_eq in Eo; subst; contradiction|]. injection Hc as <- <-. reflexivity.
Qed.

Lemma first_event l : (exists l1 n l2, l = l1 ++ Happened n :: l2 /\ quiet l1) \/ quiet l.
Proof.
  induction l as [|x l IH]; [right; intros n []|].
  destruct x as [o data r|o e r|n]; [| |left; exists [], n, l; split; [reflexivity|intros m []]].
  - destruct IH as [(l1 & n & l2 & -> & H)|H]; [left; exists (Wrote o data r :: l1), n, l2; split; [reflexivity|]|right];
      intros m [Hi|Hi]; try discriminate; eapply H, Hi.
  - destruct IH as [(l1 & n & l2 & -> & H)|H]; [left; exists (Left o e r :: l1), n, l2; split; [reflexivity|]|right];
      intros m [Hi|Hi]; try discriminate; eapply H, Hi.
Qed.

(** An object that refuses texts after the first event. *)
Section Stop.
  Context {W : Type} (k : nat) (write : text -> W -> outcome nat * W) (exit_ : option excobj -> W -> outcome unit * W)
    (event : nat -> W -> W) (exc : exn -> excobj).
  Variables (did : W -> list text -> W -> Prop) (stuck : W -> W -> Prop).
  Hypothesis did_write : forall w0 ts w data, did w0 ts w -> True -> exists n w1, write data w = (Good n, w1) /\ did w0 (ts ++ [data]) w1.
  Hypothesis stuck_write : forall w0 w data, stuck w0 w -> exists w1, write data w = (Fail StopIteration, w1) /\ stuck w0 w1.
  Hypothesis stuck_now : forall w0 ts w n, did w0 ts w -> stuck w (event n w).
  Hypothesis stuck_again : forall w0 w n, stuck w0 w -> stuck w0 (event n w).
  Notation C := (alone k write exit_ event exc).

  Lemma stuck_effects os l : ~ In k os -> within (fun _ => True) os l -> forall w0 w w',
    stuck w0 w -> effects C w l w' ->
    stuck w0 w' /\ forall o data x, In (Wrote o data x) l -> x = if o =? k then Fail StopIteration else Good (length data).
  Proof using stuck_write stuck_again.
    intros Hk. induction l as [|x l IH]; intros HD d0 d d' HP HF.
    - apply effects_nil_inv in HF. subst. split; [exact HP|]. intros o data x [].
    - inversion HD as [|x0 l0 Hx Hl]; subst. apply effects_cons_inv in HF. destruct HF as (w1 & HF & Hc).
      destruct x as [o data r|o e r|n]; cbn [c_write c_exit c_event alone] in Hc.
      + destruct (o =? k) eqn:Eo.
        * destruct (stuck_write d0 d data HP) as (w3 & E & HP'). rewrite E in Hc. injection Hc as <- <-.
          destruct (IH Hl _ _ _ HP' HF) as [Hg HP2]. split; [exact Hg|].
          intros o' data' x [[= <- <- <-]|Hi]; [rewrite Eo; reflexivity|eauto].
        * injection Hc as <- <-. destruct (IH Hl _ _ _ HP HF) as [Hg HP2]. split; [exact Hg|].
          intros o' data' x [[= <- <- <-]|Hi]; [rewrite Eo; reflexivity|eauto].
      + destruct (o =? k) eqn:Eo; [apply Nat.eqb_eq in Eo; subst; contradiction|].
        injection Hc as <- <-. destruct (IH Hl _ _ _ HP HF) as [Hg HP2]. split; [exact Hg|].
        intros o' data' x [[=]|Hi]. eauto.
      + subst w1. destruct (IH Hl _ _ _ (stuck_again _ _ n HP) HF) as [Hg HP2]. split; [exact Hg|].
        intros o' data' x [[=]|Hi]. eauto.
  Qed.

  (** Before the first event everything works. *)
  Lemma quiet_effects os l : ~ In k os -> within (fun _ => True) os l -> quiet l -> forall w0 ts w w',
    did w0 ts w -> effects C w l w' -> all_good l /\ did w0 (ts ++ texts_to k l) w'.
  Proof using did_write.
    intros Hk. induction l as [|x l IH]; intros HD HQ d0 ts d d' HP HF.
    - apply effects_nil_inv in HF. subst. split; [constructor|]. cbn. rewrite app_nil_r. exact HP.
    - assert (HQ' : quiet l) by (intros n Hi; apply (HQ n); right; exact Hi).
      inversion HD as [|x0 l0 Hx Hl]; subst. apply effects_cons_inv in HF. destruct HF as (w1 & HF & Hc).
      destruct x as [o data r|o e r|n]; cbn [c_write c_exit c_event alone] in Hc.
      + destruct (o =? k) eqn:Eo.
        * destruct (did_write _ _ _ data HP I) as (n & w3 & E & HP'). rewrite E in Hc. injection Hc as <- <-.
          destruct (IH Hl HQ' _ _ _ _ HP' HF) as [Hg HP2]. split; [constructor; [eauto|exact Hg]|].
          cbn [texts_to flat_map]. rewrite Eo. rewrite <- app_assoc in HP2. exact HP2.
        * injection Hc as <- <-. destruct (IH Hl HQ' _ _ _ _ HP HF) as [Hg HP2]. split; [constructor; [eauto|exact Hg]|].
          cbn [texts_to flat_map]. rewrite Eo. exact HP2.
      + destruct (o =? k) eqn:Eo; [apply Nat.eqb_eq in Eo; subst; contradiction|].
        injection Hc as <- <-. destruct (IH Hl HQ' _ _ _ _ HP HF) as [Hg HP2]. split; [constructor; [eauto|exact Hg]|exact HP2].
      + exfalso. apply (HQ n). left. reflexivity.
  Qed.

  Lemma stop_generic os l : ~ In k os -> within (fun _ => True) os l -> forall w w1, did w [] w -> effects C w l w1 ->
    (forall l1 n l2, l = l1 ++ Happened n :: l2 -> quiet l1 ->
       exists w2, all_good l1 /\ did w (texts_to k l1) w2 /\ stuck w2 w1 /\
         forall o data x, In (Wrote o data x) l2 -> x = if o =? k then Fail StopIteration else Good (length data)) /\
    (quiet l -> all_good l /\ did w (texts_to k l) w1) /\
    (forall x y b r, told exc x y b l r -> r <> Hangs).
  Proof using did_write stuck_write stuck_now stuck_again.
    intros Hk Hw w w1 Hd HF.
    assert (Hsplit : forall l1 n l2, l = l1 ++ Happened n :: l2 -> quiet l1 ->
       exists w2, all_good l1 /\ did w (texts_to k l1) w2 /\ stuck w2 w1 /\
         forall o data x, In (Wrote o data x) l2 -> x = if o =? k then Fail StopIteration else Good (length data)).
    { intros l1 n l2 -> HQ. destruct (effects_app_inv _ _ _ _ _ HF) as (w2 & F1 & F2).
      apply within_app in Hw as [W1 W2]. inversion W2 as [|x0 l0 _ W3]; subst.
      destruct (quiet_effects _ _ Hk W1 HQ _ _ _ _ Hd F1) as [Hg Hd2].
      apply effects_cons_inv in F2. destruct F2 as (w3 & F2 & ->). cbn [c_event alone] in F2.
      destruct (stuck_effects _ _ Hk W3 _ _ _ (stuck_now _ _ _ n Hd2) F2) as [Hs Hx]. exists w2. auto. }
    split; [exact Hsplit|]. split; [intros HQ; exact (quiet_effects _ _ Hk Hw HQ _ _ _ _ Hd HF)|].
    intros x y b r Ht. eapply no_hang; [exact Ht| |].
    - intros o data z Hi. destruct (first_event l) as [(l1 & n & l2 & El & HQ)|HQ].
      + destruct (Hsplit _ _ _ El HQ) as (w2 & Hg & _ & _ & Hx). subst l. apply in_app_or in Hi. destruct Hi as [Hi|[Hi|Hi]].
        * destruct (proj1 (List.Forall_forall _ _) Hg _ Hi) as [nn ->]. discriminate.
        * discriminate.
        * rewrite (Hx _ _ _ Hi). destruct (o =? k); discriminate.
      + destruct (quiet_effects _ _ Hk Hw HQ _ _ _ _ Hd HF) as [Hg _].
        destruct (proj1 (List.Forall_forall _ _) Hg _ Hi) as [nn ->]. discriminate.
    - intros o e z Hi. rewrite (exits_good _ _ _ _ _ _ _ Hk _ Hw _ _ HF _ _ _ Hi). discriminate.
  Qed.
End Stop.

(** ** print() with several arguments *)
Lemma put_all_told exc x y te o ts : target te x y = Some o -> forall l r,
  told exc x y (put_all te ts) l r -> all_good l ->
  texts_to o l = ts /\ r = Ends /\ forall o', o' <> o -> texts_to o' l = [].
Proof.
  intros Ht. induction ts as [|t ts IH]; intros l r H Hg; cbn [put_all] in H.
  - inversion H; subst. auto.
  - assert (Hput : forall l r, told exc x y (KPut te t) l r -> exists z, l = [Wrote o t z] /\ r = after_call exc z Ends).
    { intros l0 r0 H0. unfold target in Ht. inversion H0; subst; simpl in Ht; try discriminate; injection Ht as <-; eauto. }
    inversion H as [| | | | | | | |x0 y0 c1 c2 l1 l2 r' H1 H2|x0 y0 c1 c2 l' r' Hne H1| | | | | | | | ]; subst.
    + destruct (Hput _ _ H1) as (z & -> & Ez). apply Forall_app in Hg as [_ Hg2].
      destruct (IH _ _ H2 Hg2) as (A & B & D). split; [|split; [exact B|]].
      * unfold texts_to in *. rewrite flat_map_app, A. simpl. rewrite Nat.eqb_refl. reflexivity.
      * intros o' Ho'. specialize (D o' Ho'). unfold texts_to in *. rewrite flat_map_app, D. simpl.
        destruct (Nat.eqb_spec o o'); [congruence|reflexivity].
    + destruct (Hput _ _ H1) as (z & -> & ->). inversion Hg as [|? ? Hz _]; subst. simpl in Hz. destruct Hz as [n ->]. simpl in Hne. congruence.
Qed.
Lemma print_args_joined sep args : joined sep args (concat (print_args sep args)).
Proof.
  induction args as [|a [|b args] IH]; simpl in *; [constructor|rewrite app_nil_r; constructor|].
  apply j_more. exact IH.
Qed.
Lemma print_told exc x y te o sep e args l r :
  (te = false /\ x = Some o \/ te = true /\ (y = Some o \/ y = None /\ x = Some o)) ->
  told exc x y (put_all te (print_texts sep e args)) l r -> all_good l ->
  exists t, joined sep args t /\ concat (texts_to o l) = t ++ e /\ r = Ends /\ forall o', o' <> o -> texts_to o' l = [].
Proof.
  intros Ht H Hg. assert (Ht' : target te x y = Some o).
  { destruct Ht as [[-> ->]|[-> [->|[-> ->]]]]; reflexivity. }
  destruct (put_all_told exc x y te o _ Ht' l r H Hg) as (A & B & D).
  exists (concat (print_args sep args)). split; [apply print_args_joined|]. split; [|auto].
  rewrite A. unfold print_texts. rewrite concat_app. simpl. rewrite app_nil_r. reflexivity.
Qed.
