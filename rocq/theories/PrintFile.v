(** * PrintFile: printing into a LineFileBuffer *)
From stdpp Require Import gmap.
From Coq Require Import List NArith ZArith Bool Arith Lia.
From Verif Require Import PyStr Prog ProgFacts PyIO Base Spec SpecFacts LineBuf LineBufFacts LineBufSpec LineBufProofs
  Atomic FileBuf FileFacts FileMore FileSpec FileStmt FileProofs Ctx Print PrintSpec PrintProofs.
Import ListNotations.
Local Open Scope nat_scope.

Section Buffer.
  Variables (b : fbuf) (l0 : list text) (v0 : text).
  Hypothesis Hwf : wf_fbuf b.
  Notation R := (record_file (b_name b)).
  Notation T := (temp_file (b_name b) (b_tmp b)).
  Notation m := (b_max b).
  Notation unf := (unfinished (b_name b) (b_tmp b)).
  Notation g0 := (mkslog (map IStr l0) v0).

  Lemma nobody : unlocked b ∅.
  Proof. split; apply lookup_empty. Qed.

  (** What the writes have done so far. *)
  Definition did (d0 : fdir) (ts : list text) (d : fdir) : Prop :=
    is_open b d /\ exists g, log_steps (map SWrite ts) g0 g /\
      records (b_name b) (files d) (last_items m (map item_text (done g))) /\
      unf (files d) = pend g /\ utf8 (pend g) /\ no_cr (pend g) /\ fclosed d = fclosed d0 /\
      forall x, x <> T -> (forall n, x <> R n) -> files d !! x = files d0 !! x.

  Lemma did_nil d : is_open b d -> records (b_name b) (files d) l0 -> length l0 <= m -> unf (files d) = v0 -> utf8 v0 -> no_cr v0 ->
    did d [] d.
  Proof.
    intros Ho Hr Hl Hv Hu Hc. split; [exact Ho|]. exists g0. split; [constructor|]. cbn [done pend].
    rewrite map_item_text, last_items_all by exact Hl. repeat (split; [assumption|]). auto.
  Qed.

  Lemma log_steps_snoc os o g g1 g2 : log_steps os g g1 -> log_step o g1 g2 -> log_steps (os ++ [o]) g g2.
  Proof. induction 1; intros H2; cbn; [econstructor; [exact H2|constructor]|]. econstructor; [eassumption|auto]. Qed.

  Lemma no_cr_app s s' : no_cr s -> no_cr s' -> no_cr (s ++ s').
  Proof. intros H1 H2 H. apply in_app_or in H. destruct H; [exact (H1 H)|exact (H2 H)]. Qed.

  Lemma did_write d0 ts d data : did d0 ts d -> utf8 data ->
    exists n d1, on (fb_write b data) d = (Good n, d1) /\ did d0 (ts ++ [data]) d1.
  Proof using Hwf.
    intros (Ho & g & H1 & H2 & H3 & H4 & H5 & H6 & H7) Hd. destruct Hwf as [Hm Hlk]. destruct d as [fs cl]. cbn [files fclosed] in *.
    pose proof (is_open_flag b _ Ho) as Hc. cbn [fclosed] in Hc.
    assert (Hl : lastl b fs = pend g) by (rewrite lastl_unf, H3; apply uni_no_cr, H5).
    assert (Hb : bal [b_tl b; b_fl b] (fb_write b data)).
    { unfold fb_write. apply bal_bind; [apply bal_both; [exact Hlk|]; apply bal_bind; intros; [apply bal_op|apply bal_ret]|].
      intros w. destruct (negb w); [apply bal_raise|apply bal_write_body]. }
    unfold on. rewrite (run_bal b 0 _ _ _ nobody Hb), write_run; [|exact Hm|apply utf8_enc, Hd|rewrite Hl; apply utf8_enc, H4|exact Hc].
    cbn [fst snd dat]. eexists _, _. split; [reflexivity|]. split; [exact Ho|].
    exists (gwrite data g). rewrite map_app. split; [eapply log_steps_snoc; [exact H1|constructor; apply log_write_fun; reflexivity]|].
    cbn [files fclosed]. unfold gwrite, wlines, wtail, fwr. cbn [done pend].
    destruct (enc_seg data (proj1 (utf8_enc _) Hd)) as [E1 E2]. destruct (seg_no_break data) as [N1 N2].
    destruct (seg data) as [[|s1 ls] r] eqn:Es; cbn [fst snd] in *.
    - rewrite app_nil_r.
      assert (Hfs : (match r with [] => fs | _ => app_tmp b r fs end) = fs /\ r = [] \/
                    (match r with [] => fs | _ => app_tmp b r fs end) = <[T := pend g ++ r]> fs).
      { destruct r; [left; auto|right]. rewrite app_tmp_unf, H3. reflexivity. }
      split; [|split; [|split; [|split; [|split; [exact H6|]]]]].
      + destruct Hfs as [[-> _] | -> ]; [exact H2|apply (records_tmp b), H2].
      + destruct Hfs as [[-> ->] | -> ]; [rewrite app_nil_r; exact H3|apply (unf_insert b)].
      + apply List.Forall_app. split; [exact H4|apply utf8_enc, E2].
      + apply no_cr_app; [exact H5|apply no_break_no_cr, N2].
      + intros x Hx Hx2. destruct Hfs as [[-> _] | -> ]; [auto|]. rewrite lookup_insert_ne by congruence. auto.
    - unfold app_tmp, clean_tmp. rewrite lookup_insert, insert_insert. cbn [app]. rewrite Hl.
      split; [|split; [|split; [|split; [|split; [exact H6|]]]]].
      + apply (records_tmp b). rewrite map_app. cbn [map item_text]. rewrite map_item_text.
        rewrite <- last_items_app_idem. apply records_upd_max; [exact Hm| |exact H2]. rewrite last_items_length. lia.
      + apply (unf_insert b).
      + apply utf8_enc, E2.
      + apply no_break_no_cr, N2.
      + intros x Hx Hx2. rewrite lookup_insert_ne by (intros E; apply Hx; symmetry; exact E).
        rewrite upd_other by exact Hx2. auto.
  Qed.

  Lemma c_with_file k exc c s d r s' d' : well_nested c -> ~ In k (entered c) ->
    Forall utf8 (code_texts c) -> Forall (fun e => utf8 (ex_text e)) (raised c) ->
    is_open b d -> records (b_name b) (files d) l0 -> length l0 <= m ->
    unf (files d) = v0 -> utf8 v0 -> no_cr v0 ->
    kexec (file_buffer k b (fun _ d => d) exc) (KWith (Buf k) c) s d = (r, s', d') ->
    exists l g, told exc (Some k) (Some k) c l r /\ all_good l /\ r <> Hangs /\ out s' = out s /\ err s' = err s /\
      log_steps (map SWrite (texts_to k l)) g0 g /\
      match exc_value r with
      | None =>
          records (b_name b) (files d') (last_items m (map item_text (done g) ++ match pend g with [] => [] | v => [v] end)) /\
          unf (files d') = []
      | Some e => exists t, exc_record e t /\
          records (b_name b) (files d') (last_items m (map item_text (done g) ++ [t])) /\
          unf (files d') = pend g
      end /\ is_open b d' /\
      (forall x, x <> T -> (forall n, x <> R n) -> files d' !! x = files d !! x).
  Proof using Hwf.
    intros Hn Hk Hu Hue Ho Hrec Hlen Hv Hv1 Hv2 Ek. unfold file_buffer in Ek.
    destruct (with_alone _ _ _ _ _ _ _ _ _ _ _ Hn Hk Ek) as (l & r0 & d1 & H1 & H2 & _ & H4).
    assert (Hw : within utf8 (entered c) l) by (eapply told_within; [exact Hu|exact H1]).
    destruct (alone_effects k _ _ _ _ did utf8 l did_write (fun _ _ _ _ H => H) (entered c) Hk Hw d [] d d1
                (did_nil d Ho Hrec Hlen Hv Hv1 Hv2) H2) as [Hg (Ho1 & g & K1 & K2 & K3 & K4 & K5 & K6 & K7)].
    pose proof (told_good _ _ _ _ _ _ H1 Hg) as Hr0. destruct (H4 Hr0) as (Hou & Her & x & Hx & Hrx).
    destruct d1 as [fs cl]. cbn [files fclosed] in *.
    pose proof (is_open_flag b _ Ho1) as Hc. cbn [fclosed] in Hc. pose proof Hwf as [Hm Hlk].
    assert (Hl : lastl b fs = pend g) by (rewrite lastl_unf, K3; apply uni_no_cr, K5).
    assert (Hll : length (last_items m (map item_text (done g))) <= m) by (rewrite last_items_length; lia).
    destruct (exc_value r0) as [e|] eqn:Er.
    - assert (Hue1 : utf8 (ex_text e)).
      { destruct r0 as [|e'|]; try discriminate. injection Er as ->.
        exact (proj1 (List.Forall_forall _ _) Hue _ (told_raised _ _ _ _ _ _ H1 Hg e eq_refl)). }
      destruct (c44 b Hwf 0 ∅ (mkfdir fs cl) e (exc_text e) nobody Ho1 Hue1 (proj2 (exc_record_eq _ _) eq_refl))
        as (fs' & E & _ & X1 & X2). cbn [files fclosed] in *.
      unfold on in Hx. rewrite E in Hx. injection Hx as <- <-. cbn [after_call dat] in *. subst r.
      destruct (X2 _ K2 Hll) as [X3 _]. exists l, g. rewrite Er.
      repeat (split; [assumption|]). split; [|split; [exact Ho1|]].
      + exists (exc_text e). split; [apply exc_record_eq; reflexivity|]. cbn [files]. split.
        * rewrite <- last_items_app_idem. exact X3.
        * rewrite <- K3. unfold unfinished. rewrite X1; [reflexivity|]. intros n En. symmetry in En. exact (rec_tmp b n b En).
      + intros y Hy1 Hy2. cbn [files]. rewrite X1 by exact Hy2. auto.
    - unfold on in Hx. rewrite (run_bal b 0 _ _ _ nobody (bal_new_line b)) in Hx.
      rewrite new_line_run in Hx; [|exact Hm|rewrite Hl; apply utf8_enc, K4|exact Hc].
      cbn [fst snd dat] in Hx. injection Hx as <- <-. cbn [after_call] in *. subst r. exists l, g. rewrite Er, Hl.
      repeat (split; [assumption|]). cbn [files]. destruct (pend g) as [|c0 v] eqn:Ep.
      + rewrite app_nil_r. split; [split; [exact K2|exact K3]|]. split; [exact Ho1|]. exact K7.
      + split; [split|split; [exact Ho1|]].
        * apply (records_tmp b). pose proof (records_upd_max b fs _ [c0 :: v] Hm Hll K2) as Hx. rewrite last_items_app_idem in Hx. exact Hx.
        * apply (unf_insert b).
        * intros y Hy1 Hy2. unfold clean_tmp. rewrite lookup_insert_ne by (intros E; apply Hy1; symmetry; exact E).
          exact (eq_trans (upd_other b y [c0 :: v] fs Hy2) (K7 y Hy1 Hy2)).
  Qed.
End Buffer.
