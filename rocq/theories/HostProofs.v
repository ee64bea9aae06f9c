(** * HostProofs: properties of the host service (lemmas for PropHost.v) *)
From stdpp Require Import gmap.
From Coq Require Import String.
From Coq Require Import List NArith ZArith Bool Arith Lia.
From Verif Require Import PyStr Prog ProgFacts PyIO Base Spec SpecFacts LineBuf LineBufFacts LineBufSpec LineBufProofs
  LineBufConcProofs Locks Atomic Serial Json Strip Host HostSpec HostInt HostFacts.
Import ListNotations.
Local Open Scope prog_scope.
Local Open Scope nat_scope.

Lemma teq_refl s : text_eqb s s = true.
Proof. unfold text_eqb. destruct (text_eq_dec s s); congruence. Qed.
Lemma teq_true a b : text_eqb a b = true <-> a = b.
Proof. unfold text_eqb. destruct (text_eq_dec a b); split; congruence. Qed.
Lemma teq_false a b : text_eqb a b = false <-> a <> b.
Proof. unfold text_eqb. destruct (text_eq_dec a b); split; congruence. Qed.

(** ** Reachable states *)
Lemma served_good E m s : 1 <= m -> served E m s -> exists a sd, s = mkst (hsd m a sd) ∅ /\ aok m a.
Proof.
  intros Hm [h ->]. destruct (good_hist E m h (hfresh m) eq_refl (good_fresh m Hm)) as [Hk (a & sd & Hd & Ha)].
  exists a, sd. destruct (snd (h_hist E h (hfresh m))) as [d k]. simpl in *. subst. auto.
Qed.
Lemma holds_abs m g a : holds m g (bd m (aq a) (av a) (acl a)) -> a = absg m g.
Proof.
  intros [H1 H2]. unfold bd, fl in *. cbn [storage last_line] in *. destruct a as [q v cl]. cbn [aq av acl] in *.
  injection H1 as H1. injection H2 as H2 _ H3. subst. reflexivity.
Qed.
Lemma abs_holds m g sd : holds m g (h_buf (hsd m (absg m g) sd)).
Proof. split; reflexivity. Qed.

Lemma served_open E m s : 1 <= m -> served E m s -> is_closed s = false -> exists g, holds m g (h_buf (dat s)).
Proof.
  intros Hm Hs Hc. destruct (served_good E m s Hm Hs) as (a & sd & -> & Ha).
  exists (mkslog (aq a) (av a)). destruct Ha as (_ & Hq & _). unfold is_closed in Hc.
  cbn [dat hsd h_buf bd last_line fl sclosed] in Hc. split.
  - cbn [dat hsd h_buf bd storage done]. rewrite last_items_all by exact Hq. reflexivity.
  - cbn [dat hsd h_buf bd last_line done pend fl]. unfold fl. rewrite Hc. reflexivity.
Qed.

(** A held log determines the abstract state. *)
Lemma served_holds E m s g : 1 <= m -> served E m s -> holds m g (h_buf (dat s)) ->
  exists sd, s = mkst (hsd m (absg m g) sd) ∅.
Proof.
  intros Hm Hs Hh. destruct (served_good E m s Hm Hs) as (a & sd & -> & Ha). exists sd.
  apply holds_abs in Hh. subst a. reflexivity.
Qed.

Section Abs.
  Variables (m : nat) (g : slog) (sd : list (text * json)).
  Hypothesis Hm : 1 <= m.
  Let Ha : aok m (absg m g) := absg_ok m g Hm.
  Lemma ab_write data : srun (hlift (lb_write data)) (hsd m (absg m g) sd) =
    (Good (wres data), hsd m (absg m (gwrite data g)) sd).
  Proof.
    rewrite sr_write by exact Ha. pose proof (astep_gstep m (SWrite data) g) as H. cbn [call_of] in H. rewrite H. reflexivity.
  Qed.
  Lemma ab_new_line : srun (hlift lb_new_line) (hsd m (absg m g) sd) =
    (Good tt, hsd m (absg m (gnewline g)) sd).
  Proof. rewrite sr_new_line by exact Ha. pose proof (astep_gstep m SNewLine g) as H. cbn [call_of] in H. rewrite H. reflexivity. Qed.
  Lemma ab_clear : srun (hlift lb_clear) (hsd m (absg m g) sd) = (Good tt, hsd m (absg m slog0) sd).
  Proof. rewrite sr_clear by exact Ha. reflexivity. Qed.
  Lemma ab_read size : srun (hlift (lb_read size)) (hsd m (absg m g) sd) =
    (Good (view m size g), hsd m (absg m g) sd).
  Proof. rewrite sr_read by exact Ha. cbn [acl absg]. rewrite <- aread_view. reflexivity. Qed.
  Lemma ab_append i : srun (hop (HB (DAppend i))) (hsd m (absg m g) sd) =
    (Good tt, hsd m (absg m (mkslog (done g ++ [i]) (pend g))) sd).
  Proof.
    rewrite sr_append by exact Ha. unfold aappend, absg. cbn [aq av acl done pend].
    rewrite last_items_app_idem. reflexivity.
  Qed.
End Abs.

Lemma ab_no_op m g sd : srun (Ret tt : prog hcmd unit) (hsd m (absg m g) sd) = (Good tt, hsd m (absg m g) sd).
Proof. reflexivity. Qed.

Lemma field_jget key fs v : field key fs v <-> jget key fs = Some v.
Proof.
  split.
  - induction 1 as [v fs|k v' fs v Hk H IH]; cbn [jget]; [rewrite text_eqb_refl; reflexivity|].
    rewrite (proj2 (text_eqb_neq k key) Hk). exact IH.
  - induction fs as [|[k v'] fs IH]; cbn [jget]; [discriminate|]. destruct (text_eqb k key) eqn:E.
    + intros H. injection H as ->. apply text_eqb_eq in E. subst k. constructor.
    + intros H. constructor; [apply text_eqb_neq, E|]. apply IH, H.
Qed.
Lemma no_field_jget key fs : (forall v, ~ field key fs v) <-> jget key fs = None.
Proof.
  split.
  - intros H. destruct (jget key fs) as [v|] eqn:E; [|reflexivity]. exfalso. apply (H v), field_jget, E.
  - intros H v Hv. apply field_jget in Hv. congruence.
Qed.

(** ** POST *)
Definition dtype E (args : list (text * json)) : text :=
  strip match jget k_type args with Some v => py_str E v | None => [] end.
Lemma type_word_dtype E args w : type_word E args w -> dtype E args = w.
Proof. intros (v & Hv & Hw). unfold dtype. change k_type with (txt "type"). apply field_jget in Hv. rewrite Hv. apply strip_iff, Hw. Qed.
Lemma dtype_type_word E args : dtype E args <> [] -> type_word E args (dtype E args).
Proof.
  unfold dtype, type_word. change k_type with (txt "type"). destruct (jget _ args) as [v|] eqn:Ev; intros H; [exists v; split; [apply field_jget, Ev|apply strip_iff; reflexivity]|].
  exfalso. apply H. reflexivity.
Qed.

Lemma answered_run E m g sd r g' a :
  srun (handle E r) (hsd m (absg m g) sd) = (Good a, hsd m (absg m g') sd) ->
  answered E m (mkst (hsd m (absg m g) sd) ∅) r a g'.
Proof.
  intros H. exists (mkst (hsd m (absg m g') sd) ∅). split; [|split; [apply abs_holds|reflexivity]].
  intros t. rewrite run_handle, H. reflexivity.
Qed.

Lemma sp_text E m g sd args data v : 1 <= m ->
  type_word E args (txt "str") -> field (txt "data") args (JObj data) -> field (txt "value") data v -> v <> JNull ->
  srun (handle E (PostMsg (BJson (JObj args)))) (hsd m (absg m g) sd) =
  (Good (success 201), hsd m (absg m (gwrite (py_str E v) g)) sd).
Proof.
  intros Hm Ht Hd Hv Hn.
  cbn [handle h_post]. fold (dtype E args). rewrite (type_word_dtype E args _ Ht), srun_with, srun_bind.
  change (text_eqb (txt "str") s_str) with true. cbv iota. apply field_jget in Hd, Hv.
  change k_data with (txt "data"). rewrite Hd. change k_value with (txt "value"). rewrite Hv.
  destruct v; try congruence; rewrite srun_bind, ab_write by exact Hm; reflexivity.
Qed.
Lemma post_text E m s g args data v : 1 <= m -> served E m s -> holds m g (h_buf (dat s)) ->
  type_word E args (txt "str") -> field (txt "data") args (JObj data) -> field (txt "value") data v -> v <> JNull ->
  exists g', log_write (py_str E v) g g' /\ answered E m s (PostMsg (BJson (JObj args))) (success 201) g'.
Proof.
  intros Hm Hs Hh Ht Hd Hv Hn. destruct (served_holds E m s g Hm Hs Hh) as [sd ->].
  exists (gwrite (py_str E v) g). split; [apply log_write_fun; reflexivity|].
  apply answered_run, (sp_text E m g sd args data v); assumption.
Qed.

Lemma post_text_nothing E m s g args : 1 <= m -> served E m s -> holds m g (h_buf (dat s)) ->
  type_word E args (txt "str") ->
  ~ (exists data v, field (txt "data") args (JObj data) /\ field (txt "value") data v /\ v <> JNull) ->
  answered E m s (PostMsg (BJson (JObj args))) (success 201) g.
Proof.
  intros Hm Hs Hh Ht Hn. destruct (served_holds E m s g Hm Hs Hh) as [sd ->]. apply answered_run.
  cbn [handle h_post]. fold (dtype E args). rewrite (type_word_dtype E args _ Ht), srun_with, srun_bind.
  change (text_eqb (txt "str") s_str) with true. cbv iota.
  change k_data with (txt "data"). destruct (jget (txt "data") args) as [[| | | | |data]|] eqn:Hd; try reflexivity.
  change k_value with (txt "value"). destruct (jget (txt "value") data) as [v|] eqn:Hv; [|reflexivity].
  destruct v; try reflexivity; exfalso; apply Hn; eexists; eexists; (split; [apply field_jget, Hd|]); (split; [apply field_jget, Hv|]); discriminate.
Qed.

Lemma sp_note E m g sd args data : 1 <= m ->
  type_word E args (txt "error") \/ type_word E args (txt "warning") -> field (txt "data") args (JObj data) ->
  srun (handle E (PostMsg (BJson (JObj args)))) (hsd m (absg m g) sd) =
    match deserialize (JObj data) with
    | Good i => (Good (success 201), hsd m (absg m (mkslog (done (gnewline g) ++ [i]) (pend (gnewline g)))) sd)
    | Fail e => (Fail e, hsd m (absg m (gnewline g)) sd)
    | Block => (Fail OutOfFuel, hsd m (absg m (gnewline g)) sd)
    end.
Proof.
  intros Hm Ht Hd. cbn [handle h_post]. fold (dtype E args). rewrite srun_with, srun_bind.
  assert (Hk : text_eqb (dtype E args) s_str = false /\
               (text_eqb (dtype E args) s_error || text_eqb (dtype E args) s_warning = true)%bool).
  { destruct Ht as [Ht|Ht]; rewrite (type_word_dtype E args _ Ht); split; reflexivity. }
  destruct Hk as [-> ->]. apply field_jget in Hd. change k_data with (txt "data"). rewrite Hd.
  rewrite srun_bind, ab_new_line by exact Hm. rewrite srun_bind.
  destruct (deserialize (JObj data)) as [i|e|]; cbn [of_out srun]; [|reflexivity..].
  rewrite ab_append by exact Hm. reflexivity.
Qed.
Lemma post_note_fail E m s g args data e : 1 <= m -> served E m s -> holds m g (h_buf (dat s)) ->
  type_word E args (txt "error") \/ type_word E args (txt "warning") -> field (txt "data") args (JObj data) ->
  deserialize (JObj data) = Fail e ->
  exists g' s', log_new_line g g' /\ (forall t, run t (handle E (PostMsg (BJson (JObj args)))) s = (Fail e, s')) /\
    holds m g' (h_buf (dat s')) /\ h_state (dat s') = h_state (dat s).
Proof.
  intros Hm Hs Hh Ht Hd Hde. destruct (served_holds E m s g Hm Hs Hh) as [sd ->].
  exists (gnewline g), (mkst (hsd m (absg m (gnewline g)) sd) ∅). split; [apply log_new_line_fun; reflexivity|].
  split; [intros t; rewrite run_handle, (sp_note E m g sd args data Hm Ht Hd), Hde; reflexivity|].
  split; [apply abs_holds|reflexivity].
Qed.

Lemma post_note E m s g args data i : 1 <= m -> served E m s -> holds m g (h_buf (dat s)) ->
  type_word E args (txt "error") \/ type_word E args (txt "warning") -> field (txt "data") args (JObj data) ->
  deserialize (JObj data) = Good i ->
  exists g', log_note i g g' /\ answered E m s (PostMsg (BJson (JObj args))) (success 201) g'.
Proof.
  intros Hm Hs Hh Ht Hd Hde. destruct (served_holds E m s g Hm Hs Hh) as [sd ->].
  eexists. split; [|apply answered_run; rewrite (sp_note E m g sd args data Hm Ht Hd), Hde; reflexivity].
  constructor. apply log_new_line_fun. reflexivity.
Qed.
Lemma post_note_nothing E m s g args : 1 <= m -> served E m s -> holds m g (h_buf (dat s)) ->
  type_word E args (txt "error") \/ type_word E args (txt "warning") ->
  ~ (exists data, field (txt "data") args (JObj data)) ->
  answered E m s (PostMsg (BJson (JObj args))) (success 201) g.
Proof.
  intros Hm Hs Hh Ht Hn. destruct (served_holds E m s g Hm Hs Hh) as [sd ->]. apply answered_run.
  cbn [handle h_post]. fold (dtype E args). rewrite srun_with, srun_bind.
  assert (Hk : text_eqb (dtype E args) s_str = false /\
               (text_eqb (dtype E args) s_error || text_eqb (dtype E args) s_warning = true)%bool).
  { destruct Ht as [Ht|Ht]; rewrite (type_word_dtype E args _ Ht); split; reflexivity. }
  destruct Hk as [-> ->]. change k_data with (txt "data").
  destruct (jget (txt "data") args) as [[| | | | |data]|] eqn:Hd; try reflexivity. exfalso. apply field_jget in Hd. eauto.
Qed.
Lemma sp_close E m g sd args : 1 <= m -> type_word E args (txt "close") ->
  srun (handle E (PostMsg (BJson (JObj args)))) (hsd m (absg m g) sd) =
  (Good (success 201), hsd m (absg m (gnewline g)) sd).
Proof.
  intros Hm Ht. cbn [handle h_post]. fold (dtype E args). rewrite (type_word_dtype E args _ Ht), srun_with, srun_bind.
  change (text_eqb (txt "close") s_str) with false.
  change (text_eqb (txt "close") s_error || text_eqb (txt "close") s_warning)%bool with false.
  change (text_eqb (txt "close") s_close) with true. cbv iota. rewrite ab_new_line by exact Hm. reflexivity.
Qed.
Lemma post_close E m s g args : 1 <= m -> served E m s -> holds m g (h_buf (dat s)) ->
  type_word E args (txt "close") ->
  exists g', log_new_line g g' /\ answered E m s (PostMsg (BJson (JObj args))) (success 201) g'.
Proof.
  intros Hm Hs Hh Ht. destruct (served_holds E m s g Hm Hs Hh) as [sd ->].
  exists (gnewline g). split; [apply log_new_line_fun; reflexivity|].
  apply answered_run, (sp_close E m g sd args); assumption.
Qed.

Lemma rejected_run E m a sd r e : srun (handle E r) (hsd m a sd) = (Fail e, hsd m a sd) ->
  rejected E (mkst (hsd m a sd) ∅) r e.
Proof. intros H t. rewrite run_handle, H. reflexivity. Qed.

Lemma post_unknown E m s args : 1 <= m -> served E m s ->
  (forall w, In w [txt "str"; txt "error"; txt "warning"; txt "close"] -> ~ type_word E args w) ->
  rejected E s (PostMsg (BJson (JObj args))) TypeError.
Proof.
  intros Hm Hs Hn. destruct (served_good E m s Hm Hs) as (a & sd & -> & Ha). apply rejected_run.
  cbn [handle h_post]. fold (dtype E args). rewrite srun_with, srun_bind.
  assert (Hx : forall w, w <> [] -> In w [txt "str"; txt "error"; txt "warning"; txt "close"] -> text_eqb (dtype E args) w = false).
  { intros w Hw Hin. apply teq_false. intros E1. apply (Hn w Hin). rewrite <- E1. apply dtype_type_word. congruence. }
  rewrite (Hx s_str), (Hx s_error), (Hx s_warning), (Hx s_close); try discriminate; cbn; auto.
Qed.
Lemma post_not_object E m s b e : 1 <= m -> served E m s ->
  match b with
  | BNotJson => e = TypeError | BInvalid => e = BadRequest
  | BJson (JObj _) => False | BJson _ => e = TypeError
  end -> rejected E s (PostMsg b) e /\ rejected E s (PostState b) e.
Proof.
  intros Hm Hs Hb. destruct (served_good E m s Hm Hs) as (a & sd & -> & Ha).
  destruct b as [| |[]]; try contradiction; subst e; split; apply rejected_run; reflexivity.
Qed.

(** ** GET and DELETE *)
Lemma serialize_items_good l : (forall i, In i l -> ~ is_raw i) -> serialize_items l = Good (map item_json l).
Proof.
  induction l as [|i l IH]; intros H; [reflexivity|]. cbn [serialize_items map].
  rewrite IH by (intros j Hj; apply H; right; exact Hj).
  destruct i as [s|x|v]; try reflexivity. exfalso. apply (H (IRaw v)); [left; reflexivity|eexists; reflexivity].
Qed.
Lemma serialize_items_raw l : (exists i, In i l /\ is_raw i) -> serialize_items l = Fail AttributeError.
Proof.
  induction l as [|i l IH]; intros (j & Hj & Hr); [contradiction|]. cbn [serialize_items].
  destruct i as [s|x|v]; [| |reflexivity]; (destruct Hj as [<-|Hj]; [destruct Hr; discriminate|]);
    rewrite IH by eauto; reflexivity.
Qed.
Lemma get_run E n size d : asks n size ->
  srun (handle E (GetMsg n)) d = srun (data <- with_lock CL Ex (h_read_serialized size) ;;
        Ret (200, JObj [(k_message, JStr s_success); (k_data, JArr data)])) d.
Proof. intros H. destruct H as [|s z H]; cbn [handle]; unfold h_get; [reflexivity|]. apply py_int_iff in H. rewrite H. reflexivity. Qed.

Lemma get_good E m s g n size : 1 <= m -> served E m s -> holds m g (h_buf (dat s)) -> asks n size ->
  (forall i, In i (view m size g) -> ~ is_raw i) ->
  forall t, run t (handle E (GetMsg n)) s = (Good (state_answer (JArr (map item_json (view m size g)))), s).
Proof.
  intros Hm Hs Hh Hn Hr t. destruct (served_holds E m s g Hm Hs Hh) as [sd ->].
  rewrite run_handle, (get_run E n size _ Hn). unfold h_read_serialized. sr. rewrite ab_read by exact Hm.
  rewrite serialize_items_good by exact Hr. reflexivity.
Qed.
Lemma get_raw E m s g n size : 1 <= m -> served E m s -> holds m g (h_buf (dat s)) -> asks n size ->
  (exists i, In i (view m size g) /\ is_raw i) -> rejected E s (GetMsg n) AttributeError.
Proof.
  intros Hm Hs Hh Hn Hr t. destruct (served_holds E m s g Hm Hs Hh) as [sd ->].
  rewrite run_handle, (get_run E n size _ Hn). unfold h_read_serialized. sr. rewrite ab_read by exact Hm.
  rewrite serialize_items_raw by exact Hr. reflexivity.
Qed.
Lemma get_same E m s n : 1 <= m -> served E m s -> forall t, snd (run t (handle E (GetMsg n)) s) = s.
Proof.
  intros Hm Hs t. destruct (served_good E m s Hm Hs) as (a & sd & -> & Ha). rewrite run_handle. cbn [snd handle h_get].
  assert (H : forall size, snd (srun (data <- with_lock CL Ex (h_read_serialized size) ;;
        Ret (200, JObj [(k_message, JStr s_success); (k_data, JArr data)])) (hsd m a sd)) = hsd m a sd).
  { intros size. unfold h_read_serialized. sr. rewrite sr_read by exact Ha. destruct (acl a); [reflexivity|].
    destruct (serialize_items _); reflexivity. }
  unfold h_get. destruct n as [x|]; [destruct (py_int x)|]; rewrite ?H; reflexivity.
Qed.
Lemma get_bad_n E m s x : 1 <= m -> served E m s -> (forall z, ~ int_text x z) -> rejected E s (GetMsg (Some x)) ValueError.
Proof.
  intros Hm Hs Hx. destruct (served_good E m s Hm Hs) as (a & sd & -> & Ha). apply rejected_run.
  cbn [handle]. unfold h_get. destruct (py_int x) as [z|] eqn:Ez; [|reflexivity]. apply py_int_iff in Ez. destruct (Hx z Ez).
Qed.
Lemma delete_good E m s g : 1 <= m -> served E m s -> holds m g (h_buf (dat s)) ->
  answered E m s DelMsg (success 200) slog0.
Proof.
  intros Hm Hs Hh. destruct (served_holds E m s g Hm Hs Hh) as [sd ->]. apply answered_run.
  cbn [handle h_delete]. unfold h_delete. sr. rewrite ab_clear by exact Hm. reflexivity.
Qed.
(** A closed server buffer. *)
Lemma closed_astep m a c : aok m a -> acl a = true -> snd (astep m c a) = a.
Proof.
  intros Ha Hc. pose proof (proj2 (proj2 Ha) Hc) as [H1 H2]. destruct a as [q v cl]. cbn [aq av acl] in *. subst.
  destruct c; reflexivity.
Qed.
Lemma closed_rejects E m s : 1 <= m -> served E m s -> is_closed s = true ->
  (forall args data v, type_word E args (txt "str") -> field (txt "data") args (JObj data) ->
     field (txt "value") data v -> v <> JNull -> rejected E s (PostMsg (BJson (JObj args))) OSError) /\
  (forall args data, type_word E args (txt "error") \/ type_word E args (txt "warning") ->
     field (txt "data") args (JObj data) -> rejected E s (PostMsg (BJson (JObj args))) ValueError) /\
  (forall args, type_word E args (txt "close") -> rejected E s (PostMsg (BJson (JObj args))) ValueError) /\
  (forall n size, asks n size -> rejected E s (GetMsg n) OSError) /\
  rejected E s DelMsg ValueError.
Proof.
  intros Hm Hs Hc. destruct (served_good E m s Hm Hs) as (a & sd & -> & Ha).
  unfold is_closed in Hc. cbn [dat hsd h_buf bd last_line fl sclosed] in Hc.
  pose proof (fun c => closed_astep m a c Ha Hc) as Hst.
  split; [|split; [|split; [|split]]].
  - intros args data v Ht Hd Hv Hn. apply rejected_run.
    cbn [handle h_post]. fold (dtype E args). rewrite (type_word_dtype E args _ Ht), srun_with, srun_bind.
    change (text_eqb (txt "str") s_str) with true. cbv iota. apply field_jget in Hd, Hv.
    change k_data with (txt "data"). rewrite Hd. change k_value with (txt "value"). rewrite Hv.
    destruct v; try congruence; rewrite srun_bind, sr_write by exact Ha; rewrite Hc, Hst; reflexivity.
  - intros args data Ht Hd. apply rejected_run.
    cbn [handle h_post]. fold (dtype E args). rewrite srun_with, srun_bind.
    assert (Hk : text_eqb (dtype E args) s_str = false /\
                 (text_eqb (dtype E args) s_error || text_eqb (dtype E args) s_warning = true)%bool).
    { destruct Ht as [Ht|Ht]; rewrite (type_word_dtype E args _ Ht); split; reflexivity. }
    destruct Hk as [-> ->]. apply field_jget in Hd. change k_data with (txt "data"). rewrite Hd.
    rewrite srun_bind, sr_new_line by exact Ha. rewrite Hc, Hst. reflexivity.
  - intros args Ht. apply rejected_run. cbn [handle h_post]. fold (dtype E args).
    rewrite (type_word_dtype E args _ Ht), srun_with, srun_bind.
    change (text_eqb (txt "close") s_str) with false.
    change (text_eqb (txt "close") s_error || text_eqb (txt "close") s_warning)%bool with false.
    change (text_eqb (txt "close") s_close) with true. cbv iota. rewrite sr_new_line by exact Ha.
    rewrite Hc, Hst. reflexivity.
  - intros n size Hn. apply rejected_run. rewrite (get_run E n size _ Hn). unfold h_read_serialized. sr.
    rewrite sr_read by exact Ha. rewrite Hc. reflexivity.
  - apply rejected_run. cbn [handle]. unfold h_delete. sr. rewrite sr_clear by exact Ha. rewrite Hc, Hst. reflexivity.
Qed.
(** Requests on the states never touch the buffer. *)
Lemma states_keep_buffer E m s r t : 1 <= m -> served E m s ->
  match r with GetState _ | PostState _ | DelState => True | _ => False end ->
  h_buf (dat (snd (run t (handle E r) s))) = h_buf (dat s).
Proof.
  intros Hm Hs Hr. destruct (served_good E m s Hm Hs) as (a & sd & -> & Ha). rewrite run_handle. cbn [snd dat].
  destruct r as [b|n| |name|b|]; try contradiction; cbn [handle].
  - unfold s_get. destruct (strip _) as [|c l]; [reflexivity|]. sr. destruct (text_eqb _ _); sr;
      [rewrite sr_len by exact Ha|rewrite srun_op]; reflexivity.
  - destruct b as [| |[]]; try reflexivity. unfold s_post. cbv beta iota zeta. destruct (strip _) as [|c l]; [reflexivity|].
    sr. destruct (text_eqb _ _); reflexivity.
  - reflexivity.
Qed.

(** ** Histories of messages *)
Lemma type_word_lit E w data : strip w = w -> type_word E ((txt "type", JStr w) :: data) w.
Proof. intros H. exists (JStr w). split; [constructor|apply strip_iff, H]. Qed.
Lemma deserialize_serialize x : deserialize (serialize x) = Good (IMsg x).
Proof. destruct x; reflexivity. Qed.
Lemma req_of_code E m g g' sd o : 1 <= m -> hmsg_step E o g g' ->
  srun (handle E (req_of o)) (hsd m (absg m g) sd) =
  (Good (success match o with HEmpty => 200 | _ => 201 end), hsd m (absg m g') sd).
Proof.
  intros Hm H. destruct H as [v g g' Hv H|error x g g' H|g g' H|g]; cbn [req_of].
  - apply log_write_fun in H. subst g'.
    apply (sp_text E m g sd _ [(txt "value", v)]); [exact Hm|apply type_word_lit; reflexivity|apply field_jget; reflexivity|apply field_jget; reflexivity|exact Hv].
  - inversion H as [? g1 H1]; subst. apply log_new_line_fun in H1. subst g1. unfold post.
    rewrite (sp_note E m g sd _ (match serialize x with JObj fs => fs | _ => [] end)); [|exact Hm| |apply field_jget; reflexivity].
    + change (JObj match serialize x with JObj fs => fs | _ => [] end) with (serialize x).
      rewrite deserialize_serialize. reflexivity.
    + destruct error; [left|right]; apply type_word_lit; reflexivity.
  - apply log_new_line_fun in H. subst g'.
    apply (sp_close E m g sd); [exact Hm|apply type_word_lit; reflexivity].
  - cbn [handle]. unfold h_delete. sr. rewrite ab_clear by exact Hm. reflexivity.
Qed.
Lemma req_of_run E m g g' sd o : 1 <= m -> hmsg_step E o g g' ->
  exists code, srun (handle E (req_of o)) (hsd m (absg m g) sd) = (Good (success code), hsd m (absg m g') sd).
Proof. intros Hm H. eexists. apply req_of_code; assumption. Qed.
Lemma msgs_hist E m ops : 1 <= m -> forall g g' sd, hmsg_steps E (map snd ops) g g' ->
  snd (h_hist E (hist_of_msgs ops) (mkst (hsd m (absg m g) sd) ∅)) = mkst (hsd m (absg m g') sd) ∅ /\
  Forall (fun o => exists code, o = Good (HAnswer (success code)))
    (fst (h_hist E (hist_of_msgs ops) (mkst (hsd m (absg m g) sd) ∅))).
Proof.
  intros Hm. induction ops as [|[t o] ops IH]; intros g g' sd H.
  - inversion H; subst. split; [reflexivity|constructor].
  - cbn [map snd] in H. inversion H as [|? ? ? g1 ? H1 H2]; subst.
    change (hist_of_msgs ((t, o) :: ops)) with ((t, HReq (req_of o)) :: hist_of_msgs ops).
    cbn [h_hist]. rewrite run_h_call.
    destruct (req_of_run E m g g1 sd o Hm H1) as [code Hr]. cbn [h_call]. rewrite srun_bind, Hr. cbn [fst snd srun].
    destruct (IH g1 g' sd H2) as [I1 I2].
    destruct (h_hist E (hist_of_msgs ops) _) as [rs s2]. cbn [fst snd] in *. split; [exact I1|constructor; eauto].
Qed.
Lemma hist_holds E m ops g : 1 <= m -> hmsg_steps E (map snd ops) slog0 g ->
  let '(rs, s) := h_hist E (hist_of_msgs ops) (hfresh m) in
  holds m g (h_buf (dat s)) /\ served E m s /\ Forall (fun o => exists code, o = Good (HAnswer (success code))) rs /\
  (forall t size, run t (h_call E (HBase (Read size))) s = (Good (HRes (RItems (view m size g))), s)).
Proof.
  intros Hm H.
  destruct (msgs_hist E m ops Hm slog0 g [(k_closed, JBool false); (k_maxlen, JNum (Z.of_nat m))] H) as [H1 H2].
  change (mkst (hsd m (absg m slog0) _) ∅) with (hfresh m) in *.
  assert (Hs : served E m (snd (h_hist E (hist_of_msgs ops) (hfresh m)))) by (eexists; reflexivity).
  destruct (h_hist E (hist_of_msgs ops) (hfresh m)) as [rs s]. cbn [fst snd] in *. subst s.
  split; [apply abs_holds|]. split; [exact Hs|]. split; [exact H2|].
  intros t size. rewrite run_h_call. cbn [h_call]. rewrite srun_bind.
  rewrite sr_call by (apply absg_ok, Hm). cbn [astep absg]. 
  change (mkabuf (last_items m (done g)) (pend g) false) with (absg m g). rewrite aread_view. reflexivity.
Qed.

(** ** The states *)

(** "true" *)
Definition cf1 (c : N) : N := if ((65 <=? c) && (c <=? 90))%N then (c + 32)%N else c.
Lemma cf1_space c : is_space (cf1 c) = is_space c.
Proof.
  unfold cf1. destruct ((65 <=? c) && (c <=? 90))%N eqn:H; [|reflexivity].
  apply andb_prop in H. destruct H as [H1 H2]. apply N.leb_le in H1, H2.
  assert (Hn : forall x, (65 <= x <= 122)%N -> is_space x = false).
  { intros x Hx. unfold is_space. apply Bool.not_true_iff_false. rewrite existsb_exists. intros (y & Hy & E).
    apply N.eqb_eq in E. subst y. cbn in Hy. repeat (destruct Hy as [<-|Hy]; [lia|]). exact Hy. }
  rewrite !Hn by lia. reflexivity.
Qed.
Lemma cf1_letter c l : (97 <= l <= 122)%N -> cf1 c = l <-> same_letter c l.
Proof.
  intros Hl. unfold cf1, same_letter. destruct ((65 <=? c) && (c <=? 90))%N eqn:H.
  - apply andb_prop in H. destruct H as [H1 H2]. apply N.leb_le in H1, H2. lia.
  - apply Bool.andb_false_iff in H. rewrite !N.leb_gt in H. lia.
Qed.
Lemma casefold_map s : casefold s = map cf1 s.
Proof. reflexivity. Qed.
Lemma map_cf1_word w : casefold w = txt "true" <-> Forall2 same_letter w (txt "true").
Proof.
  rewrite casefold_map. split.
  - intros H. apply Forall2_same_length_lookup_2; [rewrite <- H, map_length; reflexivity|].
    intros i c l Hc Hl. rewrite <- H in Hl. rewrite list_lookup_fmap, Hc in Hl. injection Hl as Hl.
    assert (Hin : In l (txt "true")) by (rewrite <- H; apply elem_of_list_In, elem_of_list_lookup; exists i; rewrite list_lookup_fmap, Hc; simpl; congruence).
    apply cf1_letter; [|congruence]. vm_compute in Hin. repeat (destruct Hin as [<-|Hin]; [lia|]). contradiction.
  - intros H. change (txt "true") with [116; 114; 117; 101]%N in *. repeat match goal with H : Forall2 _ _ (_ :: _) |- _ => apply Forall2_cons_inv_r in H; destruct H as (? & ? & ? & H & ->) end.
    apply Forall2_nil_inv_r in H. subst. cbn [map].
    repeat match goal with H : same_letter ?x ?y |- _ => apply cf1_letter in H; [|lia] end. congruence.
Qed.
Lemma map_split {A B} (f : A -> B) l x y : map f l = x ++ y ->
  exists l1 l2, l = l1 ++ l2 /\ map f l1 = x /\ map f l2 = y.
Proof.
  revert l. induction x as [|b x IH]; intros l H; [exists [], l; auto|].
  destruct l as [|a l]; [discriminate|]. injection H as H1 H2. destruct (IH l H2) as (l1 & l2 & -> & <- & <-).
  exists (a :: l1), l2. simpl. rewrite H1. auto.
Qed.
Lemma space_cf1 l : Forall (fun c => is_space c = true) (map cf1 l) <-> Forall (fun c => is_space c = true) l.
Proof. rewrite List.Forall_map. split; apply List.Forall_impl; intros c; rewrite cf1_space; auto. Qed.
Lemma true_word_iff s : text_eqb (strip (casefold s)) (txt "true") = true <-> true_word s.
Proof.
  rewrite teq_true. split.
  - intros H. unfold strip in H.
    destruct (lstrip_split is_space (casefold s)) as (a & H1 & H2 & _).
    destruct (rstrip_split is_space (lstrip_by is_space (casefold s))) as (b & H3 & H4). rewrite H in H3. rewrite H3 in H1.
    rewrite casefold_map in H1. apply map_split in H1. destruct H1 as (a0 & r & -> & <- & H1).
    apply map_split in H1. destruct H1 as (w & b0 & -> & Hw & <-).
    exists a0, w, b0. split; [reflexivity|]. split; [apply List.Forall_app; split; apply spaces, space_cf1; assumption|].
    apply map_cf1_word. rewrite casefold_map. exact Hw.
  - intros (a & w & b & -> & Hf & Hw). apply List.Forall_app in Hf. destruct Hf as [Ha Hb]. apply spaces in Ha, Hb.
    apply map_cf1_word in Hw. rewrite casefold_map in *. rewrite !map_app, Hw. unfold strip.
    rewrite lstrip_app; [|apply space_cf1, Ha|reflexivity].
    apply rstrip_app; [apply space_cf1, Hb|reflexivity].
Qed.

(** One call. *)
Lemma state_word_dec E args :
  (exists n, strip match jget k_state args with Some v => py_str E v | None => [] end = n /\
     (state_word E args (txt "closed") <-> n = k_closed)).
Proof.
  eexists. split; [reflexivity|]. unfold state_word. change k_state with (txt "state"). destruct (jget _ args) as [v|] eqn:Ev.
  - split; [intros (v' & H & H1); apply field_jget in H; replace v with v' by congruence; apply strip_iff, H1
           |intros H; exists v; split; [apply field_jget, Ev|apply strip_iff, H]].
  - split; [intros (v' & H & _); apply field_jget in H; congruence|intros H; discriminate].
Qed.
Lemma asks_stop_iff E args :
  text_eqb (strip (casefold (py_str E match jget k_value args with Some v => v | None => JNull end))) (txt "true") = true
  <-> asks_stop E args.
Proof.
  rewrite true_word_iff. unfold asks_stop. change k_value with (txt "value"). destruct (jget _ args) as [v|] eqn:Ev.
  - apply field_jget in Ev. split; [eauto|intros (v' & H & H1)]. apply field_jget in H, Ev. congruence.
  - split; [|intros (v' & H & _); apply field_jget in H; congruence]. intros H. apply true_word_iff in H. discriminate.
Qed.

(** The two states the service keeps. *)
Definition states (b : bool) (mx : json) (sd : list (text * json)) : Prop :=
  jget k_closed sd = Some (JBool b) /\
  match jget k_maxlen sd with Some v => v = mx | None => mx = JNull end.
Lemma jget_jput k v sd : jget k (jput k v sd) = Some v.
Proof.
  induction sd as [|[k' w] sd IH]; simpl; [rewrite teq_refl; reflexivity|].
  destruct (text_eqb k' k) eqn:E; simpl; rewrite E; auto.
Qed.
Lemma jget_jput_ne k k' v sd : k <> k' -> jget k (jput k' v sd) = jget k sd.
Proof.
  intros Hne. induction sd as [|[k'' w] sd IH]; simpl.
  - destruct (text_eqb k' k) eqn:E; [apply teq_true in E; congruence|reflexivity].
  - destruct (text_eqb k'' k') eqn:E; simpl.
    + apply teq_true in E. subst. destruct (text_eqb k' k) eqn:E; [apply teq_true in E; congruence|reflexivity].
    + destruct (text_eqb k'' k); auto.
Qed.
Lemma states_put b b' mx sd : states b mx sd -> states b' mx (jput k_closed (JBool b') sd).
Proof.
  intros [H1 H2]. split; [apply jget_jput|]. rewrite jget_jput_ne by discriminate. exact H2.
Qed.

(** Calls that leave the states alone. *)
Lemma keep_states E c d :
  match c with
  | HStopAll | HReset | HReq DelState | HReq (PostState (BJson (JObj _))) => False
  | _ => True
  end -> h_state (snd (srun (h_call E c) d)) = h_state d.
Proof.
  intros Hc.
  assert (Hl : forall X (p : prog bcmd X), h_state (snd (srun (hlift p) d)) = h_state d).
  { intros X p. rewrite srun_hlift. reflexivity. }
  assert (Hlk : forall X Y (p : prog bcmd X) (f : X -> prog hcmd Y),
    (forall x d', h_state (snd (srun (f x) d')) = h_state d') -> h_state (snd (srun (x <- hlift p ;; f x) d)) = h_state d).
  { intros X Y p f Hf. rewrite srun_bind. pose proof (Hl X p) as H. destruct (srun (hlift p) d) as [[x|e|] d']; simpl in H; [rewrite Hf|..]; exact H. }
  assert (Ho : forall X (o : outcome X) d', h_state (snd (srun (of_out o) d')) = h_state d').
  { intros X [x|e|] d'; reflexivity. }
  assert (Hbind : forall X Y (p : prog hcmd X) (f : X -> prog hcmd Y),
    h_state (snd (srun p d)) = h_state d -> (forall x d', h_state (snd (srun (f x) d')) = h_state d') ->
    h_state (snd (srun (x <- p ;; f x) d)) = h_state d).
  { intros X Y p f H Hf. rewrite srun_bind. destruct (srun p d) as [[x|e|] d']; simpl in H; [rewrite Hf|..]; exact H. }
  destruct c as [r|c|size| |]; try contradiction; cbn [h_call].
  - apply Hbind; [|reflexivity]. destruct r as [b|n| |name|b|]; try contradiction; cbn [handle].
    + destruct b as [| |v]; try reflexivity. destruct v as [| | | | |args]; try reflexivity.
      unfold h_post. cbv beta iota zeta. rewrite srun_with. apply Hbind; [|reflexivity].
      destruct (text_eqb _ s_str); [|destruct (text_eqb _ s_error || text_eqb _ s_warning); [|destruct (text_eqb _ s_close)]].
      * destruct (jget k_data args) as [[| | | | |data]|]; try reflexivity.
        destruct (jget k_value data) as [[]|]; try reflexivity; apply Hlk; reflexivity.
      * destruct (jget k_data args) as [[| | | | |data]|]; try reflexivity. apply Hlk. intros _ d'.
        rewrite srun_bind. destruct (deserialize (JObj data)); reflexivity.
      * apply Hl.
      * reflexivity.
    + unfold h_get. assert (H : forall size, h_state (snd (srun (data <- with_lock CL Ex (h_read_serialized size) ;;
        Ret (200, JObj [(k_message, JStr s_success); (k_data, JArr data)])) d)) = h_state d).
      { intros size. apply Hbind; [|reflexivity]. rewrite srun_with. apply Hlk. intros; apply Ho. }
      destruct n as [x|]; [destruct (py_int x)|]; try apply H. reflexivity.
    + unfold h_delete. apply Hbind; [|reflexivity]. rewrite srun_with. apply Hl.
    + unfold s_get. destruct (strip _); [reflexivity|]. apply Hbind; [|reflexivity]. rewrite srun_with.
      destruct (text_eqb _ _); [apply Hlk; reflexivity|]. rewrite srun_with, srun_op. reflexivity.
    + destruct b as [| |v]; try reflexivity. destruct v; try contradiction; reflexivity.
  - destruct c; try (apply Hlk; reflexivity). reflexivity.
  - unfold h_read_serialized. apply Hbind; [|reflexivity]. apply Hlk. intros; apply Ho.
Qed.

Lemma flag_call E c b b' mx d : flag_step E c b b' -> states b mx (h_state d) ->
  states b' (if match c with HReset | HReq DelState => true | _ => false end then JNull else mx)
    (h_state (snd (srun (h_call E c) d))).
Proof.
  intros Hf Hs.
  assert (Hset : forall args, state_word E args (txt "closed") ->
    h_state (snd (srun (h_call E (HReq (PostState (BJson (JObj args))))) d)) =
    jput k_closed (JBool (text_eqb (strip (casefold (py_str E match jget k_value args with Some v => v | None => JNull end))) (txt "true"))) (h_state d)).
  { intros args H1. cbn [h_call handle]. unfold s_post. cbv beta iota zeta. destruct (state_word_dec E args) as (n & Hn & Hiff). rewrite Hn.
    apply Hiff in H1. rewrite H1. reflexivity. }
  destruct Hf as [b|b|b|args b H1 H2|args b H1 H2|args b H1|c b H1].
  - apply (states_put b), Hs.
  - split; reflexivity.
  - split; reflexivity.
  - rewrite Hset by exact H1. apply asks_stop_iff in H2. rewrite H2. apply (states_put b), Hs.
  - rewrite Hset by exact H1.
    destruct (text_eqb _ (txt "true")) eqn:E1; [apply asks_stop_iff in E1; contradiction|]. apply (states_put b), Hs.
  - cbn [h_call handle]. unfold s_post. cbv beta iota zeta. destruct (state_word_dec E args) as (n & Hn & Hiff). rewrite Hn.
    destruct n as [|c0 n0]; [exact Hs|]. 
    replace (text_eqb (c0 :: n0) k_closed) with false; [exact Hs|]. symmetry. apply teq_false. intros E1. apply H1, Hiff, E1.
  - rewrite keep_states by exact H1. destruct c as [[]| | | |]; try contradiction; exact Hs.
Qed.
Lemma flag_total E c b : exists b', flag_step E c b b'.
Proof.
  assert (Hp : forall args, exists b', flag_step E (HReq (PostState (BJson (JObj args)))) b b').
  { intros args. destruct (state_word_dec E args) as (n & Hn & Hiff). destruct (text_eqb n k_closed) eqn:En.
    - apply teq_true in En. apply Hiff in En.
      destruct (text_eqb (strip (casefold (py_str E match jget k_value args with Some v => v | None => JNull end))) (txt "true")) eqn:Ev.
      + exists true. apply fs_set; [exact En|apply asks_stop_iff, Ev].
      + exists false. apply fs_unset; [exact En|]. intros H. apply asks_stop_iff in H. congruence.
    - exists b. apply fs_other_state. intros H. apply Hiff in H. apply teq_false in En. contradiction. }
  destruct c as [r|c|size| |]; try (eexists; apply fs_keep; exact I).
  - destruct r as [x|n| |name|x|]; try (eexists; apply fs_keep; exact I).
    + destruct x as [| |[]]; try (eexists; apply fs_keep; exact I). apply Hp.
    + eexists. apply fs_delete.
  - eexists. apply fs_stop.
  - eexists. apply fs_reset.
Qed.
Lemma flags_total E cs : forall b, exists b', flag_steps E cs b b'.
Proof.
  induction cs as [|c cs IH]; intros b; [exists b; constructor|]. destruct (flag_total E c b) as [b1 H1].
  destruct (IH b1) as [b2 H2]. exists b2. econstructor; eassumption.
Qed.
Lemma resets_dec c : {resets c} + {~ resets c}.
Proof.
  destruct c as [[]|c|size| |]; try (right; intros [H|H]; discriminate); left; [right|left]; reflexivity.
Qed.
Lemma flags_hist E h : forall b b' mx s, lks s = ∅ -> flag_steps E (map snd h) b b' -> states b mx (h_state (dat s)) ->
  exists mx', states b' mx' (h_state (dat (snd (h_hist E h s)))) /\
    (Exists (fun c => resets (snd c)) h -> mx' = JNull) /\
    (~ Exists (fun c => resets (snd c)) h -> mx' = mx) /\ (mx = JNull -> mx' = JNull).
Proof.
  induction h as [|[t c] h IH]; intros b b' mx [d k] Hk Hf Hs.
  - inversion Hf; subst. exists mx. split; [exact Hs|]. split; [intros H; inversion H|]. auto.
  - cbn [map snd] in Hf. inversion Hf as [|? ? ? b1 ? H1 H2]; subst. simpl in Hk. subst k. cbn [h_hist].
    rewrite run_h_call. pose proof (flag_call E c b b1 mx d H1 Hs) as Hs1.
    destruct (IH b1 b' _ (mkst (snd (srun (h_call E c) d)) ∅) eq_refl H2 Hs1) as (mx' & G1 & G2 & G3 & G4).
    destruct (h_hist E h _) as [rs s2]. cbn [snd] in *. exists mx'. split; [exact G1|].
    assert (Hr : match c with HReset | HReq DelState => true | _ => false end = true <-> resets c).
    { unfold resets. destruct c as [[]|c|size| |]; split; try discriminate; auto; intros [|]; discriminate. }
    split; [|split].
    + intros He. apply List.Exists_cons in He. destruct He as [He|He]; [|auto]. cbn [snd] in He.
      apply Hr in He. rewrite He in G4. auto.
    + intros He. rewrite G3 by (intros H; apply He, List.Exists_cons; right; exact H).
      destruct (match c with HReset | HReq DelState => true | _ => false end) eqn:Ec; [|reflexivity].
      exfalso. apply He, List.Exists_cons. left. apply Hr. reflexivity.
    + intros ->. apply G4. destruct (match c with HReset | HReq DelState => true | _ => false end); reflexivity.
Qed.
Lemma states_fresh m : states false (JNum (Z.of_nat m)) (h_state (dat (hfresh m))).
Proof. split; reflexivity. Qed.

(** The answers of the state service. *)
Lemma get_state_run E t name d : strip name <> [] -> strip name <> k_curlen ->
  run t (handle E (GetState (Some name))) (mkst d ∅) =
  (Good (state_answer match jget (strip name) (h_state d) with Some v => v | None => JNull end), mkst d ∅).
Proof.
  intros H1 H2. rewrite run_handle. cbn [handle]. unfold s_get. destruct (strip name) as [|c l]; [congruence|].
  apply teq_false in H2. rewrite H2. sr. rewrite srun_op. reflexivity.
Qed.
Lemma get_len_run E t m a sd : aok m a ->
  run t (handle E (GetState (Some (txt "curlen")))) (mkst (hsd m a sd) ∅) =
  (Good (state_answer (JNum (Z.of_nat (Nat.min m (length (aq a) + 1))))), mkst (hsd m a sd) ∅).
Proof.
  intros Ha. rewrite run_handle. cbn [handle].
  assert (Hg : s_get (Some (txt "curlen")) =
    (res <- with_lock CL Ex (n <- hlift lb_len ;; Ret (JNum (Z.of_nat n))) ;;
     Ret (200, JObj [(k_message, JStr s_success); (k_data, res)]))) by reflexivity.
  rewrite Hg. sr. rewrite sr_len by exact Ha. reflexivity.
Qed.

(** C51, C52 *)
Lemma hist_unlocked E h : forall s, lks s = ∅ -> lks (snd (h_hist E h s)) = ∅.
Proof.
  induction h as [|[t c] h IH]; intros [d k] Hk; [exact Hk|]. simpl in Hk. subst k. cbn [h_hist].
  rewrite run_h_call. specialize (IH (mkst (snd (srun (h_call E c) d)) ∅) eq_refl). destruct (h_hist E h _). exact IH.
Qed.
Lemma state_of_hist E m h name t : strip name <> [] -> strip name <> k_curlen ->
  let s := snd (h_hist E h (hfresh m)) in
  run t (handle E (GetState (Some name))) s =
  (Good (state_answer match jget (strip name) (h_state (dat s)) with Some v => v | None => JNull end), s).
Proof.
  intros H1 H2 s. pose proof (hist_unlocked E h (hfresh m) eq_refl) as Hk. fold s in Hk. destruct s as [d k].
  simpl in Hk. subst k. apply get_state_run; assumption.
Qed.
Lemma flag_hist E m h b t : flag_steps E (map snd h) false b ->
  let s := snd (h_hist E h (hfresh m)) in
  run t (handle E (GetState (Some (txt "closed")))) s = (Good (state_answer (JBool b)), s).
Proof.
  intros Hf s. destruct (flags_hist E h false b (JNum (Z.of_nat m)) (hfresh m) eq_refl Hf (states_fresh m)) as (mx & [H1 _] & _).
  unfold s. rewrite state_of_hist by (vm_compute; discriminate). change (strip (txt "closed")) with k_closed. rewrite H1. reflexivity.
Qed.
Lemma maxlen_hist E m h t :
  let s := snd (h_hist E h (hfresh m)) in
  (~ Exists (fun c => resets (snd c)) h ->
   run t (handle E (GetState (Some (txt "maxlen")))) s = (Good (state_answer (JNum (Z.of_nat m))), s)) /\
  (Exists (fun c => resets (snd c)) h ->
   run t (handle E (GetState (Some (txt "maxlen")))) s = (Good (state_answer JNull), s)).
Proof.
  destruct (flags_total E (map snd h) false) as [b Hf].
  destruct (flags_hist E h false b (JNum (Z.of_nat m)) (hfresh m) eq_refl Hf (states_fresh m)) as (mx & [_ H1] & H2 & H3 & _).
  intros s. unfold s. rewrite state_of_hist by (vm_compute; discriminate). change (strip (txt "maxlen")) with k_maxlen.
  split; intros H; [specialize (H3 H)|specialize (H2 H)]; subst mx; destruct (jget k_maxlen _); subst; reflexivity || discriminate.
Qed.
Lemma maxlen_bound E m h : 1 <= m ->
  dmax (storage (h_buf (dat (snd (h_hist E h (hfresh m)))))) = m /\
  length (dq (storage (h_buf (dat (snd (h_hist E h (hfresh m))))))) <= m.
Proof.
  intros Hm. destruct (served_good E m (snd (h_hist E h (hfresh m))) Hm) as (a & sd & -> & Ha); [eexists; reflexivity|].
  split; [reflexivity|apply Ha].
Qed.

(** C09: len() of the host buffer, in the process and over HTTP. *)
Lemma host_len E m s g t : 1 <= m -> served E m s -> holds m g (h_buf (dat s)) ->
  exists n items,
    run t (h_call E (HBase Len)) s = (Good (HRes (RNat n)), s) /\
    run t (handle E (GetState (Some (txt "curlen")))) s = (Good (state_answer (JNum (Z.of_nat n))), s) /\
    run t (h_call E (HBase (Read None))) s = (Good (HRes (RItems items)), s) /\
    items = visible m g /\
    (n = length items <-> (pend g <> [] \/ m <= length (done g))) /\
    (n <> length items -> n = S (length items)).
Proof.
  intros Hm Hs Hh. destruct (served_holds E m s g Hm Hs Hh) as [sd ->].
  pose proof (absg_ok m g Hm) as Ha.
  exists (Nat.min m (length (aq (absg m g)) + 1)), (visible m g).
  split; [rewrite run_h_call; cbn [h_call]; rewrite srun_bind, sr_call by exact Ha; reflexivity|].
  split; [apply get_len_run, Ha|].
  split; [rewrite run_h_call; cbn [h_call]; rewrite srun_bind, sr_call by exact Ha; cbn [astep absg];
          change (mkabuf (last_items m (done g)) (pend g) false) with (absg m g); rewrite aread_view; reflexivity|].
  split; [reflexivity|]. cbn [absg aq]. rewrite last_items_length. unfold visible. rewrite last_items_length.
  unfold items_of. rewrite app_length. destruct (pend g) as [|c p]; cbn [length].
  - split; [|lia]. split; [intros H; right; lia|intros [H|H]; [congruence|lia]].
  - split; [|lia]. split; [intros _; left; discriminate|lia].
Qed.

(** C34 *)
Lemma host_write E data s t : run t (h_call E (HBase (Write data))) s = (Fail NotImplementedError, s).
Proof. reflexivity. Qed.
Lemma host_fileno E s t : run t (h_call E (HBase Fileno)) s = (Fail OSError, s) /\ run t (h_call E (HBase Seek)) s = (Fail OSError, s).
Proof. split; reflexivity. Qed.

(** C50 *)
Lemma marked_iff v : marked v <-> is_serialized v = true.
Proof.
  assert (Ht : forall x, truthy x = true <-> ~ false_value x).
  { intros x. split.
    - intros H Hf. destruct Hf; discriminate.
    - intros H. destruct (truthy x) eqn:E; [reflexivity|]. exfalso. apply H.
      destruct x as [|[]|z|[|]|[|]|[|]]; try discriminate; try constructor.
      cbn in E. apply negb_false_iff, Z.eqb_eq in E. subst z. constructor. }
  split.
  - intros (fs & x & -> & H1 & H2 & H3). apply field_jget in H1, H3. cbn [is_serialized].
    change k_is with (txt "/is_syncsdata"). change k_kind with (txt "/type"). rewrite H1, H3, (proj2 (Ht x) H2). apply text_eqb_refl.
  - intros H. destruct v as [| | | | |fs]; try discriminate. cbn [is_serialized] in H. apply andb_prop in H. destruct H as [H1 H2].
    change k_is with (txt "/is_syncsdata") in H1. change k_kind with (txt "/type") in H2.
    destruct (jget (txt "/is_syncsdata") fs) as [x|] eqn:E1; [|discriminate].
    destruct (jget (txt "/type") fs) as [y|] eqn:E2; [|discriminate]. destruct y; try discriminate.
    cbn [is_str] in H2. apply text_eqb_eq in H2. subst s. exists fs, x. repeat split; [apply field_jget, E1|apply Ht, H1|apply field_jget, E2].
Qed.
Lemma unmarked v : ~ marked v -> is_serialized v = false.
Proof. intros H. destruct (is_serialized v) eqn:E; [|reflexivity]. exfalso. apply H, marked_iff, E. Qed.
Lemma not_serialized_raw data : ~ marked (JObj data) -> deserialize (JObj data) = Good (IRaw (JObj data)).
Proof. intros H. unfold deserialize. rewrite (unmarked _ H). reflexivity. Qed.
Lemma no_type_key data : marked (JObj data) ->
  (forall v, ~ field (txt "type") data v) \/ (forall v, ~ field (txt "data") data v) -> deserialize (JObj data) = Fail KeyError.
Proof.
  intros H Hk. apply marked_iff in H. rewrite !no_field_jget in Hk.
  unfold deserialize. rewrite H. cbn [negb]. change k_type with (txt "type"). change k_data with (txt "data").
  destruct (jget (txt "type") data); [|reflexivity]. destruct Hk as [Hk|Hk]; [discriminate|]. rewrite Hk. reflexivity.
Qed.
Lemma deserialize_marked data ty x : marked (JObj data) -> field (txt "type") data ty -> field (txt "data") data x ->
  (forall l, tuple_items x l -> deserialize (JObj data) = Good (IMsg (mkgmsg ty l))) /\
  ((forall l, ~ tuple_items x l) -> deserialize (JObj data) = Fail TypeError).
Proof.
  intros H H1 H2. apply marked_iff in H. apply field_jget in H1, H2.
  unfold deserialize. rewrite H. cbn [negb]. change k_type with (txt "type"). change k_data with (txt "data"). rewrite H1, H2.
  split.
  - intros l Hl. destruct Hl; reflexivity.
  - intros Hn. destruct x; try reflexivity; exfalso; eapply Hn; constructor.
Qed.

(** C47 *)
Lemma deserialize_other v : ~ marked v ->
  deserialize v = Good match v with JStr s => IStr s | v => IRaw v end.
Proof. intros H. unfold deserialize. rewrite (unmarked v H). reflexivity. Qed.

(** C58 *)
Lemma infer_spec route n rest : route = repeat 47%N n ++ rest -> (match rest with c :: _ => c <> 47%N | [] => True end) ->
  infer_endpoint route = map (fun c => if N.eqb c 47 then 46%N else c) rest.
Proof.
  intros -> Hr. unfold infer_endpoint, replace_char, slash_c. rewrite lstrip_app; [reflexivity| |].
  - apply List.Forall_forall. intros c Hc. apply repeat_spec in Hc. subst. reflexivity.
  - destruct rest as [|c rest]; [exact I|]. apply N.eqb_neq. congruence.
Qed.
