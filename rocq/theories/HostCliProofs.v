(** * HostCliProofs: properties of the clients of the host service, one call at a time *)
From stdpp Require Import gmap.
From Coq Require Import String.
From Coq Require Import List NArith ZArith Bool Arith Lia.
From Verif Require Import PyStr Prog ProgFacts PyIO Base Spec SpecFacts LineBuf LineBufFacts LineBufSpec LineBufProofs
  Locks Atomic Serial FileFacts Json Strip Host HostSpec HostInt HostFacts HostProofs HostCli JsonSpec JsonFacts ProcFacts ProcTransp HostCliSpec HostCliFacts.
Import ListNotations.
Local Open Scope prog_scope.
Local Open Scope nat_scope.

(** ** int("%d" % n) *)
Lemma digits_val_dec s : List.Forall (fun c => 48 <= c <= 57)%N s -> s <> [] ->
  forall a b, digits_val (Z.of_N a) b s = Some (Z.of_N (dec_val s a)).
Proof.
  induction 1 as [|c s Hc _ IH]; intros Hne a b; [congruence|]. cbn [digits_val dec_val].
  replace ((48 <=? c) && (c <=? 57))%N with true by (symmetry; apply andb_true_intro; split; apply N.leb_le; lia).
  replace (Z.of_N a * 10 + (Z.of_N c - 48))%Z with (Z.of_N (a * 10 + (c - 48))) by lia.
  destruct s as [|d s]; [reflexivity|]. apply IH. discriminate.
Qed.
Lemma digit_not_space c : (48 <= c <= 57)%N -> int_space c = false.
Proof.
  intros Hx. unfold int_space, is_space. apply andb_false_iff. left. apply Bool.not_true_iff_false.
  rewrite existsb_exists. intros (y & Hy & E). apply N.eqb_eq in E. subst y. cbn in Hy.
  repeat (destruct Hy as [<-|Hy]; [lia|]). exact Hy.
Qed.
Lemma py_int_dec n : py_int (dec_of_N n) = Some (Z.of_N n).
Proof.
  pose proof (dec_of_N_range n) as Hr. destruct (dec_of_N_cons n) as (c & r & E). pose proof (dec_of_N_val n) as Hv.
  rewrite E in *. unfold py_int. pose proof (List.Forall_inv Hr) as Hc.
  replace (lstrip_by int_space (c :: r)) with (c :: r).
  2: { cbn [lstrip_by]. rewrite digit_not_space by exact Hc. reflexivity. }
  replace (rstrip_by int_space (c :: r)) with (c :: r).
  2: { rewrite <- (app_nil_r (c :: r)) at 2. symmetry. apply rstrip_app; [constructor|].
       destruct (rev (c :: r)) as [|x l] eqn:Er; [exact I|]. apply digit_not_space.
       assert (Hin : In x (c :: r)) by (apply in_rev; rewrite Er; left; reflexivity).
       exact (proj1 (List.Forall_forall _ _) Hr x Hin). }
  pose proof (digits_val_dec (c :: r) Hr ltac:(discriminate) 0%N false) as H. rewrite Hv in H.
  change (Z.of_N 0) with 0%Z in H. destruct (N.eq_dec c 43) as [->|H1]; [lia|]. destruct (N.eq_dec c 45) as [->|H2]; [lia|].
  rewrite <- H. destruct c as [|p]; [lia|].
  do 6 (destruct p as [p|p|]; try reflexivity); congruence.
Qed.
Lemma py_int_Z z : (0 <= z)%Z -> py_int (dec_of_Z z) = Some z.
Proof. intros H. unfold dec_of_Z. destruct (Z.ltb_spec z 0); [lia|]. rewrite py_int_dec. f_equal. lia. Qed.

(** ** The server *)
Lemma served_snoc E m s c t : served E m s -> served E m (snd (run t (h_call E c) s)).
Proof.
  intros [h ->]. exists (h ++ [(t, c)]). revert c t. generalize (hfresh m).
  induction h as [|[t' c'] h IH]; intros s c t; cbn [h_hist app snd].
  - destruct (run t (h_call E c) s); reflexivity.
  - destruct (run t' (h_call E c') s) as [r s1]. specialize (IH s1 c t).
    destruct (h_hist E h s1) as [rs s2], (h_hist E (h ++ [(t, c)]) s1) as [rs' s2']. exact IH.
Qed.
Lemma served_handle E m d r : served E m (mkst d ∅) -> served E m (mkst (snd (srun (handle E r) d)) ∅).
Proof.
  intros H. pose proof (served_snoc E m _ (HReq r) 0 H) as H1. rewrite run_h_call in H1. cbn [snd h_call] in H1.
  rewrite srun_bind in H1. destruct (srun (handle E r) d) as [[]]; exact H1.
Qed.
Lemma stop_flag_iff E d b : stop_flag E d b <-> jget k_closed (h_state d) = Some (JBool b).
Proof.
  unfold stop_flag. split.
  - intros H. specialize (H 0). rewrite get_state_run in H by (vm_compute; discriminate).
    injection H as H. change (strip (txt "closed")) with k_closed in H. destruct (jget k_closed _); congruence.
  - intros H t. rewrite get_state_run by (vm_compute; discriminate). change (strip (txt "closed")) with k_closed. rewrite H. reflexivity.
Qed.
Lemma server_abs E m d g b : 1 <= m -> server E m d g b ->
  exists sd, d = hsd m (absg m g) sd /\ jget k_closed sd = Some (JBool b).
Proof.
  intros Hm [H1 H2 H3]. destruct (served_holds E m _ g Hm H1 H2) as [sd H]. exists sd. injection H as ->.
  split; [reflexivity|]. apply stop_flag_iff in H3. exact H3.
Qed.
Lemma server_mk E m g sd b : served E m (mkst (hsd m (absg m g) sd) ∅) -> jget k_closed sd = Some (JBool b) ->
  server E m (hsd m (absg m g) sd) g b.
Proof. intros H1 H2. constructor; [exact H1|apply abs_holds|apply stop_flag_iff; exact H2]. Qed.

Definition ok_body : option json := Some (JObj [(k_message, JStr s_success)]).
(** The bodies of messages and what they say. *)
Inductive body_msg : json -> hmsg -> Prop :=
| bm_text s : body_msg (body_str s) (says_text s)
| bm_close : body_msg body_close HEof
| bm_error e : body_msg (body_exc s_error e) (says_exc true e)
| bm_warning e : body_msg (body_exc s_warning e) (says_exc false e).
Lemma body_req b o : body_msg b o -> wire_req (PostMsg (BJson b)) = req_of o.
Proof. intros H. destruct H; reflexivity. Qed.
Lemma body_code b o : body_msg b o -> match o with HEmpty => 200 | _ => 201 end = 201.
Proof. intros H. destruct H; reflexivity. Qed.
Lemma body_step E b o g : body_msg b o -> exists g', hmsg_step E o g g'.
Proof.
  intros H. destruct H; eexists.
  - apply hs_text; [discriminate|apply log_write_fun; reflexivity].
  - apply hs_eof, log_new_line_fun. reflexivity.
  - apply hs_note. constructor. apply log_new_line_fun. reflexivity.
  - apply hs_note. constructor. apply log_new_line_fun. reflexivity.
Qed.
Lemma hmsg_step_fun E o g g1 g2 : hmsg_step E o g g1 -> hmsg_step E o g g2 -> g1 = g2.
Proof.
  intros H1 H2. destruct H1 as [v g g' Hv H|error x g g' H|g g' H|g]; inversion H2; subst.
  - repeat match goal with H : log_write _ _ _ |- _ => apply log_write_fun in H end. congruence.
  - repeat match goal with H : log_note _ _ _ |- _ => inversion H; clear H; subst end.
    repeat match goal with H : log_new_line _ _ |- _ => apply log_new_line_fun in H end. congruence.
  - repeat match goal with H : log_new_line _ _ |- _ => apply log_new_line_fun in H end. congruence.
  - reflexivity.
Qed.

Lemma run_srun E t r d o d' : run t (handle E r) (mkst d ∅) = (o, mkst d' ∅) -> srun (handle E r) d = (o, d').
Proof.
  rewrite run_handle. intros H. pose proof (f_equal fst H) as H1. pose proof (f_equal (fun x => dat (snd x)) H) as H2.
  cbn [fst snd dat] in H1, H2. destruct (srun (handle E r) d). cbn [fst snd] in *. congruence.
Qed.

Section Env.
  Variable E : henv.

  Lemma serve_post m d g b body o g' : 1 <= m -> server E m d g b -> body_msg body o -> hmsg_step E o g g' ->
    exists d', serve E (PostMsg (BJson body)) d = ((201, ok_body), d') /\ server E m d' g' b.
  Proof.
    intros Hm Hs Hb Hg. destruct (server_abs E m d g b Hm Hs) as (sd & -> & Hf).
    exists (hsd m (absg m g') sd). unfold serve. rewrite (body_req body o Hb).
    rewrite (req_of_code E m g g' sd o Hm Hg), (body_code body o Hb). split; [reflexivity|]. apply server_mk; [|exact Hf].
    pose proof (served_handle E m _ (req_of o) (srv_served _ _ _ _ _ Hs)) as H.
    rewrite (req_of_code E m g g' sd o Hm Hg) in H. exact H.
  Qed.
  Definition flag_body (b : bool) : option json := Some (JObj [(k_message, JStr s_success); (k_data, JBool b)]).
  Lemma serve_flag d b : stop_flag E d b -> serve E (GetState (Some k_closed)) d = ((200, flag_body b), d).
  Proof.
    intros H. specialize (H 0). apply run_srun in H. unfold serve.
    change (wire_req (GetState (Some k_closed))) with (GetState (Some (txt "closed"))). rewrite H. reflexivity.
  Qed.

  (** One request when nothing goes wrong. *)
  Definition up (w : world) : Prop := w_faults w = [].
  Lemma creq_up r w : up w -> creq E r w =
    (Good (fst (serve E r (w_srv w))), mkworld (snd (serve E r (w_srv w))) (w_mir w) []).
  Proof. intros H. unfold creq. rewrite H. destruct (serve E r (w_srv w)); reflexivity. Qed.
  Lemma world_eta w : up w -> mkworld (w_srv w) (w_mir w) [] = w.
  Proof. intros H. destruct w. unfold up in H. simpl in *. subst. reflexivity. Qed.

  (** ** Calls *)
  Notation crun p w := (@srun ccmd world (clisem E) _ p w).
  Lemma call_mir t M c w : has_rlock M ->
    call E t (OnMir M c) w = (fst (crun (m_call M c) w), mkst (snd (crun (m_call M c) w)) ∅).
  Proof. intros H. unfold call, ev_run. cbn [c_call]. apply (run_ol E (hm_lock M)), ol_m_call, H. Qed.
  Lemma call_rd t c w : call E t (OnRd c) w = (fst (crun (r_call c) w), mkst (snd (crun (r_call c) w)) ∅).
  Proof. unfold call, ev_run. cbn [c_call]. apply (run_ol E 1), ol_r_call. Qed.

  (** ** Readers *)
  Lemma sr_get name v w : up w ->
    serve E (GetState (Some name)) (w_srv w) = ((200, Some (JObj [(k_message, JStr s_success); (k_data, v)])), w_srv w) ->
    crun (rd_get_states name) w = (Good v, w).
  Proof.
    intros Hu Hs. unfold rd_get_states. rewrite (sr_then E), (creq_up _ _ Hu), Hs. cbn [fst snd reply].
    rewrite world_eta by exact Hu. reflexivity.
  Qed.
  Lemma serve_state m h d t name v : server_after E m h d ->
    run t (handle E (GetState (Some name))) (snd (h_hist E h (hfresh m))) = (Good (state_answer v), snd (h_hist E h (hfresh m))) ->
    serve E (GetState (Some name)) d = ((200, Some (JObj [(k_message, JStr s_success); (k_data, wire v)])), d).
  Proof.
    intros Hd H. pose proof (hist_unlocked E h (hfresh m) eq_refl) as Hk. red in Hd.
    destruct (snd (h_hist E h (hfresh m))) as [d0 k]. cbn [dat lks] in *. subst d0 k. apply run_srun in H.
    unfold serve. cbn [wire_req]. rewrite H. reflexivity.
  Qed.
  Lemma rd_maxlen m h w t : server_after E m h (w_srv w) -> up w ->
    (~ Exists (fun c => resets (snd c)) h -> call E t (OnRd RdMaxlen) w = (Good (CJson (JNum (Z.of_nat m))), mkst w ∅)) /\
    (Exists (fun c => resets (snd c)) h -> call E t (OnRd RdMaxlen) w = (Good (CJson JNull), mkst w ∅)).
  Proof.
    intros Hs Hu. destruct (maxlen_hist E m h 0) as [H1 H2]. rewrite call_rd. cbn [r_call]. unfold as_cres. rewrite srun_bind.
    split; intros H; [specialize (H1 H)|specialize (H2 H)];
      rewrite (sr_get k_maxlen _ w Hu (serve_state m h _ 0 _ _ Hs ltac:(eassumption))); reflexivity.
  Qed.
  Lemma rd_closed m h w t b : server_after E m h (w_srv w) -> up w -> flag_steps E (map snd h) false b ->
    call E t (OnRd RdClosed) w = (Good (CJson (JBool b)), mkst w ∅).
  Proof.
    intros Hs Hu Hf. pose proof (flag_hist E m h b 0 Hf) as H. rewrite call_rd. cbn [r_call]. unfold as_cres. rewrite srun_bind.
    rewrite (sr_get k_closed _ w Hu (serve_state m h _ 0 _ _ Hs H)). reflexivity.
  Qed.
  Lemma rd_len m g b w t : 1 <= m -> server E m (w_srv w) g b -> up w ->
    exists n, run t (h_call E (HBase Len)) (mkst (w_srv w) ∅) = (Good (HRes (RNat n)), mkst (w_srv w) ∅) /\
      call E t (OnRd RdLen) w = (Good (CJson (JNum (Z.of_nat n))), mkst w ∅).
  Proof.
    intros Hm Hs Hu. destruct (host_len E m _ g t Hm (srv_served _ _ _ _ _ Hs) (srv_holds _ _ _ _ _ Hs)) as (n & items & H1 & H2 & _).
    exists n. split; [exact H1|]. rewrite call_rd. cbn [r_call]. unfold as_cres. rewrite srun_bind.
    apply run_srun in H2.
    rewrite (sr_get k_curlen (JNum (Z.of_nat n)) w Hu); [reflexivity|].
    unfold serve. change (wire_req (GetState (Some k_curlen))) with (GetState (Some (txt "curlen"))).
    rewrite H2. reflexivity.
  Qed.
  (** Changing requests of the reader have exactly the effect of the method on the server. *)
  Lemma sr_done r w code d' : up w -> code < 400 ->
    srun (handle E (wire_req r)) (w_srv w) = (Good (success code), d') ->
    crun (rd_done r) w = (Good true, mkworld d' (w_mir w) []).
  Proof.
    intros Hu Hcode Hr. unfold rd_done. rewrite (sr_then E), (creq_up _ _ Hu). unfold serve. rewrite Hr.
    apply Nat.ltb_lt in Hcode. unfold reply, success. cbn [fst snd answer wire_answer]. rewrite Hcode. reflexivity.
  Qed.
  Lemma rd_change c r w t code d' : up w -> code < 400 ->
    r_call c = as_cres CBool (rd_done r) ->
    srun (handle E (wire_req r)) (w_srv w) = (Good (success code), d') ->
    call E t (OnRd c) w = (Good (CBool true), mkst (mkworld d' (w_mir w) []) ∅).
  Proof.
    intros Hu Hc Hr Hh. rewrite call_rd, Hr. unfold as_cres. rewrite srun_bind, (sr_done r w code d' Hu Hc Hh). reflexivity.
  Qed.
  Lemma rd_stop w t : up w -> exists d', server_call E HStopAll (w_srv w) d' /\
    call E t (OnRd RdStop) w = (Good (CBool true), mkst (mkworld d' (w_mir w) []) ∅).
  Proof.
    intros Hu. exists (snd (srun (h_call E HStopAll) (w_srv w))). split; [intros t'; rewrite run_h_call; reflexivity|].
    eapply rd_change with (code := 201); [exact Hu|lia|reflexivity|reflexivity].
  Qed.
  Lemma rd_reset w t : up w -> exists d', server_call E HReset (w_srv w) d' /\
    call E t (OnRd RdReset) w = (Good (CBool true), mkst (mkworld d' (w_mir w) []) ∅).
  Proof.
    intros Hu. exists (snd (srun (h_call E HReset) (w_srv w))). split; [intros t'; rewrite run_h_call; reflexivity|].
    eapply rd_change with (code := 200); [exact Hu|lia|reflexivity|reflexivity].
  Qed.
  Lemma rd_clear_run m g b w t : 1 <= m -> server E m (w_srv w) g b -> up w ->
    exists d', server E m d' slog0 b /\ call E t (OnRd RdClear) w = (Good (CBool true), mkst (mkworld d' (w_mir w) []) ∅).
  Proof.
    intros Hm Hs Hu. destruct (server_abs E m _ g b Hm Hs) as (sd & Hd & Hf).
    pose proof (req_of_code E m g slog0 sd HEmpty Hm (hs_empty E g)) as Hr. cbn [req_of] in Hr.
    exists (hsd m (absg m slog0) sd). split.
    - apply server_mk; [|exact Hf]. pose proof (served_handle E m _ DelMsg (srv_served _ _ _ _ _ Hs)) as H. rewrite Hd, Hr in H. exact H.
    - eapply rd_change with (code := 200); [exact Hu|lia|reflexivity|]. cbn [wire_req]. rewrite Hd. exact Hr.
  Qed.

  (** read() *)
  Definition size_of (size : option Z) : option Z := match size with Some z => Some (Z.max 0 z) | None => None end.
  Lemma asks_size size : asks match size with Some z => Some (dec_of_Z (Z.max 0 z)) | None => None end (size_of size).
  Proof. destruct size as [z|]; cbn [size_of]; constructor. apply py_int_iff, py_int_Z. lia. Qed.
  Lemma deserialize_items l : (forall i, In i l -> ~ is_raw i) ->
    deserialize_all (map wire (map item_json l)) = Good (map wire_item l).
  Proof.
    induction l as [|i l IH]; intros H; [reflexivity|]. cbn [map deserialize_all].
    rewrite IH by (intros j Hj; apply H; right; exact Hj).
    destruct i as [s|x|v]; try reflexivity. exfalso. apply (H (IRaw v)); [left; reflexivity|eexists; reflexivity].
  Qed.
  Lemma rd_read_good m g b w t size : 1 <= m -> server E m (w_srv w) g b -> up w ->
    (forall i, In i (view m (size_of size) g) -> ~ is_raw i) ->
    call E t (OnRd (RdRead size)) w = (Good (CItems (map wire_item (view m (size_of size) g))), mkst w ∅).
  Proof.
    intros Hm Hs Hu Hr. rewrite call_rd. cbn [r_call]. unfold as_cres, rd_read. rewrite srun_bind, (sr_then E), (creq_up _ _ Hu).
    unfold serve. cbn [wire_req].
    pose proof (get_good E m _ g _ _ Hm (srv_served _ _ _ _ _ Hs) (srv_holds _ _ _ _ _ Hs) (asks_size size) Hr 0) as H.
    apply run_srun in H. rewrite H.
    cbn [fst snd answer state_answer wire_answer option_map reply].
    change (200 <? 400) with true. cbv iota. rewrite world_eta by exact Hu.
    cbn [json_load bind wire]. unfold index. 
    change (jget k_data _) with (Some (JArr (map wire (map item_json (view m (size_of size) g))))).
    cbn [bind py_tuple of_out']. rewrite deserialize_items by exact Hr. reflexivity.
  Qed.
  (** A rejected request. *)
  Lemma rejected_reply d r e : wf_henv E -> rejected E (mkst d ∅) (wire_req r) e ->
    exists code body, serve E r d = ((code, body), d) /\ 400 <= code /\ body = option_map wire (snd (on_err E e)).
  Proof.
    intros Hw Hr. specialize (Hr 0). apply run_srun in Hr. unfold serve.
    rewrite Hr. cbn [answer wire_answer].
    eexists _, _. split; [reflexivity|]. split; [apply Hw|reflexivity].
  Qed.
  Lemma error_wire b : error_of (option_map wire b) = error_of b.
  Proof. destruct b as [[]|]; reflexivity. Qed.
  Lemma rejected_then {A} r e (f : option json -> prog ccmd A) w : wf_henv E -> up w -> rejected E (mkst (w_srv w) ∅) (wire_req r) e ->
    crun (request_then r f) w = (Fail (error_of (snd (on_err E e))), w).
  Proof.
    intros Hw Hu Hr. destruct (rejected_reply _ _ _ Hw Hr) as (code & body & Hs & Hc & ->). rewrite (sr_then E), (creq_up _ _ Hu), Hs.
    cbn [fst snd reply]. apply Nat.ltb_ge in Hc. rewrite Hc. rewrite world_eta by exact Hu.
    change (err_of ?b) with (error_of b). rewrite error_wire. reflexivity.
  Qed.
  Lemma rd_read_rejected w t size e : wf_henv E -> up w ->
    (forall n, asks n (size_of size) -> rejected E (mkst (w_srv w) ∅) (GetMsg n) e) ->
    call E t (OnRd (RdRead size)) w = (Fail (error_of (snd (on_err E e))), mkst w ∅).
  Proof.
    intros Hw Hu Hr. rewrite call_rd. cbn [r_call]. unfold as_cres, rd_read. rewrite srun_bind.
    rewrite (rejected_then _ e _ w Hw Hu); [reflexivity|]. cbn [wire_req]. apply Hr, asks_size.
  Qed.
  Lemma rd_read_raw m g b w t size : 1 <= m -> wf_henv E -> server E m (w_srv w) g b -> up w ->
    (exists i, In i (view m (size_of size) g) /\ is_raw i) ->
    call E t (OnRd (RdRead size)) w = (Fail (error_of (snd (on_err E AttributeError))), mkst w ∅).
  Proof.
    intros Hm Hw Hs Hu Hr. apply rd_read_rejected; [assumption..|]. intros n Hn.
    eapply get_raw; [exact Hm|apply Hs|exact (srv_holds _ _ _ _ _ Hs)|exact Hn|exact Hr].
  Qed.
  Lemma rd_read_closed m w t size : 1 <= m -> wf_henv E -> served E m (mkst (w_srv w) ∅) -> is_closed (mkst (w_srv w) ∅) = true -> up w ->
    call E t (OnRd (RdRead size)) w = (Fail (error_of (snd (on_err E OSError))), mkst w ∅).
  Proof.
    intros Hm Hw Hs Hc Hu. apply rd_read_rejected; [assumption..|]. intros n Hn.
    destruct (closed_rejects E m _ Hm Hs Hc) as (_ & _ & _ & H & _). eapply H, Hn.
  Qed.

  (** ** Mirrors *)
  Section Mirror.
    Variable M : hmir.
    Hypothesis HM : has_rlock M.
    Notation J := (hm_id M).

    Lemma mir_kp v w : mirror_is M (Some v) w -> w = kp M v w.
    Proof. intros H. apply kp_id. exact H. Qed.
    Lemma kp_mir v w : mirror_is M (Some v) (kp M v w).
    Proof. unfold mirror_is, kp, mset. cbn [w_mir]. apply lookup_insert. Qed.
    Lemma mset_others f w : others_same M w (mset J f w).
    Proof. intros j Hj. unfold mset. cbn [w_mir]. apply lookup_insert_ne. congruence. Qed.

    (** Asking for the stop signal. *)
    Lemma creq_flag b w : up w -> stop_flag E (w_srv w) b -> creq E (GetState (Some k_closed)) w = (Good (200, flag_body b), w).
    Proof. intros Hu Hf. rewrite creq_up by exact Hu. rewrite (serve_flag _ _ Hf). cbn [fst snd]. rewrite world_eta by exact Hu. reflexivity. Qed.
    Lemma x_check_up c b w : up w -> stop_flag E (w_srv w) b -> x_check E c w = ((if (c && b)%bool then Fail StopIteration else Good tt), w).
    Proof. intros Hu Hf. unfold x_check. destruct c; [|reflexivity]. rewrite (creq_flag b) by assumption. destruct b; reflexivity. Qed.

    (** C52 *)
    Lemma stopped_write t data v w : up w -> stop_flag E (w_srv w) true -> mirror_is M (Some v) w ->
      call E t (OnMir M (HWrite data)) w = (Fail StopIteration, mkst w ∅).
    Proof.
      intros Hu Hf Hv. rewrite call_mir by exact HM. cbn [m_call]. unfold as_cres. rewrite srun_bind.
      rewrite (mir_kp v w Hv). rewrite sr_write. rewrite <- (mir_kp v w Hv).
      unfold x_body. rewrite (x_check_up true true) by assumption. cbn [andb put3]. rewrite <- (mir_kp v w Hv). reflexivity.
    Qed.
    (** whatever goes wrong *)
    Lemma bad_flag fs w : w_faults w = fs -> Forall fault_ok fs -> stop_flag E (w_srv w) true ->
      exists e, x_check E true w = (Fail e, mkworld (w_srv w) (w_mir w) (tl fs)).
    Proof.
      intros Hw Hfs Hf. unfold x_check, creq. rewrite Hw, (serve_flag _ _ Hf). destruct fs as [|f fs]; [eexists; reflexivity|].
      apply List.Forall_inv in Hfs. destruct f as [|code b| |]; cbn [fst snd tl]; try (eexists; reflexivity).
      cbn in Hfs. apply Nat.ltb_ge in Hfs. unfold flagged, reply. rewrite Hfs. eexists. reflexivity.
    Qed.
    Lemma stopped_write_faults t data v w : Forall fault_ok (w_faults w) -> stop_flag E (w_srv w) true -> mirror_is M (Some v) w ->
      exists e, call E t (OnMir M (HWrite data)) w = (Fail e, mkst (mkworld (w_srv w) (w_mir w) (tl (w_faults w))) ∅).
    Proof.
      intros Hw Hf Hv. destruct (bad_flag _ w eq_refl Hw Hf) as [e He]. exists e. rewrite call_mir by exact HM. cbn [m_call].
      unfold as_cres. rewrite srun_bind. rewrite (mir_kp v w Hv). rewrite sr_write. rewrite <- (mir_kp v w Hv).
      unfold x_body. rewrite He. cbn [put3]. unfold kp, mset. cbn [w_srv w_mir w_faults]. rewrite insert_id by exact Hv. reflexivity.
    Qed.

    (** Messages of a mirror when nothing goes wrong. *)
    Section Up.
      Variables (m : nat) (b : bool).
      Hypothesis Hm : 1 <= m.

      Lemma x_post_up body o g g' w : server E m (w_srv w) g b -> up w -> body_msg body o -> hmsg_step E o g g' ->
        exists w', x_post E body w = (Good tt, w') /\ server E m (w_srv w') g' b /\ up w' /\ w_mir w' = w_mir w.
      Proof.
        intros Hs Hu Hb Hg. destruct (serve_post m _ g b body o g' Hm Hs Hb Hg) as (d' & H1 & H2).
        exists (mkworld d' (w_mir w) []). unfold x_post. rewrite creq_up by exact Hu. rewrite H1.
        split; [reflexivity|]. split; [exact H2|]. split; reflexivity.
      Qed.

      Lemma steps_one o g g' : hmsg_step E o g g' -> hmsg_steps E [o] g g'.
      Proof. intros H. econstructor; [exact H|constructor]. Qed.
      Lemma steps_app os1 os2 g g1 g2 : hmsg_steps E os1 g g1 -> hmsg_steps E os2 g1 g2 -> hmsg_steps E (os1 ++ os2) g g2.
      Proof. induction 1; intros H2; [exact H2|]. simpl. econstructor; eauto. Qed.

      Lemma has_break_iff data : has_break data = false <-> no_break data.
      Proof.
        split; [apply has_break_no|]. intros H. unfold has_break. rewrite (seg_no_lines data H). reflexivity.
      Qed.
      Lemma has_break_true data : has_break data = true <-> ~ no_break data.
      Proof. rewrite <- has_break_iff. destruct (has_break data); split; congruence. Qed.

      (** [new_line] *)
      Lemma x_nl_up check v g w : server E m (w_srv w) g b -> up w -> (hm_aggr M = true -> v = []) ->
        (check && b = true -> v = [])%bool ->
        exists g' w', hmsg_steps E (says_line v) g g' /\ x_nl E M check v w = (Good tt, [], w') /\
          server E m (w_srv w') g' b /\ up w' /\ w_mir w' = w_mir w.
      Proof.
        intros Hs Hu Hag Hcb. destruct v as [|c v].
        - exists g, w. split; [constructor|]. split; [reflexivity|]. auto.
        - destruct (body_step E _ _ g (bm_text ((c :: v) ++ [10%N]))) as [g' Hg].
          destruct (x_post_up _ _ g g' w Hs Hu (bm_text _) Hg) as (w' & H1 & H2 & H3 & H4).
          exists g', w'. split; [apply steps_one, Hg|]. split; [|auto].
          unfold x_nl, x_body. rewrite (x_check_up check b) by (try apply Hs; exact Hu).
          destruct (check && b)%bool; [discriminate (Hcb eq_refl)|].
          destruct (hm_aggr M); [discriminate (Hag eq_refl)|]. change (has_break [LF]) with true. cbv iota.
          change (body_str ((c :: v) ++ [LF])) with (body_str ((c :: v) ++ [10%N])). rewrite H1. reflexivity.
      Qed.
      Lemma x_nl_stopped v w : up w -> b = true -> stop_flag E (w_srv w) b -> v <> [] ->
        x_nl E M true v w = (Fail StopIteration, v, w).
      Proof.
        intros Hu -> Hf Hv. destruct v as [|c v]; [congruence|]. unfold x_nl, x_body.
        rewrite (x_check_up true true) by assumption. reflexivity.
      Qed.
      Lemma x_note_up check body o v g w : server E m (w_srv w) g b -> up w -> (hm_aggr M = true -> v = []) ->
        (check && b = true -> v = [])%bool -> body_msg body o ->
        exists g' w', hmsg_steps E (says_line v ++ [o]) g g' /\ x_note E M check body v w = (Good tt, [], w') /\
          server E m (w_srv w') g' b /\ up w' /\ w_mir w' = w_mir w.
      Proof.
        intros Hs Hu Hag Hcb Hb. destruct (x_nl_up check v g w Hs Hu Hag Hcb) as (g1 & w1 & H1 & H2 & H3 & H4 & H5).
        destruct (body_step E _ _ g1 Hb) as [g' Hg].
        destruct (x_post_up _ _ g1 g' w1 H3 H4 Hb Hg) as (w' & H6 & H7 & H8 & H9).
        exists g', w'. split; [eapply steps_app; [exact H1|apply steps_one, Hg]|].
        unfold x_note. rewrite H2, H6. split; [reflexivity|]. split; [exact H7|]. split; [exact H8|congruence].
      Qed.
    End Up.

    (** C53 *)
    Lemma call_close t exc v w : mirror_is M (Some v) w ->
      call E t (OnMir M (HClose exc)) w =
      match x_close E M exc v w with
      | (Good _, v', w') => (Good CUnit, mkst (mset J cls w') ∅)
      | (Fail e, v', w') => (Fail e, mkst (kp M v' w') ∅)
      | (Block, v', w') => (Block, mkst (kp M v' w') ∅)
      end.
    Proof.
      intros Hv. rewrite call_mir by exact HM. cbn [m_call]. unfold as_cres. rewrite srun_bind.
      rewrite (mir_kp v w Hv), sr_close, <- (mir_kp v w Hv). destruct (x_close E M exc v w) as [[[[]|e|] v'] w']; reflexivity.
    Qed.
    Definition close_says (exc : option excobj) : hmsg := match exc with Some e => says_exc true e | None => HEof end.
    Lemma close_up t m exc v g b w : 1 <= m -> server E m (w_srv w) g b -> up w -> mirror_is M (Some v) w ->
      (hm_aggr M = true -> v = []) ->
      (b = true -> v = [] \/ exists e, exc = Some e /\ ex_cls e = ExcStopIteration) ->
      exists g' w', hmsg_steps E (says_line v ++ [close_says exc]) g g' /\
        call E t (OnMir M (HClose exc)) w = (Good CUnit, mkst w' ∅) /\
        server E m (w_srv w') g' b /\ up w' /\ mirror_is M None w' /\ others_same M w w'.
    Proof.
      intros Hm Hs Hu Hv Hag Hb. rewrite (call_close t exc v w Hv).
      assert (Hx : exists g' w', hmsg_steps E (says_line v ++ [close_says exc]) g g' /\
        x_close E M exc v w = (Good tt, [], w') /\ server E m (w_srv w') g' b /\ up w' /\ w_mir w' = w_mir w).
      { destruct exc as [e|]; cbn [x_close close_says]; apply x_note_up; auto using bm_error, bm_close.
        - intros H. apply andb_prop in H. destruct H as [H1 H2]. destruct (Hb H2) as [H|(e' & He & Hc)]; [exact H|].
          injection He as <-. unfold is_stop in H1. rewrite Hc in H1. discriminate.
        - cbn. intros H2. destruct (Hb H2) as [H|(e' & He & Hc)]; [exact H|discriminate]. }
      destruct Hx as (g' & w' & H1 & H2 & H3 & H4 & H5). exists g', (mset J cls w'). rewrite H2.
      split; [exact H1|]. split; [reflexivity|]. split; [exact H3|]. split; [exact H4|]. split.
      - exists cls. unfold mset. cbn [w_mir]. rewrite lookup_insert. auto.
      - intros j Hj. rewrite <- H5. apply mset_others, Hj.
    Qed.
    Lemma close_stopped t exc v w : up w -> stop_flag E (w_srv w) true -> mirror_is M (Some v) w -> v <> [] ->
      (forall e, exc = Some e -> ex_cls e <> ExcStopIteration) ->
      call E t (OnMir M (HClose exc)) w = (Fail StopIteration, mkst w ∅).
    Proof.
      intros Hu Hf Hv Hne He. rewrite (call_close t exc v w Hv).
      replace (x_close E M exc v w) with (Fail StopIteration : outcome unit, v, w); [rewrite <- (mir_kp v w Hv); reflexivity|].
      symmetry. destruct exc as [e|]; cbn [x_close]; unfold x_note.
      - replace (is_stop e) with false; [cbn [negb]; rewrite (x_nl_stopped true) by auto; reflexivity|].
        specialize (He e eq_refl). unfold is_stop. destruct (ex_cls e); congruence.
      - rewrite (x_nl_stopped true) by auto. reflexivity.
    Qed.

    (** C55 *)
    Lemma x_check_faults fs w : w_faults w = fs -> Forall fault_ok fs -> stop_flag E (w_srv w) false ->
      exists a fs1, next_request fs a fs1 /\
        x_check E true w = (match a with Delivered => Good tt | _ => fst (x_check E true w) end, mkworld (w_srv w) (w_mir w) fs1) /\
        (a <> Delivered -> exists e, fst (x_check E true w) = Fail e).
    Proof.
      intros Hw Hfs Hf. unfold x_check, creq. rewrite Hw, (serve_flag _ _ Hf).
      destruct fs as [|f fs]; [exists Delivered, []; split; [constructor|]; split; [reflexivity|congruence]|].
      apply List.Forall_inv in Hfs. destruct f as [|code b| |]; cbn [fst snd].
      - exists Delivered, fs. split; [constructor|]. split; [reflexivity|congruence].
      - exists Rejected, fs. split; [constructor; exact Hfs|]. cbn in Hfs. apply Nat.ltb_ge in Hfs.
        unfold flagged, reply. rewrite Hfs. split; [reflexivity|]. intros _. eexists. reflexivity.
      - exists Rejected, fs. split; [constructor|]. split; [reflexivity|]. intros _. eexists. reflexivity.
      - exists Unanswered, fs. split; [constructor|]. split; [reflexivity|]. intros _. eexists. reflexivity.
    Qed.
    Lemma x_post_faults m fs body o g w : 1 <= m -> w_faults w = fs -> Forall fault_ok fs -> server E m (w_srv w) g false ->
      body_msg body o ->
      exists a fs1 g' d', next_request fs a fs1 /\
        x_post E body w = (match a with Delivered => Good tt | _ => fst (x_post E body w) end, mkworld d' (w_mir w) fs1) /\
        (a <> Delivered -> exists e, fst (x_post E body w) = Fail e) /\
        server E m d' g' false /\ hmsg_steps E (match a with Rejected => [] | _ => [o] end) g g'.
    Proof.
      intros Hm Hw Hfs Hs Hb. destruct (body_step E _ _ g Hb) as [g1 Hg].
      destruct (serve_post m _ g false body o g1 Hm Hs Hb Hg) as (d1 & H1 & H2).
      unfold x_post, creq. rewrite Hw, H1.
      destruct fs as [|f fs].
      { exists Delivered, [], g1, d1. split; [constructor|]. split; [reflexivity|]. split; [congruence|]. split; [exact H2|apply steps_one, Hg]. }
      apply List.Forall_inv in Hfs. destruct f as [|code b| |]; cbn [fst snd].
      - exists Delivered, fs, g1, d1. split; [constructor|]. split; [reflexivity|]. split; [congruence|]. split; [exact H2|apply steps_one, Hg].
      - exists Rejected, fs, g, (w_srv w). split; [constructor; exact Hfs|]. cbn in Hfs. apply Nat.ltb_ge in Hfs.
        unfold acked, reply. rewrite Hfs. split; [reflexivity|]. split; [intros _; eexists; reflexivity|]. split; [exact Hs|constructor].
      - exists Rejected, fs, g, (w_srv w). split; [constructor|]. split; [reflexivity|]. split; [intros _; eexists; reflexivity|]. split; [exact Hs|constructor].
      - exists Unanswered, fs, g1, d1. split; [constructor|]. split; [reflexivity|]. split; [intros _; eexists; reflexivity|]. split; [exact H2|apply steps_one, Hg].
    Qed.
    Lemma next_ok fs a fs1 : Forall fault_ok fs -> next_request fs a fs1 -> Forall fault_ok fs1.
    Proof. intros H Hn. destruct Hn; inversion H; subst; auto. Qed.
    Lemma x_body_faults m data v g w : 1 <= m -> server E m (w_srv w) g false -> Forall fault_ok (w_faults w) ->
      exists (ok : bool) taken sent v' fs' g' d' x,
        x_body E M true data v w = (x, v', mkworld d' (w_mir w) fs') /\
        (if ok then x = Good (length data) else exists e, x = Fail e) /\
        write_does (hm_aggr M) data v (w_faults w) ok taken sent v' fs' /\
        hmsg_steps E (map says_text sent) g g' /\ server E m d' g' false /\ Forall fault_ok fs'.
    Proof.
      intros Hm Hs Hfs. destruct (x_check_faults _ w eq_refl Hfs (srv_flag _ _ _ _ _ Hs)) as (a & fs1 & Hn & Hc & He).
      pose proof (next_ok _ _ _ Hfs Hn) as Hok1. unfold x_body.
      assert (Hbad : a <> Delivered -> exists e, x_check E true w = (Fail e, mkworld (w_srv w) (w_mir w) fs1)).
      { intros Ha. destruct (He Ha) as [e Hfe]. exists e. rewrite Hc. destruct a; [congruence|..]; rewrite Hfe; reflexivity. }
      destruct a.
      2,3: destruct Hbad as [e Hbad]; [discriminate|]; rewrite Hbad; exists false, [], [], v, fs1, g, (w_srv w), (Fail e);
        (split; [reflexivity|]); (split; [eexists; reflexivity|]); (split; [eapply wd_check_fails; [|exact Hn]; discriminate|]);
        (split; [constructor|]); split; assumption.
      clear Hbad He. rewrite Hc. pose (w1 := mkworld (w_srv w) (w_mir w) fs1). fold w1.
      assert (Hs1 : server E m (w_srv w1) g false) by exact Hs.
      destruct (hm_aggr M) eqn:Eag.
      - destruct (x_post_faults m fs1 _ _ g w1 Hm eq_refl Hok1 Hs1 (bm_text data)) as (a & fs2 & g' & d' & P1 & P2 & P3 & P4 & P5).
        rewrite P2. eexists _, _, _, _, fs2, g', d', _. split; [reflexivity|]. split; [|split; [eapply wd_at_once; [reflexivity|exact Hn|exact P1]|]].
        + destruct a; [reflexivity|..]; (destruct (P3 ltac:(discriminate)) as [e ->]; exists e; reflexivity).
        + split; [destruct a; exact P5|]. split; [exact P4|eapply next_ok; eassumption].
      - destruct (has_break data) eqn:Hb.
        + destruct (x_post_faults m fs1 _ _ g w1 Hm eq_refl Hok1 Hs1 (bm_text (v ++ data))) as (a & fs2 & g' & d' & P1 & P2 & P3 & P4 & P5).
          rewrite P2. exists (match a with Delivered => true | _ => false end), [data], (match a with Rejected => [] | _ => [v ++ data] end),
            (match a with Delivered => [] | _ => v ++ data end), fs2, g', d',
            (match a with Delivered => Good (length data) | _ => then_ (fst (x_post E (body_str (v ++ data)) w1)) (fun _ => Good (length data)) end).
          split; [destruct a; [reflexivity|..]; (destruct (P3 ltac:(discriminate)) as [e ->]; reflexivity)|].
          split; [destruct a; [reflexivity|..]; (destruct (P3 ltac:(discriminate)) as [e ->]; exists e; reflexivity)|].
          split; [eapply wd_posted; [reflexivity|apply has_break_true, Hb|exact Hn|exact P1]|].
          split; [destruct a; exact P5|]. split; [exact P4|eapply next_ok; eassumption].
        + exists true, [data], [], (v ++ data), fs1, g, (w_srv w), (Good (length data)). split; [reflexivity|]. split; [reflexivity|].
          split; [apply wd_held; [reflexivity|apply has_break_iff, Hb|exact Hn]|]. split; [constructor|]. split; assumption.
    Qed.
    Lemma write_faults t m data v g w : 1 <= m -> server E m (w_srv w) g false -> Forall fault_ok (w_faults w) ->
      mirror_is M (Some v) w ->
      exists ok taken sent v' g' r w',
        write_does (hm_aggr M) data v (w_faults w) ok taken sent v' (w_faults w') /\
        call E t (OnMir M (HWrite data)) w = (r, mkst w' ∅) /\ write_result data ok r /\
        hmsg_steps E (map says_text sent) g g' /\ server E m (w_srv w') g' false /\
        mirror_is M (Some v') w' /\ others_same M w w' /\ Forall fault_ok (w_faults w').
    Proof.
      intros Hm Hs Hfs Hv. rewrite call_mir by exact HM. cbn [m_call]. unfold as_cres. rewrite srun_bind.
      rewrite (mir_kp v w Hv), sr_write, <- (mir_kp v w Hv).
      destruct (x_body_faults m data v g w Hm Hs Hfs) as (ok & taken & sent & v' & fs' & g' & d' & x & H1 & H2 & H3 & H4 & H5 & H6).
      rewrite H1. cbn [put3].
      exists ok, taken, sent, v', g', (then_ x (fun n => Good (CNat n))), (kp M v' (mkworld d' (w_mir w) fs')).
      split; [exact H3|]. split; [destruct x; reflexivity|]. split.
      { unfold write_result. destruct ok; [subst x; reflexivity|]. destruct H2 as [e ->]. eexists. reflexivity. }
      split; [exact H4|]. split; [exact H5|]. split; [apply kp_mir|]. split; [|exact H6].
      intros j Hj. unfold kp, mset. cbn [w_mir]. apply lookup_insert_ne. congruence.
    Qed.
    Lemma writes_faults t m texts : 1 <= m -> forall v g w, server E m (w_srv w) g false -> Forall fault_ok (w_faults w) ->
      mirror_is M (Some v) w ->
      exists oks taken sent v' g' rs w',
        writes_do (hm_aggr M) texts v (w_faults w) oks taken sent v' (w_faults w') /\
        calls E t (map (fun data => OnMir M (HWrite data)) texts) w = (rs, mkst w' ∅) /\
        List.Forall2 (fun '(data, ok) r => write_result data ok r) (combine texts oks) rs /\
        hmsg_steps E (map says_text sent) g g' /\ server E m (w_srv w') g' false /\
        mirror_is M (Some v') w' /\ others_same M w w' /\ Forall fault_ok (w_faults w').
    Proof.
      intros Hm. induction texts as [|data texts IH]; intros v g w Hs Hfs Hv.
      - exists [], [], [], v, g, [], w. split; [constructor|]. split; [reflexivity|]. split; [constructor|]. split; [constructor|].
        split; [exact Hs|]. split; [exact Hv|]. split; [intros j _; reflexivity|exact Hfs].
      - destruct (write_faults t m data v g w Hm Hs Hfs Hv) as (ok & taken & sent & v1 & g1 & r & w1 & A1 & A2 & A3 & A4 & A5 & A6 & A7 & A8).
        destruct (IH v1 g1 w1 A5 A8 A6) as (oks & takens & sents & v2 & g2 & rs & w2 & B1 & B2 & B3 & B4 & B5 & B6 & B7 & B8).
        exists (ok :: oks), (taken ++ takens), (sent ++ sents), v2, g2, (r :: rs), w2.
        split; [econstructor; eassumption|]. split.
        { unfold calls in *. cbn [map ev_hist]. unfold call in A2. rewrite A2. rewrite B2. reflexivity. }
        split; [constructor; assumption|]. split; [rewrite map_app; eapply steps_app; eassumption|]. split; [exact B5|]. split; [exact B6|].
        split; [|exact B8]. intros j Hj. rewrite (B7 j Hj). apply A7, Hj.
    Qed.
  End Mirror.
End Env.

(** ** Nothing is lost or sent twice unless an answer is lost *)
Definition not_lost (f : fault) : Prop := f <> Lost.
Lemma next_not_lost fs a fs1 : Forall not_lost fs -> next_request fs a fs1 -> a <> Unanswered /\ Forall not_lost fs1.
Proof.
  intros H Hn. destruct Hn; try (split; [discriminate|]; first [constructor|inversion H; assumption]).
  inversion H as [|? ? H1]. exfalso. apply H1. reflexivity.
Qed.
Lemma once texts v fs oks taken sent v' fs' : writes_do false texts v fs oks taken sent v' fs' -> Forall not_lost fs ->
  concat sent ++ v' = v ++ concat taken /\ Forall not_lost fs'.
Proof.
  induction 1 as [v fs|data texts v fs ok taken sent v1 fs1 oks takens sents v2 fs2 H _ IH]; intros Hf.
  - rewrite app_nil_r. auto.
  - assert (H1 : concat sent ++ v1 = v ++ concat taken /\ Forall not_lost fs1).
    { inversion H as [a f1 Ha Hn|f1 _ Hb Hn|f1 a f2 _ Hb Hn1 Hn2|f1 a f2 Hx]; subst; try discriminate.
      - destruct (next_not_lost _ _ _ Hf Hn). simpl. rewrite app_nil_r. auto.
      - destruct (next_not_lost _ _ _ Hf Hn). simpl. rewrite app_nil_r. auto.
      - destruct (next_not_lost _ _ _ Hf Hn1) as [_ Hf1]. destruct (next_not_lost _ _ _ Hf1 Hn2) as [Ha Hf2].
        split; [|exact Hf2]. destruct a; simpl; rewrite ?app_nil_r; congruence. }
    destruct H1 as [H1 H2]. destruct (IH H2) as [H3 H4]. split; [|exact H4].
    rewrite !concat_app, <- app_assoc, H3, app_assoc, H1, <- app_assoc. reflexivity.
Qed.
(** Aggressive mirrors: exactly the texts of the successful writes arrive, and those whose
    answer was lost. *)
Lemma at_once texts v fs oks taken sent v' fs' : writes_do true texts v fs oks taken sent v' fs' -> Forall not_lost fs ->
  sent = map fst (List.filter snd (combine texts oks)) /\ v' = v /\ Forall not_lost fs'.
Proof.
  induction 1 as [v fs|data texts v fs ok taken sent v1 fs1 oks takens sents v2 fs2 H _ IH]; intros Hf; [auto|].
  assert (H1 : sent = map fst (List.filter snd [(data, ok)]) /\ v1 = v /\ Forall not_lost fs1).
  { inversion H as [a f1 Ha Hn|f1 Hx|f1 a f2 Hx|f1 a f2 _ Hn1 Hn2]; subst; try discriminate.
    - destruct (next_not_lost _ _ _ Hf Hn). auto.
    - destruct (next_not_lost _ _ _ Hf Hn1) as [_ Hf1]. destruct (next_not_lost _ _ _ Hf1 Hn2) as [Ha Hf2].
      split; [|auto]. destruct a; [reflexivity|reflexivity|congruence]. }
  destruct H1 as (-> & -> & H2). destruct (IH H2) as (-> & -> & H3). split; [|auto].
  cbn [combine]. destruct ok; reflexivity.
Qed.

(** ** Statements in one piece *)
Lemma read_same E m g b w t t' size : 1 <= m -> server E m (w_srv w) g b -> w_faults w = [] ->
  (forall i, In i (view m (option_map (Z.max 0) size) g) -> ~ is_raw i) ->
  exists items,
    run t' (h_call E (HBase (Read (option_map (Z.max 0) size)))) (mkst (w_srv w) ∅) = (Good (HRes (RItems items)), mkst (w_srv w) ∅) /\
    call E t (OnRd (RdRead size)) w = (Good (CItems (map wire_item items)), mkst w ∅) /\
    items = view m (option_map (Z.max 0) size) g.
Proof.
  intros Hm Hs Hu Hr. exists (view m (option_map (Z.max 0) size) g). split; [|split; [|reflexivity]].
  - destruct (server_abs E m _ g b Hm Hs) as (sd & -> & _). rewrite run_h_call. cbn [h_call]. rewrite srun_bind.
    rewrite sr_call by (apply absg_ok, Hm). cbn [astep absg].
    change (mkabuf (last_items m (done g)) (pend g) false) with (absg m g). rewrite aread_view. reflexivity.
  - exact (rd_read_good E m g b w t size Hm Hs Hu Hr).
Qed.
Lemma clean_wire i : clean_item i -> wire_item i = i.
Proof.
  destruct i as [s|[ty data]|v]; cbn; [|intros [H1 H2]|reflexivity].
  - intros H. rewrite (proj2 (wire_text_id s) H). reflexivity.
  - unfold wire_msg. cbn. rewrite (wire_clean ty H1). f_equal. f_equal.
    induction H2 as [|x l Hx _ IH]; [reflexivity|]. cbn [map]. rewrite (wire_clean x Hx), IH. reflexivity.
Qed.
Lemma last_items_in {A} n (l : list A) x : In x (last_items n l) -> In x l.
Proof. intros H. unfold last_items in H. rewrite <- (firstn_skipn (length l - n) l). apply in_or_app. right. exact H. Qed.
Lemma view_in m size g i : In i (view m size g) -> In i (done g) \/ exists s, i = IStr s.
Proof.
  assert (Hv : In i (visible m g) -> In i (done g) \/ exists s, i = IStr s).
  { unfold visible, items_of. intros H. apply last_items_in, in_app_or in H. destruct H as [H|H]; [left; exact H|].
    destruct (pend g); [contradiction|]. destruct H as [<-|[]]. right. eauto. }
  unfold view. destruct size as [z|]; [|exact Hv]. destruct (z <=? 0)%Z; [contradiction|]. intros H. apply Hv. eapply last_items_in, H.
Qed.
Lemma wlines_strs v data i : In i (wlines v data) -> exists s, i = IStr s.
Proof.
  unfold wlines. destruct (seg data) as [[|l ls] r]; [contradiction|]. intros [<-|H]; [eauto|].
  apply in_map_iff in H. destruct H as (s & <- & _). eauto.
Qed.
Lemma msgs_not_raw E os : forall g g', hmsg_steps E os g g' -> (forall i, In i (done g) -> ~ is_raw i) -> forall i, In i (done g') -> ~ is_raw i.
Proof.
  induction 1 as [g|o os g g1 g2 H _ IH]; [auto|]. intros Hg. apply IH. clear IH.
  assert (Hnl : forall ga gb, log_new_line ga gb -> (forall i, In i (done ga) -> ~ is_raw i) -> forall i, In i (done gb) -> ~ is_raw i).
  { intros ga gb [d|d p Hp] Ha i Hi; cbn [done] in *; [auto|]. apply in_app_or in Hi. destruct Hi as [Hi|[<-|[]]]; [auto|]. intros [v Hv]. discriminate. }
  destruct H as [v g g' _ H|error x g g' H|g g' H|g].
  - apply log_write_fun in H. subst g'. unfold gwrite. cbn [done]. intros i Hi. apply in_app_or in Hi. destruct Hi as [Hi|Hi]; [auto|].
    apply wlines_strs in Hi. destruct Hi as [s ->]. intros [v' Hv]. discriminate.
  - destruct H as [g g1 H]. cbn [done]. intros i Hi. apply in_app_or in Hi. destruct Hi as [Hi|[<-|[]]]; [eapply Hnl; eauto|]. intros [v Hv]. discriminate.
  - eapply Hnl; eauto.
  - contradiction.
Qed.
Lemma server_msgs E m ops g : 1 <= m -> hmsg_steps E (map snd ops) slog0 g ->
  server E m (dat (snd (h_hist E (hist_of_msgs ops) (hfresh m)))) g false.
Proof.
  intros Hm H.
  destruct (msgs_hist E m ops Hm slog0 g [(k_closed, JBool false); (k_maxlen, JNum (Z.of_nat m))] H) as [H1 H2].
  change (mkst (hsd m (absg m slog0) _) ∅) with (hfresh m) in H1.
  assert (Hs : served E m (snd (h_hist E (hist_of_msgs ops) (hfresh m)))) by (eexists; reflexivity).
  destruct (h_hist E (hist_of_msgs ops) (hfresh m)) as [rs s]. cbn [fst snd] in *. subst s. cbn [dat].
  apply server_mk; [exact Hs|reflexivity].
Qed.
Lemma read_history E m ops g w t size : 1 <= m -> hmsg_steps E (map snd ops) slog0 g ->
  w_srv w = dat (snd (h_hist E (hist_of_msgs ops) (hfresh m))) -> w_faults w = [] ->
  call E t (OnRd (RdRead size)) w = (Good (CItems (map wire_item (view m (option_map (Z.max 0) size) g))), mkst w ∅).
Proof.
  intros Hm H Hw Hu. apply (rd_read_good E m g false w t size Hm); [rewrite Hw; apply server_msgs; assumption|exact Hu|].
  intros i Hi. apply view_in in Hi. destruct Hi as [Hi|[s ->]]; [|intros [v Hv]; discriminate].
  eapply msgs_not_raw; [exact H| |exact Hi]. intros j Hj. contradiction.
Qed.
Lemma server_flag E m h d b : server_after E m h d -> flag_steps E (map snd h) false b -> stop_flag E d b.
Proof.
  intros Hd Hf t. pose proof (flag_hist E m h b t Hf) as H. cbv zeta in H.
  pose proof (hist_unlocked E h (hfresh m) eq_refl) as Hk. red in Hd.
  destruct (snd (h_hist E h (hfresh m))) as [d0 k]. cbn [dat lks] in *. subst. exact H.
Qed.
