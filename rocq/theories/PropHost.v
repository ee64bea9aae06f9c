(** * PropHost: the service of LineHostBuffer (C09, C34, C47, C49-C52, C56, C58)

    [served E m s]: [s] is the state of a LineHostBuffer with maxlen [m] after any history
    of requests and calls; [holds m g b]: the open buffer [b] holds the log [g] (last [m]
    records and the unfinished line); [answered E m s r a g']: the request [r] is answered
    [a] and the buffer then holds [g'] (HostSpec.v).  [E] stands for what the application
    decides: the text form of lists and dicts and the error pages.  Proofs are in
    HostProofs.v and HostConc.v. *)
From stdpp Require Import gmap.
From Coq Require Import String.
From Coq Require Import List NArith ZArith Bool Arith Lia.
From Verif Require Import PyStr Strip Prog PyIO Base Spec Held LineBuf Host HostSpec HostInt HostProofs HostConc.
Import ListNotations.
Local Open Scope nat_scope.

(** ** C09, host buffer: len() in the server process and as the state "curlen" *)
Theorem C09_host_len :
  forall E m s g t, 1 <= m -> served E m s -> holds m g (h_buf (dat s)) ->
  exists n items,
    run t (h_call E (HBase Len)) s = (Good (HRes (RNat n)), s) /\
    run t (handle E (GetState (Some (txt "curlen")))) s = (Good (state_answer (JNum (Z.of_nat n))), s) /\
    run t (h_call E (HBase (Read None))) s = (Good (HRes (RItems items)), s) /\
    items = visible m g /\
    (n = length items <-> (pend g <> [] \/ m <= length (done g))) /\
    (n <> length items -> n = S (length items)).
Proof. exact host_len. Qed.
Print Assumptions C09_host_len.

(** ** C34, host buffer *)
Theorem C34_host_write :
  forall E data s t, run t (h_call E (HBase (Write data))) s = (Fail NotImplementedError, s).
Proof. exact host_write. Qed.
Print Assumptions C34_host_write.
Theorem C34_host_fileno :
  forall E s t, run t (h_call E (HBase Fileno)) s = (Fail OSError, s) /\
                run t (h_call E (HBase Seek)) s = (Fail OSError, s).
Proof. exact host_fileno. Qed.
Print Assumptions C34_host_fileno.

(** ** C47 *)
Theorem C47_message : forall x, deserialize (serialize x) = Good (IMsg x).
Proof. exact deserialize_serialize. Qed.
Print Assumptions C47_message.
Theorem C47_text : forall s, deserialize (JStr s) = Good (IStr s).
Proof. reflexivity. Qed.
Print Assumptions C47_text.
(** A value that is not marked as a message is kept as it is. *)
Theorem C47_other : forall v, ~ marked v ->
  deserialize v = Good match v with JStr s => IStr s | v => IRaw v end.
Proof. exact deserialize_other. Qed.
Print Assumptions C47_other.
(** A marked one becomes a message with its "type" and the items of its "data". *)
Theorem C47_marked : forall data ty x, marked (JObj data) -> field (txt "type") data ty -> field (txt "data") data x ->
  (forall l, tuple_items x l -> deserialize (JObj data) = Good (IMsg (mkgmsg ty l))) /\
  ((forall l, ~ tuple_items x l) -> deserialize (JObj data) = Fail TypeError).
Proof. exact deserialize_marked. Qed.
Print Assumptions C47_marked.
Theorem C47_missing : forall data, marked (JObj data) ->
  (forall v, ~ field (txt "type") data v) \/ (forall v, ~ field (txt "data") data v) -> deserialize (JObj data) = Fail KeyError.
Proof. exact no_type_key. Qed.
Print Assumptions C47_missing.
Example C47_demo :
  deserialize (serialize (mkgmsg (JStr (txt "error")) [JStr (txt "a"); JStr (txt "b")])) =
    Good (IMsg (mkgmsg (JStr (txt "error")) [JStr (txt "a"); JStr (txt "b")])) /\
  ~ marked (JObj [(txt "type", JStr (txt "error"))]) /\
  marked (JObj [(txt "/is_syncsdata", JNum 1); (txt "/type", JStr (txt "GroupedMessage"))]).
Proof.
  split; [reflexivity|]. rewrite !marked_iff. split; [discriminate|reflexivity].
Qed.

(** ** C49 *)
Theorem C49_open_holds_a_log :
  forall E m s, 1 <= m -> served E m s -> is_closed s = false -> exists g, holds m g (h_buf (dat s)).
Proof. exact served_open. Qed.
Print Assumptions C49_open_holds_a_log.
(** A text message: like write() of the text of the value. *)
Theorem C49_text :
  forall E m s g args data v, 1 <= m -> served E m s -> holds m g (h_buf (dat s)) ->
  type_word E args (txt "str") -> field (txt "data") args (JObj data) -> field (txt "value") data v -> v <> JNull ->
  exists g', log_write (py_str E v) g g' /\ answered E m s (PostMsg (BJson (JObj args))) (success 201) g'.
Proof. exact post_text. Qed.
Print Assumptions C49_text.
Theorem C49_text_without_value :
  forall E m s g args, 1 <= m -> served E m s -> holds m g (h_buf (dat s)) -> type_word E args (txt "str") ->
  ~ (exists data v, field (txt "data") args (JObj data) /\ field (txt "value") data v /\ v <> JNull) ->
  answered E m s (PostMsg (BJson (JObj args))) (success 201) g.
Proof. exact post_text_nothing. Qed.
Print Assumptions C49_text_without_value.
(** An error or a warning: the current line is finished, then one item is appended. *)
Theorem C49_message :
  forall E m s g args data i, 1 <= m -> served E m s -> holds m g (h_buf (dat s)) ->
  type_word E args (txt "error") \/ type_word E args (txt "warning") -> field (txt "data") args (JObj data) ->
  deserialize (JObj data) = Good i ->
  exists g', log_note i g g' /\ answered E m s (PostMsg (BJson (JObj args))) (success 201) g'.
Proof. exact post_note. Qed.
Print Assumptions C49_message.
Theorem C49_message_without_data :
  forall E m s g args, 1 <= m -> served E m s -> holds m g (h_buf (dat s)) ->
  type_word E args (txt "error") \/ type_word E args (txt "warning") ->
  ~ (exists data, field (txt "data") args (JObj data)) ->
  answered E m s (PostMsg (BJson (JObj args))) (success 201) g.
Proof. exact post_note_nothing. Qed.
Print Assumptions C49_message_without_data.
Theorem C49_close :
  forall E m s g args, 1 <= m -> served E m s -> holds m g (h_buf (dat s)) -> type_word E args (txt "close") ->
  exists g', log_new_line g g' /\ answered E m s (PostMsg (BJson (JObj args))) (success 201) g'.
Proof. exact post_close. Qed.
Print Assumptions C49_close.
(** Anything else is rejected and changes nothing (also when the buffer is closed). *)
Theorem C49_unknown_type :
  forall E m s args, 1 <= m -> served E m s ->
  (forall w, In w [txt "str"; txt "error"; txt "warning"; txt "close"] -> ~ type_word E args w) ->
  rejected E s (PostMsg (BJson (JObj args))) TypeError.
Proof. exact post_unknown. Qed.
Print Assumptions C49_unknown_type.
Theorem C49_no_object :
  forall E m s b e, 1 <= m -> served E m s ->
  match b with
  | BNotJson => e = TypeError | BInvalid => e = BadRequest
  | BJson (JObj _) => False | BJson _ => e = TypeError
  end -> rejected E s (PostMsg b) e /\ rejected E s (PostState b) e.
Proof. exact post_not_object. Qed.
Print Assumptions C49_no_object.
(** GET: the visible items, and nothing changes; DELETE: the log starts again. *)
Theorem C49_get :
  forall E m s g n size, 1 <= m -> served E m s -> holds m g (h_buf (dat s)) -> asks n size ->
  (forall i, In i (view m size g) -> ~ is_raw i) ->
  forall t, run t (handle E (GetMsg n)) s = (Good (state_answer (JArr (map item_json (view m size g)))), s).
Proof. exact get_good. Qed.
Print Assumptions C49_get.
Theorem C49_get_changes_nothing :
  forall E m s n, 1 <= m -> served E m s -> forall t, snd (run t (handle E (GetMsg n)) s) = s.
Proof. exact get_same. Qed.
Print Assumptions C49_get_changes_nothing.
Theorem C49_get_bad_number :
  forall E m s x, 1 <= m -> served E m s -> (forall z, ~ int_text x z) -> rejected E s (GetMsg (Some x)) ValueError.
Proof. exact get_bad_n. Qed.
Print Assumptions C49_get_bad_number.
Theorem C49_delete :
  forall E m s g, 1 <= m -> served E m s -> holds m g (h_buf (dat s)) ->
  answered E m s DelMsg (success 200) slog0.
Proof. exact delete_good. Qed.
Print Assumptions C49_delete.
(** A closed buffer rejects all of them. *)
Theorem C49_closed :
  forall E m s, 1 <= m -> served E m s -> is_closed s = true ->
  (forall args data v, type_word E args (txt "str") -> field (txt "data") args (JObj data) ->
     field (txt "value") data v -> v <> JNull -> rejected E s (PostMsg (BJson (JObj args))) OSError) /\
  (forall args data, type_word E args (txt "error") \/ type_word E args (txt "warning") ->
     field (txt "data") args (JObj data) -> rejected E s (PostMsg (BJson (JObj args))) ValueError) /\
  (forall args, type_word E args (txt "close") -> rejected E s (PostMsg (BJson (JObj args))) ValueError) /\
  (forall n size, asks n size -> rejected E s (GetMsg n) OSError) /\
  rejected E s DelMsg ValueError.
Proof. exact closed_rejects. Qed.
Print Assumptions C49_closed.
Theorem C49_states_keep_the_buffer :
  forall E m s r t, 1 <= m -> served E m s ->
  match r with GetState _ | PostState _ | DelState => True | _ => False end ->
  h_buf (dat (snd (run t (handle E r) s))) = h_buf (dat s).
Proof. exact states_keep_buffer. Qed.
Print Assumptions C49_states_keep_the_buffer.
(** Whole histories: all requests succeed, and the buffer shows the log they describe. *)
Theorem C49_history :
  forall E m ops g, 1 <= m -> hmsg_steps E (map snd ops) slog0 g ->
  let '(rs, s) := h_hist E (hist_of_msgs ops) (hfresh m) in
  holds m g (h_buf (dat s)) /\ served E m s /\ Forall (fun o => exists code, o = Good (HAnswer (success code))) rs /\
  (forall t size, run t (h_call E (HBase (Read size))) s = (Good (HRes (RItems (view m size g))), s)).
Proof. exact hist_holds. Qed.
Print Assumptions C49_history.

Definition E0 : henv := mkhenv (fun _ => []) (fun _ => (500, None)).
Definition msg0 : gmsg := mkgmsg (JStr (txt "error")) [JStr (txt "boom")].
Definition ops0 : list (nat * hmsg) :=
  [(1, HText (JStr (txt "a" ++ [LF] ++ txt "b"))); (2, HNote true msg0); (1, HText (JNum 7)); (1, HText (JBool true))].
Example C49_numbers : asks (Some (txt " +1_0")) (Some 10%Z) /\ asks (Some (txt "-3")) (Some (-3)%Z) /\
  (forall z, ~ int_text (txt "1__0") z) /\ (forall z, ~ int_text (txt "ten") z) /\ (forall z, ~ int_text [] z).
Proof.
  split; [apply asks_n, py_int_iff; vm_compute; reflexivity|]. split; [apply asks_n, py_int_iff; vm_compute; reflexivity|].
  repeat split; intros z H; apply py_int_iff in H; vm_compute in H; discriminate.
Qed.
Example C49_demo :
  hmsg_steps E0 (map snd ops0) slog0 (mkslog [IStr (txt "a"); IStr (txt "b"); IMsg msg0] (txt "7True")) /\
  fst (h_hist E0 (hist_of_msgs ops0 ++ [(5, HReq (GetMsg (Some (txt " 2"))))]) (hfresh 2)) =
  repeat (Good (HAnswer (success 201))) 4 ++ [Good (HAnswer (state_answer (JArr [serialize msg0; JStr (txt "7True")])))].
Proof.
  assert (Hn : forall s, forallb (fun c => (32 <? c)%N && (c <? 128)%N) s = true -> no_break s).
  { intros s Hs. apply List.Forall_forall. intros c Hc. rewrite forallb_forall in Hs. specialize (Hs c Hc).
    apply andb_prop in Hs. destruct Hs as [H1 H2]. apply N.ltb_lt in H1, H2. unfold line_break. lia. }
  split; [|vm_compute; reflexivity].
  apply hss_cons with (g1 := mkslog [IStr (txt "a")] (txt "b")).
  { apply hs_text; [discriminate|]. apply (lw_some _ [] [] (txt "a") [] (txt "b")).
    apply seg_line; [apply Hn; reflexivity| |constructor; apply Hn; reflexivity]. apply term_one; [left; reflexivity|].
    intros [H _]. discriminate. }
  apply hss_cons with (g1 := mkslog [IStr (txt "a"); IStr (txt "b"); IMsg msg0] []).
  { apply hs_note. apply (log_note_intro (IMsg msg0) _ (mkslog [IStr (txt "a"); IStr (txt "b")] [])).
    apply (ln_some [IStr (txt "a")]). discriminate. }
  apply hss_cons with (g1 := mkslog [IStr (txt "a"); IStr (txt "b"); IMsg msg0] (txt "7")).
  { apply hs_text; [discriminate|]. apply (lw_none _ _ [] (txt "7")). constructor. apply Hn. reflexivity. }
  apply hss_cons with (g1 := mkslog [IStr (txt "a"); IStr (txt "b"); IMsg msg0] (txt "7True")); [|constructor].
  apply hs_text; [discriminate|]. apply (lw_none _ _ (txt "7") (txt "True")). constructor. apply Hn. reflexivity.
Qed.

(** ** C50 *)
(** An error whose data is not a serialized message: accepted, and stored as it is ... *)
Theorem C50_malformed_is_stored :
  forall E m s g args data, 1 <= m -> served E m s -> holds m g (h_buf (dat s)) ->
  type_word E args (txt "error") \/ type_word E args (txt "warning") -> field (txt "data") args (JObj data) ->
  ~ marked (JObj data) ->
  exists g', log_note (IRaw (JObj data)) g g' /\ answered E m s (PostMsg (BJson (JObj args))) (success 201) g'.
Proof.
  exact (fun E m s g args data Hm Hs Hh Ht Hd Hn => post_note E m s g args data _ Hm Hs Hh Ht Hd (not_serialized_raw data Hn)).
Qed.
Print Assumptions C50_malformed_is_stored.
(** ... and every GET that covers such an item fails (C49_get: the others do not). *)
Theorem C50_get_fails :
  forall E m s g n size, 1 <= m -> served E m s -> holds m g (h_buf (dat s)) -> asks n size ->
  (exists i, In i (view m size g) /\ is_raw i) -> rejected E s (GetMsg n) AttributeError.
Proof. exact get_raw. Qed.
Print Assumptions C50_get_fails.
(** Marked as serialized, but a key is missing: rejected after the line was finished. *)
Theorem C50_missing_key :
  forall E m s g args data, 1 <= m -> served E m s -> holds m g (h_buf (dat s)) ->
  type_word E args (txt "error") \/ type_word E args (txt "warning") -> field (txt "data") args (JObj data) ->
  marked (JObj data) -> (forall v, ~ field (txt "type") data v) \/ (forall v, ~ field (txt "data") data v) ->
  exists g' s', log_new_line g g' /\
    (forall t, run t (handle E (PostMsg (BJson (JObj args)))) s = (Fail KeyError, s')) /\
    holds m g' (h_buf (dat s')) /\ h_state (dat s') = h_state (dat s).
Proof.
  exact (fun E m s g args data Hm Hs Hh Ht Hd H1 H2 => post_note_fail E m s g args data KeyError Hm Hs Hh Ht Hd (no_type_key data H1 H2)).
Qed.
Print Assumptions C50_missing_key.
(** Both keys are there, but the data cannot be made a tuple (a number, True, False, None):
    rejected likewise; otherwise it is stored as a message. *)
Theorem C50_no_tuple :
  forall E m s g args data ty x, 1 <= m -> served E m s -> holds m g (h_buf (dat s)) ->
  type_word E args (txt "error") \/ type_word E args (txt "warning") -> field (txt "data") args (JObj data) ->
  marked (JObj data) -> field (txt "type") data ty -> field (txt "data") data x -> (forall l, ~ tuple_items x l) ->
  exists g' s', log_new_line g g' /\
    (forall t, run t (handle E (PostMsg (BJson (JObj args)))) s = (Fail TypeError, s')) /\
    holds m g' (h_buf (dat s')) /\ h_state (dat s') = h_state (dat s).
Proof.
  exact (fun E m s g args data ty x Hm Hs Hh Ht Hd H1 H2 H3 H4 =>
    post_note_fail E m s g args data TypeError Hm Hs Hh Ht Hd (proj2 (deserialize_marked data ty x H1 H2 H3) H4)).
Qed.
Print Assumptions C50_no_tuple.
Theorem C50_tuple :
  forall E m s g args data ty x l, 1 <= m -> served E m s -> holds m g (h_buf (dat s)) ->
  type_word E args (txt "error") \/ type_word E args (txt "warning") -> field (txt "data") args (JObj data) ->
  marked (JObj data) -> field (txt "type") data ty -> field (txt "data") data x -> tuple_items x l ->
  exists g', log_note (IMsg (mkgmsg ty l)) g g' /\ answered E m s (PostMsg (BJson (JObj args))) (success 201) g'.
Proof.
  exact (fun E m s g args data ty x l Hm Hs Hh Ht Hd H1 H2 H3 H4 =>
    post_note E m s g args data _ Hm Hs Hh Ht Hd (proj1 (deserialize_marked data ty x H1 H2 H3) l H4)).
Qed.
Print Assumptions C50_tuple.
(** The four outcomes of such a request after an unfinished text. *)
Example C50_case :
  let mark := [(txt "/is_syncsdata", JBool true); (txt "/type", JStr (txt "GroupedMessage"))] in
  let send d := fst (h_hist E0 [(1, HReq (req_of (HText (JStr (txt "x"))))); (1, HReq (post (txt "error") [(txt "data", JObj d)])); (1, HReq (GetMsg None))] (hfresh 5)) in
  let after d := skipn 1 (map (fun o => match o with Good (HAnswer a) => Good (fst a) | Good _ => Block | Fail e => Fail e | Block => Block end) (send d)) in
  after [] = [Good 201; Fail AttributeError] /\ after mark = [Fail KeyError; Good 200] /\
  after (mark ++ [(txt "type", JNull); (txt "data", JNum 3)]) = [Fail TypeError; Good 200] /\
  after (mark ++ [(txt "type", JNull); (txt "data", JStr (txt "ab"))]) = [Good 201; Good 200].
Proof. repeat split; vm_compute; reflexivity. Qed.
(** The service does not survive such a request: after it, two more messages and a GET of
    everything, answered by an error; a GET of the last two items still works. *)
Theorem C50_robustness_refuted :
  exists h, map (fun o => match o with Good (HAnswer a) => Some (fst a) | _ => None end)
              (fst (h_hist E0 h (hfresh 5))) = [Some 201; Some 201; Some 201; None; Some 200].
Proof.
  exists [(1, HReq (post (txt "error") [(txt "data", JObj [])]));
          (1, HReq (req_of (HText (JStr (txt "x" ++ [LF]))))); (1, HReq (req_of (HText (JStr (txt "y" ++ [LF])))));
          (1, HReq (GetMsg None)); (1, HReq (GetMsg (Some (txt "2"))))].
  vm_compute. reflexivity.
Qed.
Print Assumptions C50_robustness_refuted.

(** ** C51, server part (the reader: PropHostCli.v) *)
Theorem C51_maxlen_state :
  forall E m h t,
  let s := snd (h_hist E h (hfresh m)) in
  (~ Exists (fun c => resets (snd c)) h ->
   run t (handle E (GetState (Some (txt "maxlen")))) s = (Good (state_answer (JNum (Z.of_nat m))), s)) /\
  (Exists (fun c => resets (snd c)) h ->
   run t (handle E (GetState (Some (txt "maxlen")))) s = (Good (state_answer JNull), s)).
Proof. exact maxlen_hist. Qed.
Print Assumptions C51_maxlen_state.
Theorem C51_bound_unchanged :
  forall E m h, 1 <= m ->
  dmax (storage (h_buf (dat (snd (h_hist E h (hfresh m)))))) = m /\
  length (dq (storage (h_buf (dat (snd (h_hist E h (hfresh m))))))) <= m.
Proof. exact maxlen_bound. Qed.
Print Assumptions C51_bound_unchanged.
Example C51_demo :
  let h := [(1, HReq (req_of (HText (JNum 1)))); (2, HStopAll); (1, HReq DelState)] in
  Exists (fun c => resets (snd c)) h /\ ~ Exists (fun c => resets (snd c)) (firstn 2 h).
Proof.
  split.
  - apply List.Exists_cons_tl, List.Exists_cons_tl, List.Exists_cons_hd. right. reflexivity.
  - intros H. apply List.Exists_cons in H. destruct H as [[H|H]|H]; try discriminate.
    apply List.Exists_cons in H. destruct H as [[H|H]|H]; try discriminate. inversion H.
Qed.

(** ** C52, server part: the state "closed" is the stop flag, whatever happened *)
Theorem C52_flag :
  forall E m h b t, flag_steps E (map snd h) false b ->
  let s := snd (h_hist E h (hfresh m)) in
  run t (handle E (GetState (Some (txt "closed")))) s = (Good (state_answer (JBool b)), s).
Proof. exact flag_hist. Qed.
Print Assumptions C52_flag.
Theorem C52_flag_total : forall E cs b, exists b', flag_steps E cs b b'.
Proof. exact flags_total. Qed.
Print Assumptions C52_flag_total.
Example C52_demo_word : true_word (txt " TrUe  ") /\ ~ true_word (txt "1").
Proof.
  split.
  - exists (txt " "), (txt "TrUe"), (txt "  "). split; [reflexivity|]. split; [apply spaces; repeat constructor|].
    repeat constructor; (left; reflexivity) || (right; reflexivity).
  - intros (a & w & b & E & _ & H). apply Forall2_length in H. apply (f_equal (@length _)) in E.
    rewrite !app_length in E. cbn in E, H. lia.
Qed.
Example C52_demo_flag :
  flag_steps E0 [HBase Close; HStopAll; HReq (PostState (BJson (JObj [(txt "state", JStr (txt "closed")); (txt "value", JNum 1)])))]
    false false.
Proof.
  apply fss_cons with (b1 := false); [apply fs_keep; exact I|].
  apply fss_cons with (b1 := true); [apply fs_stop|].
  apply fss_cons with (b1 := false); [|constructor]. apply fs_unset.
  - exists (JStr (txt "closed")). split; [constructor|apply strip_iff; reflexivity].
  - intros (v & H & Hw). apply field_jget in H. injection H as <-. exact (proj2 C52_demo_word Hw).
Qed.

(** ** C56 *)
(** [h_pool E css]: thread [i] handles the requests and calls [css[i]], one after the other;
    the schedule [sch] interleaves their single commands. *)
Theorem C56_serializable :
  forall E css d0 sch ps' s',
  Forall (Forall service_call) css ->
  sched_run sch (h_pool E css, mkst d0 ∅) = Some (ps', s') -> Forall (fun p => finished p = true) ps' ->
  exists order : list (nat * hcall),
    order_of css order /\
    snd (h_hist E order (mkst d0 ∅)) = s' /\
    (forall i p, nth_error ps' i = Some p ->
       p = Ret (events_of i (combine (map fst order) (fst (h_hist E order (mkst d0 ∅)))))).
Proof. exact host_serializable. Qed.
Print Assumptions C56_serializable.
Theorem C56_no_deadlock :
  forall E css d0 sch ps' s',
  sched_run sch (h_pool E css, mkst d0 ∅) = Some (ps', s') ->
  (Forall (fun p => finished p = true) ps' /\ lks s' = ∅) \/ (exists i c', cstep i (ps', s') = Some c').
Proof. exact host_no_deadlock. Qed.
Print Assumptions C56_no_deadlock.

Theorem C56_no_infinite_execution :
  forall E css d0 f, f 0 = (h_pool E css, mkst d0 ∅) -> ~ forall n, exists j, cstep j (f n) = Some (f (S n)).
Proof. exact (fun _ _ _ f _ => no_infinite f). Qed.
Print Assumptions C56_no_infinite_execution.

(** Two threads, steps in turns as far as the locks allow. *)
Definition css0 : list (list hcall) :=
  [[HReq (req_of (HText (JStr (txt "ab")))); HReq (req_of (HNote true msg0))];
   [HReq (GetMsg None); HReq (PostState (BJson (JObj [(txt "state", JStr (txt "closed")); (txt "value", JStr (txt "true"))])));
    HReq (GetState (Some (txt "curlen")))]].
Fixpoint turns (fuel : nat) (c : list (prog hcmd (list (outcome hres))) * st hdata) : list nat :=
  match fuel with
  | O => []
  | S fuel' =>
      match cstep (fuel mod 2) c with
      | Some c1 => (fuel mod 2) :: turns fuel' c1
      | None => match cstep (S fuel mod 2) c with
                | Some c1 => (S fuel mod 2) :: turns fuel' c1
                | None => []
                end
      end
  end.
Example C56_case :
  option_map (fun c => map (fun p => match p with Ret r => Some r | _ => None end) (fst c))
    (sched_run (turns 200 (h_pool E0 css0, hfresh 4)) (h_pool E0 css0, hfresh 4)) =
  Some [Some [Good (HAnswer (success 201)); Good (HAnswer (success 201))];
        Some [Good (HAnswer (state_answer (JArr [JStr (txt "ab"); serialize msg0]))); Good (HAnswer (success 201));
              Good (HAnswer (state_answer (JNum 3)))]].
Proof. vm_compute. reflexivity. Qed.

(** ** C58 *)
Theorem C58_endpoint :
  forall route n rest, route = repeat 47%N n ++ rest -> match rest with c :: _ => c <> 47%N | [] => True end ->
  infer_endpoint route = map (fun c => if N.eqb c 47 then 46%N else c) rest.
Proof. exact infer_spec. Qed.
Print Assumptions C58_endpoint.
Theorem C58_same_endpoint_refuted :
  exists r1 r2, r1 <> r2 /\ infer_endpoint r1 = infer_endpoint r2.
Proof. exists (txt "/a/b"), (txt "/a.b"). split; [discriminate|reflexivity]. Qed.
Print Assumptions C58_same_endpoint_refuted.
Theorem C58_state_route_refuted :
  exists o1 o2 d, hb_init (Some (txt "/x")) None (PyInt 3) = Good (o1, d) /\
    hb_init (Some (txt "/x-state")) None (PyInt 3) = Good (o2, d) /\
    exists r e1 e2, In (r, e1) (hb_rules o1) /\ In (r, e2) (hb_rules o2).
Proof.
  eexists. eexists. eexists. split; [reflexivity|]. split; [reflexivity|].
  exists (txt "/x-state"), (txt "x-state"), (txt "x-state"). split; [right; left; reflexivity|left; reflexivity].
Qed.
Print Assumptions C58_state_route_refuted.
