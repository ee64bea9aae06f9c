(** * PropProc: process mode, one call at a time (C09, C14, C21, C22, C26 - C35, C66 - C68)

    Only theorem statements and concrete cases; proofs are in ProcProofs.v, ProcSysProofs.v,
    ProcTransp.v and ProcMore.v.  The vocabulary is in ProcSpec.v: [mreach d]: a mirror
    after any calls, whatever happens to its queue and the shared state meanwhile;
    [preach m d]: a whole system with main buffer LineProcBuffer(maxlen=m). *)
From stdpp Require Import gmap relations.
From Coq Require Import String.
From Coq Require Import List NArith ZArith Bool Arith.
From Verif Require Import PyStr Prog PyIO Base Spec LineBuf LineBufSpec Proc ProcSpec ProcProofs ProcSysProofs ProcTransp ProcMore ProcFull ProcRun.
Import ListNotations.
Local Open Scope nat_scope.

(** ** Concrete cases *)
Definition lf : text := [10%N].
Definition oops : excobj := mkexc ExcOther (txt "Traceback" ++ lf ++ txt "E: oops").

(** A mirror that holds "b" (it wrote "a\n", which it sent, and "b"). *)
Definition after_calls (cs : list mcall) (d : menv) : menv :=
  match mcalls cs d with Some d' => d' | None => d end.
Definition new_mirror (qmax : nat) (st : option bool) : menv := mkmenv (mir_new 0 0 false None true) [] qmax st.
Definition demo_mir : menv := after_calls [CWrite (txt "a" ++ lf); CWrite (txt "b")] (new_mirror 0 (Some false)).
Example demo_mir_reach : mreach demo_mir.
Proof.
  exists 0, 0, false, None, true, [], 0, (Some false).
  apply (mcalls_later [CWrite (txt "a" ++ lf); CWrite (txt "b")]). vm_compute. reflexivity.
Qed.
Example demo_mir_held : held (e_mir demo_mir) = txt "b" /\ e_q demo_mir = [QStr (txt "a" ++ lf)] /\
  is_closed (e_mir demo_mir) = false /\ stop_seen demo_mir = false.
Proof. repeat split; vm_compute; reflexivity. Qed.

(** The system after some events (all made by thread 0). *)
Definition by0 (xs : list sevent) : list (nat * sevent) := map (fun x => (0, x)) xs.
Definition after (xs : list sevent) (d : psys) : psys :=
  match events (by0 xs) d with Some d' => d' | None => d end.
Ltac hist := apply events_shist; vm_compute; reflexivity.
(** Two handed-out mirrors, copied to two processes (positions 1 and 2). *)
Definition pool2 : list sevent := [OnMain PGetMirror; OnMain PGetMirror; Copy 0; Copy 0].
(** Mirror 1 writes "a\nb" and "c", mirror 2 writes "d\n"; one message is received. *)
Definition demo_events : list sevent :=
  pool2 ++ [OnMirror 1 (CWrite (txt "a" ++ lf ++ txt "b")); OnMirror 1 (CWrite (txt "c"));
            OnMirror 2 (CWrite (txt "d" ++ lf)); OnMain PReceive].
Definition demo_sys : psys := after demo_events (lp_fresh 3).
Example demo_sys_reach : preach 3 demo_sys.
Proof. exists (by0 demo_events). hist. Qed.
Example demo_sys_state : s_n demo_sys = 2%Z /\ records demo_sys = [IStr (txt "a")] /\ current demo_sys = txt "b" /\
  inbox demo_sys = [QStr (txt "d" ++ lf)] /\ held (mir_at demo_sys 1) = txt "c".
Proof. repeat split; vm_compute; reflexivity. Qed.

(** ** C21 *)
Theorem C21_mirror_is_transparent :
  forall m ag xs t d, 1 <= m -> Forall (fun tx => write_or_receive (snd tx)) xs ->
  shist ((t, OnMirror 0 (CSetAggr ag)) :: xs) (lp_fresh m) d -> inbox d = [] ->
  let direct := snd (run_hist (map (fun p => (fst p, Write (snd p))) (texts_of xs)) (fresh m)) in
  records d = dq (storage (dat direct)) /\
  current d ++ held (mir_at d 0) = sval (last_line (dat direct)) /\
  (ag = true -> held (mir_at d 0) = []).
Proof. exact c21. Qed.
Print Assumptions C21_mirror_is_transparent.

Definition c21_events : list (nat * sevent) :=
  [(0, OnMirror 0 (CWrite (txt "a"))); (1, OnMirror 0 (CWrite (txt "b" ++ lf ++ txt "c")));
   (0, OnMain PReceive); (2, OnMirror 0 (CWrite (txt "d")))].
Example C21_case : exists d, shist ((0, OnMirror 0 (CSetAggr false)) :: c21_events) (lp_fresh 3) d /\
  Forall (fun tx => write_or_receive (snd tx)) c21_events /\
  inbox d = [] /\ records d = [IStr (txt "ab")] /\ current d = txt "c" /\ held (mir_at d 0) = txt "d".
Proof.
  exists (after (map snd ((0, OnMirror 0 (CSetAggr false)) :: c21_events)) (lp_fresh 3)).
  split; [hist|]. split; [|repeat split; vm_compute; reflexivity].
  repeat (apply List.Forall_cons; [unfold write_or_receive; simpl; eauto|]). apply List.Forall_nil.
Qed.

(** ** C22 *)
Theorem C22_write_returns_length :
  forall d t data n s', mreach d -> run t (lm_write data) (idle d) = (Good n, s') -> n = length data.
Proof. exact c22. Qed.
Print Assumptions C22_write_returns_length.
(** And it does return, when the mirror is open, not stopped, and the queue has room. *)
Theorem C22_write_returns :
  forall d t data, mreach d -> is_closed (e_mir d) = false -> stop_seen d = false ->
  e_qmax d = 0 \/ length (e_q d) < e_qmax d ->
  exists d', run t (lm_write data) (idle d) = (Good (length data), idle d').
Proof. exact c22_total. Qed.
Print Assumptions C22_write_returns.
(** The documented result, the number of lines written, is wrong. *)
Theorem C22_number_of_lines_refuted :
  exists d t data n s' ls r, mreach d /\ run t (lm_write data) (idle d) = (Good n, s') /\
    segments data ls r /\ n <> length ls.
Proof.
  exists demo_mir, 0, (txt "x"). eexists _, _, [], (txt "x").
  split; [exact demo_mir_reach|]. split; [vm_compute; reflexivity|]. split; [|discriminate].
  constructor. unfold no_break, line_break. constructor; [|constructor]. vm_compute. intuition discriminate.
Qed.
Print Assumptions C22_number_of_lines_refuted.

(** ** C26 *)
(** The count of mirrors is not repaired by reset_states(). *)
Theorem C26_count_survives_reset :
  forall d t, (s_n d <= 0)%Z ->
  exists d', run t (sys_p lp_reset) (idle d) = (Good tt, idle d') /\ s_n d' = s_n d.
Proof.
  intros d t H. destruct (c31_reset d t H) as (d' & H1 & _ & _ & _ & _ & _ & H2). eauto.
Qed.
Print Assumptions C26_count_survives_reset.
(** wait() also returns at the first end signal when the count is wrong (1 or less), while
    the messages behind it stay in the queue; the exact set of messages handled by wait()
    is [wait_cut] (ProcSpec.v). *)
Theorem C26_wait_exact :
  forall m d t fuel, 1 <= m -> preach m d -> main_closed d = false -> length (inbox d) < fuel ->
  exists r s', run t (sys_p (lp_wait fuel)) (idle d) = (r, s') /\
  match wait_cut (inbox d) (s_n d) with
  | Some (h, rest) => r = Good tt /\ s' = idle (dat s') /\ inbox d = h ++ rest /\
                      inbox (dat s') = rest /\ received m d (dat s') h
  | None => r = Block /\ inbox (dat s') = [] /\ received m d (dat s') (inbox d)
  end.
Proof. exact wait_run. Qed.
Print Assumptions C26_wait_exact.

(** Two mirrors; the first one calls send_eof() and is then closed (as when send_eof() is
    called inside its context): wait() returns although the line of the second mirror and
    its end signal were not received; they are received by nobody until the next wait. *)
Definition c26_events : list sevent :=
  pool2 ++ [OnMirror 1 (CWrite (txt "a" ++ lf)); OnMirror 1 CEof; OnMirror 1 (CClose None);
            OnMirror 2 (CWrite (txt "d" ++ lf)); OnMirror 2 (CClose None)].
Theorem C26_wait_for_all_refuted :
  exists d d', preach 3 d /\ s_n d = 2%Z /\ run 0 (sys_p (lp_wait 9)) (idle d) = (Good tt, idle d') /\
    inbox d' = [QStr (txt "d" ++ lf); QClose] /\ records d' = [IStr (txt "a")] /\ s_n d' = 0%Z /\
    (* a further wait() makes the count negative; reset_states() is then accepted, and with
       two new mirrors one end signal is missing: the next wait() returns at the first one *)
    exists d2, shist [(0, OnMain (PWait 9)); (0, OnMain PReset); (0, OnMain PGetMirror); (0, OnMain PGetMirror);
                      (0, Copy (s_cur d2)); (0, Copy (s_cur d2));
                      (0, OnMirror 4 (CClose None)); (0, OnMirror 5 (CWrite (txt "lost" ++ lf)));
                      (0, OnMirror 5 (CClose None))] d' d2 /\
      s_n d2 = 1%Z /\
      exists d3, run 0 (sys_p (lp_wait 9)) (idle d2) = (Good tt, idle d3) /\
        inbox d3 = [QStr (txt "lost" ++ lf); QClose].
Proof.
  set (d := after c26_events (lp_fresh 3)). set (d' := after [OnMain (PWait 9)] d).
  exists d, d'. split; [exists (by0 c26_events); hist|].
  split; [vm_compute; reflexivity|].
  split; [apply run_eq; vm_compute; reflexivity|].
  split; [vm_compute; reflexivity|]. split; [vm_compute; reflexivity|]. split; [vm_compute; reflexivity|].
  exists (after [OnMain (PWait 9); OnMain PReset; OnMain PGetMirror; OnMain PGetMirror; Copy 3; Copy 3;
    OnMirror 4 (CClose None); OnMirror 5 (CWrite (txt "lost" ++ lf)); OnMirror 5 (CClose None)] d').
  split; [hist|]. split; [vm_compute; reflexivity|]. eexists.
  split; [apply run_eq; vm_compute; reflexivity|vm_compute; reflexivity].
Qed.
Print Assumptions C26_wait_for_all_refuted.

(** ** C27 *)
Theorem C27_stop_stops_writes :
  forall m d t xs d2 i data t', 1 <= m -> preach m d ->
  shist xs (dat (snd (run t (sys_p lp_stop_all) (idle d)))) d2 -> no_reset xs ->
  i < length (s_mirs d2) -> is_closed (mir_at d2 i) = false ->
  exists d3, run t' (sys_m i (lm_write data)) (idle d2) = (Fail StopIteration, idle d3) /\
    s_qs d3 = s_qs d2 /\ held (mir_at d3 i) = held (mir_at d2 i) /\ s_main d3 = s_main d2 /\ s_n d3 = s_n d2.
Proof. exact c27. Qed.
Print Assumptions C27_stop_stops_writes.
Example C27_case :
  let d1 := dat (snd (run 0 (sys_p lp_stop_all) (idle demo_sys))) in
  shist [(0, OnMain PReceive)] d1 (after [OnMain PReceive] d1) /\
  is_closed (mir_at (after [OnMain PReceive] d1) 1) = false /\
  fst (run 0 (sys_m 1 (lm_write (txt "x"))) (idle (after [OnMain PReceive] d1))) = Fail StopIteration.
Proof.
  cbv zeta. split; [hist|split; vm_compute; reflexivity].
Qed.

(** ** C28 *)
Theorem C28_stopped_mirror_cannot_end :
  forall d t c, mreach d -> is_closed (e_mir d) = false -> stop_seen d = true -> held (e_mir d) <> [] ->
  end_call c = true ->
  exists d', run t (lm_call c) (idle d) = (Fail StopIteration, idle d') /\
    e_q d' = e_q d /\ held (e_mir d') = held (e_mir d) /\ is_closed (e_mir d') = false.
Proof. exact c28. Qed.
Print Assumptions C28_stopped_mirror_cannot_end.
(** Without end signals wait() receives everything and then blocks. *)
Theorem C28_wait_blocks :
  forall m d t fuel, 1 <= m -> preach m d -> main_closed d = false -> length (inbox d) < fuel ->
  Forall (fun x => is_data x = true) (inbox d) ->
  exists s', run t (sys_p (lp_wait fuel)) (idle d) = (Block, s') /\
    inbox (dat s') = [] /\ received m d (dat s') (inbox d).
Proof. exact c28_wait. Qed.
Print Assumptions C28_wait_blocks.
(** A mirror without held text does send its end signal (or message), stopped or not. *)
Theorem C28_empty_mirror_ends :
  forall d t c, mreach d -> is_closed (e_mir d) = false -> held (e_mir d) = [] -> end_call c = true ->
  e_qmax d = 0 \/ length (e_q d) < e_qmax d ->
  exists d', run t (lm_call c) (idle d) = (Good MUnit, idle d') /\ e_q d' = e_q d ++ [announced c] /\
    held (e_mir d') = [] /\ is_closed (e_mir d') = match c with CClose _ => true | _ => false end.
Proof. exact c28_empty_all. Qed.
Print Assumptions C28_empty_mirror_ends.
Example C28_empty_case : let d := after_calls [CWarning oops; CError oops; CClose (Some oops)] (new_mirror 0 (Some true)) in
  e_q d = [QWarning (gm_init (GMExc oops)); QError (gm_init (GMExc oops)); QError (gm_init (GMExc oops))] /\
  is_closed (e_mir d) = true.
Proof. split; vm_compute; reflexivity. Qed.
Example C28_case : let d := mkmenv (e_mir demo_mir) (e_q demo_mir) 0 (Some true) in
  mreach d /\ stop_seen d = true /\ held (e_mir d) = txt "b" /\
  fst (run 0 (lm_call (CClose (Some oops))) (idle d)) = Fail StopIteration.
Proof.
  cbv zeta. split; [|repeat split; vm_compute; reflexivity].
  destruct demo_mir_reach as (id & q & ag & to & has & qu & qm & st & H). exists id, q, ag, to, has, qu, qm, st.
  eapply rtc_r; [exact H|]. apply (ms_env demo_mir).
Qed.
Example C28_wait_case : fst (run 0 (sys_p (lp_wait 9)) (idle demo_sys)) = Block /\
  Forall (fun x => is_data x = true) (inbox demo_sys).
Proof. split; [vm_compute; reflexivity|]. vm_compute. repeat constructor. Qed.

(** ** C29 *)
Theorem C29_close_flushes_and_signals_once :
  forall d t exc, mreach d -> is_closed (e_mir d) = false -> stop_seen d = false ->
  m_aggr (e_mir d) = false \/ held (e_mir d) = [] ->
  e_qmax d = 0 \/ length (e_q d) + 2 <= e_qmax d ->
  exists d', run t (lm_close exc) (idle d) = (Good tt, idle d') /\
    e_q d' = e_q d ++ match held (e_mir d) with [] => [] | v => [QStr (v ++ [10%N])] end
                   ++ [match exc with None => QClose | Some e => QError (gm_init (GMExc e)) end] /\
    is_closed (e_mir d') = true /\ held (e_mir d') = [] /\ e_state d' = e_state d.
Proof. exact c29_close. Qed.
Print Assumptions C29_close_flushes_and_signals_once.
(** A closed mirror sends nothing any more and stays closed; [mclosed_answer] lists the
    answer of every public call. *)
Theorem C29_closed_forever :
  forall d d' t c, mreach d -> is_closed (e_mir d) = true -> mlater d d' ->
  exists d'', run t (lm_call c) (idle d') = (mclosed_answer c, idle d'') /\
    e_q d'' = e_q d' /\ is_closed (e_mir d'') = true /\ e_state d'' = e_state d'.
Proof. exact c29_forever. Qed.
Print Assumptions C29_closed_forever.
Example C29_case :
  e_q (after_calls [CClose (Some oops); CEof; CError oops; CClose None] demo_mir) =
    [QStr (txt "a" ++ lf); QStr (txt "b" ++ lf); QError (mkgmsg (JStr (txt "error")) [JStr (txt "Traceback"); JStr (txt "E: oops")])].
Proof. vm_compute. reflexivity. Qed.

(** ** C30 *)
Theorem C30_force_stop_ends_wait :
  forall m d t t' fuel, 1 <= m -> preach m d -> main_closed d = false -> length (inbox d) + 1 < fuel ->
  let d1 := dat (snd (run t (sys_p lp_force_stop) (idle d))) in
  exists d2 handled rest,
    run t' (sys_p (lp_wait fuel)) (idle d1) = (Good tt, idle d2) /\
    inbox d ++ [QStop] = handled ++ rest /\ inbox d2 = rest /\ received m d d2 handled /\
    match wait_cut (inbox d) (s_n d) with
    | None => rest = [] /\ s_n d2 = 0%Z
    | Some (h, r) => handled = h /\ rest = r ++ [QStop]
    end.
Proof. exact c30. Qed.
Print Assumptions C30_force_stop_ends_wait.
Example C30_case : let d2 := after [OnMain PForceStop; OnMain (PWait 9)] demo_sys in
  records d2 = [IStr (txt "a"); IStr (txt "bd")] /\ s_n d2 = 0%Z /\ inbox d2 = [] /\
  wait_cut (inbox demo_sys) (s_n demo_sys) = None.
Proof. repeat split; vm_compute; reflexivity. Qed.

(** ** C31 *)
Theorem C31_reset_guard :
  forall d t, (0 < s_n d)%Z -> run t (sys_p lp_reset) (idle d) = (Fail TypeError, idle d).
Proof. exact c31_guard. Qed.
Print Assumptions C31_reset_guard.
Theorem C31_reset :
  forall d t, (s_n d <= 0)%Z ->
  exists d', run t (sys_p lp_reset) (idle d) = (Good tt, idle d') /\
    s_state d' = Some false /\ is_closed (mir_at d' (s_cur d')) = false /\ held (mir_at d' (s_cur d')) = [] /\
    inbox d' = [] /\ s_main d' = s_main d /\ s_n d' = s_n d.
Proof. exact c31_reset. Qed.
Print Assumptions C31_reset.
(** Whatever happens after the reset, no call on a mirror with an old queue (an old mirror
    or a copy of one) changes the queue from which the main buffer receives. *)
Theorem C31_old_mirrors_detached :
  forall m d t xs d2 i j c t' d3, 1 <= m -> preach m d -> (s_n d <= 0)%Z ->
  shist xs (dat (snd (run t (sys_p lp_reset) (idle d)))) d2 ->
  j < length (s_mirs d) -> m_q (mir_at d2 i) = m_q (mir_at d j) ->
  sstep t' (OnMirror i c) d2 d3 -> inbox d3 = inbox d2.
Proof. exact c31_detached. Qed.
Print Assumptions C31_old_mirrors_detached.
Definition c31_sys : psys := after [OnMain PForceStop; OnMain (PWait 9); OnMain PReset] demo_sys.
Example C31_case : s_n c31_sys = 0%Z /\ inbox (after [OnMirror 1 (CWrite lf)] c31_sys) = [] /\
  nth 0 (s_qs (after [OnMirror 1 (CWrite lf)] c31_sys)) [] = [QStr (txt "c" ++ lf)] /\
  inbox (after [OnMirror 3 (CWrite lf)] c31_sys) = [QStr lf] /\
  fst (run 0 (sys_p lp_reset) (idle demo_sys)) = Fail TypeError.
Proof. repeat split; vm_compute; reflexivity. Qed.

(** ** C32 *)
Theorem C32_read :
  forall d t size, mreach d -> is_closed (e_mir d) = false ->
  exists d', run t (lm_read size) (idle d) =
      (Good match size with None => held (e_mir d) | Some _ => [] end, idle d') /\
    held (e_mir d') = held (e_mir d) /\ e_q d' = e_q d.
Proof. exact c32. Qed.
Print Assumptions C32_read.
Theorem C32_last_items_refuted :
  exists d t n s', mreach d /\ is_closed (e_mir d) = false /\ held (e_mir d) <> [] /\ n <> 0 /\
    run t (lm_read (Some (Z.of_nat n))) (idle d) = (Good [], s').
Proof.
  exists demo_mir, 0, 1. eexists. split; [exact demo_mir_reach|]. split; [reflexivity|].
  split; [vm_compute; discriminate|]. split; [discriminate|]. vm_compute. reflexivity.
Qed.
Print Assumptions C32_last_items_refuted.
Example C32_case : fst (run 0 (lm_read None) (idle demo_mir)) = Good (txt "b") /\
  fst (run 0 (lm_read (Some 5%Z)) (idle demo_mir)) = Good [].
Proof. split; vm_compute; reflexivity. Qed.

(** ** C33 *)
(** Every queue.put of every public method, in any state, waits exactly when no timeout is set. *)
Theorem C33_block_means_no_timeout :
  forall c d b t, In (b, t) (puts (lm_call c) d) -> (b = true <-> t = None).
Proof. exact c33_args. Qed.
Print Assumptions C33_block_means_no_timeout.
(** Hence with a timeout a full queue is reported at once, although a slot would become
    free later; without a timeout the put waits for the slot. *)
Theorem C33_timeout_never_waits :
  forall b t f, (b = true <-> t = None) -> t <> None -> (0 < f)%Z -> std_put b t (Some f) = FullAfter 0.
Proof. exact c33_put. Qed.
Print Assumptions C33_timeout_never_waits.
Theorem C33_no_timeout_waits :
  forall b t f, (b = true <-> t = None) -> t = None -> (0 <= f)%Z -> std_put b t (Some f) = PutAfter f.
Proof. exact c33_put_wait. Qed.
Print Assumptions C33_no_timeout_waits.
(** On a full queue every call that has something to send fails with queue.Full when a
    timeout is set, waits when no timeout is set, and leaves the queue unchanged. *)
Theorem C33_full_queue :
  forall d t c, mreach d -> 0 < e_qmax d <= length (e_q d) -> sends c d ->
  fst (run t (lm_call c) (idle d)) = (match m_timeout (e_mir d) with Some _ => Fail QueueFull | None => Block end) /\
  e_q (dat (snd (run t (lm_call c) (idle d)))) = e_q d.
Proof. exact c33_full. Qed.
Print Assumptions C33_full_queue.
(** All other calls neither wait nor fail for that reason, and send nothing. *)
Theorem C33_other_calls :
  forall d t c, mreach d -> ~ sends c d ->
  fst (run t (lm_call c) (idle d)) <> Block /\ fst (run t (lm_call c) (idle d)) <> Fail QueueFull /\
  e_q (dat (snd (run t (lm_call c) (idle d)))) = e_q d.
Proof. exact c33_quiet. Qed.
Print Assumptions C33_other_calls.
(** The documented meaning is refuted: timeout 5s, slot free after 1s, the put fails at once. *)
Theorem C33_timeout_refuted :
  exists c d t, m_timeout (e_mir d) = Some t /\ (1000 < t)%Z /\
    exists b o, In (b, o) (puts (lm_call c) d) /\ o = Some t /\ std_put b o (Some 1000%Z) = FullAfter 0.
Proof.
  exists CEof, (mkmenv (mir_new 0 0 false (Some 5000%Z) true) [] 0 (Some false)), 5000%Z.
  split; [reflexivity|]. split; [reflexivity|]. exists false, (Some 5000%Z).
  split; [vm_compute; auto|]. split; vm_compute; reflexivity.
Qed.
Print Assumptions C33_timeout_refuted.
(** On a queue that is full, a mirror with a timeout raises queue.Full. *)
Example C33_case :
  fst (run 0 (lm_send_data (txt "x")) (idle (mkmenv (mir_new 0 0 false (Some 5000%Z) true) [QClose] 1 None))) = Fail QueueFull /\
  fst (run 0 (lm_send_data (txt "x")) (idle (mkmenv (mir_new 0 0 false None true) [QClose] 1 None))) = Block.
Proof. split; vm_compute; reflexivity. Qed.

Definition full_mir : menv := after_calls [CWrite (txt "b")] (mkmenv (mir_new 0 0 false None true) [QClose] 1 (Some false)).
Example C33_full_case :
  mreach full_mir /\ e_q full_mir = [QClose] /\ e_qmax full_mir = 1 /\
  sends (CWrite lf) full_mir /\ sends CEof full_mir /\ ~ sends (CWrite (txt "x")) full_mir.
Proof.
  split; [exists 0, 0, false, None, true, [QClose], 1, (Some false);
          apply (mcalls_later [CWrite (txt "b")]); vm_compute; reflexivity|].
  split; [vm_compute; reflexivity|]. split; [vm_compute; reflexivity|].
  assert (Hc : is_closed (e_mir full_mir) = false) by (vm_compute; reflexivity).
  assert (Ha : m_aggr (e_mir full_mir) = false) by (vm_compute; reflexivity).
  assert (Hs : stop_seen full_mir = false) by (vm_compute; reflexivity).
  split; [|split].
  - split; [exact Hc|]. split; [exact Hs|]. right. intros H.
    exact (proj1 (List.Forall_forall _ _) H 10%N (or_introl eq_refl) ltac:(vm_compute; auto)).
  - split; [exact Hc|]. left. exact Hs.
  - intros (_ & _ & [H|H]); [congruence|]. apply H. constructor; [|constructor].
    vm_compute. intuition discriminate.
Qed.

(** ** C34 (process mode) *)
Theorem C34_proc_write : forall t data s, run t (lp_write data) s = (Fail NotImplementedError, s).
Proof. exact c34_write. Qed.
Print Assumptions C34_proc_write.
Theorem C34_fileno_seek :
  (forall t s, run t lm_fileno s = (Fail OSError, s)) /\ (forall t s, run t lm_seek s = (Fail OSError, s)) /\
  (forall t s, run t (lp_call (PBase Fileno)) s = (Fail OSError, s)) /\
  (forall t s, run t (lp_call (PBase Seek)) s = (Fail OSError, s)) /\
  (forall t s, run t (lb_call Fileno) s = (Fail OSError, s)) /\
  (forall t s, run t (lb_call Seek) s = (Fail OSError, s)).
Proof. repeat split; reflexivity. Qed.
Print Assumptions C34_fileno_seek.

(** ** C35 *)
(** When every text handled by wait() consists of complete lines and the main buffer has
    no unfinished line, lines and messages are recorded in sending order. *)
Theorem C35_order :
  forall m d t fuel h rest is, 1 <= m -> preach m d -> main_closed d = false -> length (inbox d) < fuel ->
  current d = [] -> wait_cut (inbox d) (s_n d) = Some (h, rest) -> recorded h is ->
  exists d', run t (sys_p (lp_wait fuel)) (idle d) = (Good tt, idle d') /\
    records d' = last_items m (records d ++ is) /\ current d' = [].
Proof. exact c35_order. Qed.
Print Assumptions C35_order.
Definition c35_events : list sevent :=
  [OnMain PGetMirror; OnMirror 0 (CWrite (txt "a" ++ lf ++ txt "b")); OnMirror 0 (CError oops)].
Theorem C35_error_order_refuted :
  exists d d' e, shist (map (fun x => (0, x)) (c35_events ++ [OnMain (PWait 9)])) (lp_fresh 5) d /\
    run 0 (sys_p (on_main (lb_read None))) (idle d) = (Good [IStr (txt "a"); IMsg e; IStr (txt "b")], d').
Proof.
  exists (after (c35_events ++ [OnMain (PWait 9)]) (lp_fresh 5)). eexists _, _.
  split; [hist|vm_compute; reflexivity].
Qed.
Print Assumptions C35_error_order_refuted.
Example C35_case : let d := after [OnMain PGetMirror; OnMirror 0 (CWrite (txt "a" ++ lf ++ txt "b" ++ lf));
    OnMirror 0 (CWarning oops); OnMirror 0 (CClose (Some oops)); OnMain (PWait 9)] (lp_fresh 5) in
  records d = [IStr (txt "a"); IStr (txt "b"); IMsg (gm_init (GMExc oops)); IMsg (gm_init (GMExc oops))].
Proof. vm_compute. reflexivity. Qed.

(** ** C66 *)
Theorem C66_aggressive_write :
  forall d t data, mreach d -> is_closed (e_mir d) = false -> stop_seen d = false ->
  m_aggr (e_mir d) = true -> e_qmax d = 0 \/ length (e_q d) + 1 <= e_qmax d ->
  exists d', run t (lm_write data) (idle d) = (Good (length data), idle d') /\
    e_q d' = e_q d ++ [QStr data] /\ held (e_mir d') = held (e_mir d).
Proof. exact c66_write. Qed.
Print Assumptions C66_aggressive_write.
Theorem C66_aggressive_new_line :
  forall d t, mreach d -> is_closed (e_mir d) = false -> stop_seen d = false ->
  m_aggr (e_mir d) = true -> held (e_mir d) <> [] ->
  e_qmax d = 0 \/ length (e_q d) + 1 <= e_qmax d ->
  exists d', run t lm_new_line (idle d) = (Good tt, idle d') /\
    e_q d' = e_q d ++ [QStr [10%N]] /\ held (e_mir d') = held (e_mir d).
Proof. exact c66_new_line. Qed.
Print Assumptions C66_aggressive_new_line.
Theorem C66_aggressive_close_discards :
  forall d t exc, mreach d -> is_closed (e_mir d) = false -> stop_seen d = false ->
  m_aggr (e_mir d) = true -> held (e_mir d) <> [] ->
  e_qmax d = 0 \/ length (e_q d) + 2 <= e_qmax d ->
  exists d', run t (lm_close exc) (idle d) = (Good tt, idle d') /\
    e_q d' = e_q d ++ [QStr [10%N]; match exc with None => QClose | Some e => QError (gm_init (GMExc e)) end] /\
    is_closed (e_mir d') = true /\ held (e_mir d') = [].
Proof. exact c66_close. Qed.
Print Assumptions C66_aggressive_close_discards.
Example C66_case : e_q (after_calls [CSetAggr true; CWrite (txt "c"); CClose None] demo_mir) =
  [QStr (txt "a" ++ lf); QStr (txt "c"); QStr lf; QClose].
Proof. vm_compute. reflexivity. Qed.

(** ** C67 *)
Theorem C67_used_mirror_cannot_be_pickled :
  forall d t c r d1 d2 id, mreach d -> uses_lock c = true ->
  run t (lm_call c) (idle d) = (r, idle d1) -> mlater d1 d2 ->
  mir_pickle id (e_mir d2) = Fail (if is_closed (e_mir d2) then ValueError else TypeError).
Proof. exact c67_used. Qed.
Print Assumptions C67_used_mirror_cannot_be_pickled.
Theorem C67_copy_is_fresh :
  forall d id m', mreach d -> mir_pickle id (e_mir d) = Good m' ->
  m' = mir_new id (m_q (e_mir d)) (m_aggr (e_mir d)) (m_timeout (e_mir d)) (m_has (e_mir d)).
Proof. exact c67_unused. Qed.
Print Assumptions C67_copy_is_fresh.
Example C67_case : mir_pickle 7 (e_mir demo_mir) = Fail TypeError /\
  mir_pickle 7 (e_mir (after_calls [CClose None] demo_mir)) = Fail ValueError /\
  mir_pickle 7 (e_mir (after_calls [CSetAggr true; CIsatty] (new_mirror 0 None))) = Good (mir_new 7 0 true None true).
Proof. repeat split; vm_compute; reflexivity. Qed.

(** ** C68 *)
Theorem C68_closed_main_loses_text :
  forall m d t s rest, 1 <= m -> preach m d -> main_closed d = true -> inbox d = QStr s :: rest ->
  exists d', run t (sys_p lp_receive) (idle d) = (Fail OSError, idle d') /\
    inbox d' = rest /\ s_main d' = s_main d /\ s_n d' = s_n d.
Proof. exact c68. Qed.
Print Assumptions C68_closed_main_loses_text.
Example C68_case : let d := after [OnMain (PBase Close)] demo_sys in
  main_closed d = true /\ inbox d = [QStr (txt "d" ++ lf)] /\
  fst (run 0 (sys_p lp_receive) (idle d)) = Fail OSError /\ inbox (after [OnMain PReceive] d) = [].
Proof. repeat split; vm_compute; reflexivity. Qed.

(** ** C09, C14 (process mode) *)
Theorem C09_proc_len :
  forall m d t, 1 <= m -> preach m d -> main_closed d = false ->
  exists n r, run t (sys_p lp_len) (idle d) = (Good n, idle d) /\
    run t (sys_p (on_main (lb_read None))) (idle d) = (Good r, idle d) /\
    (current d <> [] \/ length (records d) = m -> n = length r) /\
    (current d = [] -> length (records d) <> m -> n = length r + 1).
Proof. exact c09_proc. Qed.
Print Assumptions C09_proc_len.
Theorem C14_proc_init :
  forall v,
  match lp_init v with
  | Good s => exists z, as_int v = Some z /\ (1 <= z)%Z /\ s = idle (lp_fresh (Z.to_nat z))
  | Fail e => e = TypeError /\ (as_int v = None \/ exists z, as_int v = Some z /\ (z < 1)%Z)
  | Block => False
  end.
Proof. exact lp_init_spec. Qed.
Print Assumptions C14_proc_init.
Theorem C14_proc_maxlen :
  forall m d t, 1 <= m -> preach m d -> run t (sys_p (lp_call (PBase Maxlen))) (idle d) = (Good (RNat m), idle d).
Proof. exact c14_proc. Qed.
Print Assumptions C14_proc_maxlen.
Example C09_proc_case : fst (run 0 (sys_p lp_len) (idle demo_sys)) = Good 2 /\
  fst (run 0 (sys_p lp_len) (idle (lp_fresh 3))) = Good 1.
Proof. split; vm_compute; reflexivity. Qed.
