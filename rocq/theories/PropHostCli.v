(** * PropHostCli: LineHostMirror and LineHostReader (C48, C51-C55, C71)

    [w : world]: the server, the buffers of the mirrors and what will go wrong with the next
    requests ([w_faults w = []]: nothing); [server E m d g b]: the server [d] (maxlen [m]) is
    open and holds the log [g], the stop signal is [b]; [mirror_is M (Some v) w]: the mirror
    [M] is open and holds the text [v] (HostCliSpec.v).  Proofs are in HostCliProofs.v,
    HostCliFlag.v and HostCliConc.v. *)
From stdpp Require Import gmap.
From Coq Require Import String.
From Coq Require Import List NArith ZArith Bool Arith Lia.
From Verif Require Import PyStr Prog PyIO Base Spec Held LineBuf LineBufProofs Json JsonSpec Host HostSpec HostCli HostCliSpec
  HostCliProofs HostCliFlag HostCliConc.
Import ListNotations.
Local Open Scope nat_scope.

(** ** C48 *)
(** A reader gets the items that read() of the buffer gives in the server process, after a
    trip through JSON; nothing changes. *)
Theorem C48_read :
  forall E m g b w t t' size, 1 <= m -> server E m (w_srv w) g b -> w_faults w = [] ->
  (forall i, In i (view m (option_map (Z.max 0) size) g) -> ~ is_raw i) ->
  exists items,
    run t' (h_call E (HBase (Read (option_map (Z.max 0) size)))) (mkst (w_srv w) ∅) = (Good (HRes (RItems items)), mkst (w_srv w) ∅) /\
    call E t (OnRd (RdRead size)) w = (Good (CItems (map wire_item items)), mkst w ∅) /\
    items = view m (option_map (Z.max 0) size) g.
Proof. exact read_same. Qed.
Print Assumptions C48_read.
(** The trip through JSON changes only surrogate pairs. *)
Theorem C48_wire : forall i, clean_item i -> wire_item i = i.
Proof. exact clean_wire. Qed.
Print Assumptions C48_wire.
(** After any history of well-formed messages. *)
Theorem C48_history :
  forall E m ops g w t size, 1 <= m -> hmsg_steps E (map snd ops) slog0 g ->
  w_srv w = dat (snd (h_hist E (hist_of_msgs ops) (hfresh m))) -> w_faults w = [] ->
  call E t (OnRd (RdRead size)) w = (Good (CItems (map wire_item (view m (option_map (Z.max 0) size) g))), mkst w ∅).
Proof. exact read_history. Qed.
Print Assumptions C48_history.
(** If the server cannot answer (an item that is no message, see C50; a closed buffer), the
    reader raises an exception, and nothing changes.  *)
Theorem C48_read_raw :
  forall E m g b w t size, 1 <= m -> wf_henv E -> server E m (w_srv w) g b -> w_faults w = [] ->
  (exists i, In i (view m (option_map (Z.max 0) size) g) /\ is_raw i) ->
  call E t (OnRd (RdRead size)) w = (Fail (error_of (snd (on_err E AttributeError))), mkst w ∅).
Proof. exact rd_read_raw. Qed.
Print Assumptions C48_read_raw.
Theorem C48_read_closed :
  forall E m w t size, 1 <= m -> wf_henv E -> served E m (mkst (w_srv w) ∅) -> is_closed (mkst (w_srv w) ∅) = true ->
  w_faults w = [] ->
  call E t (OnRd (RdRead size)) w = (Fail (error_of (snd (on_err E OSError))), mkst w ∅).
Proof. exact rd_read_closed. Qed.
Print Assumptions C48_read_closed.
(** len(reader) is len() of the buffer on the server; reader.clear() empties it. *)
Theorem C48_len :
  forall E m g b w t, 1 <= m -> server E m (w_srv w) g b -> w_faults w = [] ->
  exists n, run t (h_call E (HBase Len)) (mkst (w_srv w) ∅) = (Good (HRes (RNat n)), mkst (w_srv w) ∅) /\
    call E t (OnRd RdLen) w = (Good (CJson (JNum (Z.of_nat n))), mkst w ∅).
Proof. exact rd_len. Qed.
Print Assumptions C48_len.
Theorem C48_clear :
  forall E m g b w t, 1 <= m -> server E m (w_srv w) g b -> w_faults w = [] ->
  exists d', server E m d' slog0 b /\ call E t (OnRd RdClear) w = (Good (CBool true), mkst (mkworld d' (w_mir w) []) ∅).
Proof. exact rd_clear_run. Qed.
Print Assumptions C48_clear.

Definition E1 : henv := mkhenv (fun _ => []) (fun _ => (500, Some (JObj [(txt "message", JStr (txt "oops"))]))).
Definition exc1 : excobj := mkexc ExcOther (txt "boom").
Definition ops1 : list (nat * hmsg) :=
  [(1, HText (JStr (txt "a" ++ [LF] ++ txt "b"))); (2, says_exc true exc1); (1, HText (JNum 7))].
Definition hist1 : list (nat * hcall) := hist_of_msgs ops1.
Definition M0 : hmir := mkhm 0 false 101.
Definition M1 : hmir := mkhm 1 true 103.
Definition world1 (fs : list fault) : world :=
  mkworld (dat (snd (h_hist E1 hist1 (hfresh 3)))) (<[0 := mksio [] 0 false]> (<[1 := mksio [] 0 false]> ∅)) fs.
Definition shown (w : world) : list item * text := (dq (storage (h_buf (w_srv w))), sval (last_line (h_buf (w_srv w)))).
Example C48_demo :
  fst (call E1 5 (OnRd (RdRead (Some 2%Z))) (world1 [])) = Good (CItems [IMsg (mkgmsg (JStr (txt "error")) [JStr (txt "boom")]); IStr (txt "7")]) /\
  fst (call E1 5 (OnRd (RdRead (Some (-1)%Z))) (world1 [])) = Good (CItems []) /\
  fst (call E1 5 (OnRd RdLen) (world1 [])) = Good (CJson (JNum 3)).
Proof. vm_compute. auto. Qed.

(** ** C51, the reader *)
Theorem C51_reader_maxlen :
  forall E m h w t, server_after E m h (w_srv w) -> w_faults w = [] ->
  (~ Exists (fun c => resets (snd c)) h -> call E t (OnRd RdMaxlen) w = (Good (CJson (JNum (Z.of_nat m))), mkst w ∅)) /\
  (Exists (fun c => resets (snd c)) h -> call E t (OnRd RdMaxlen) w = (Good (CJson JNull), mkst w ∅)).
Proof. exact rd_maxlen. Qed.
Print Assumptions C51_reader_maxlen.
Theorem C51_reader_reset :
  forall E w t, w_faults w = [] -> exists d', server_call E HReset (w_srv w) d' /\
  call E t (OnRd RdReset) w = (Good (CBool true), mkst (mkworld d' (w_mir w) []) ∅).
Proof. exact rd_reset. Qed.
Print Assumptions C51_reader_reset.
Example C51_reader_demo :
  fst (ev_hist E1 [Cli 1 (OnRd RdMaxlen); Cli 1 (OnRd RdReset); Cli 1 (OnRd RdMaxlen)] (mkst (world1 []) ∅)) =
  [Good (CJson (JNum 3)); Good (CBool true); Good (CJson JNull)].
Proof. vm_compute. reflexivity. Qed.

(** ** C52, the clients *)
Theorem C52_reader_stop :
  forall E w t, w_faults w = [] -> exists d', server_call E HStopAll (w_srv w) d' /\
  call E t (OnRd RdStop) w = (Good (CBool true), mkst (mkworld d' (w_mir w) []) ∅).
Proof. exact rd_stop. Qed.
Print Assumptions C52_reader_stop.
Theorem C52_reader_closed :
  forall E m h w t b, server_after E m h (w_srv w) -> w_faults w = [] -> flag_steps E (map snd h) false b ->
  call E t (OnRd RdClosed) w = (Good (CJson (JBool b)), mkst w ∅).
Proof. exact rd_closed. Qed.
Print Assumptions C52_reader_closed.
Theorem C52_flag_of_history :
  forall E m h d b, server_after E m h d -> flag_steps E (map snd h) false b -> stop_flag E d b.
Proof. exact server_flag. Qed.
Print Assumptions C52_flag_of_history.
(** A stopped mirror sends nothing and changes nothing. *)
Theorem C52_write_stopped :
  forall E M t data v w, has_rlock M -> w_faults w = [] -> stop_flag E (w_srv w) true -> mirror_is M (Some v) w ->
  call E t (OnMir M (HWrite data)) w = (Fail StopIteration, mkst w ∅).
Proof. exact (fun E M t data v w H => stopped_write E M H t data v w). Qed.
Print Assumptions C52_write_stopped.
(** Also if asking for the signal fails: then another exception is raised. *)
Theorem C52_write_stopped_faults :
  forall E M t data v w, has_rlock M -> Forall fault_ok (w_faults w) -> stop_flag E (w_srv w) true -> mirror_is M (Some v) w ->
  exists e, call E t (OnMir M (HWrite data)) w = (Fail e, mkst (mkworld (w_srv w) (w_mir w) (tl (w_faults w))) ∅).
Proof. exact (fun E M t data v w H => stopped_write_faults E M H t data v w). Qed.
Print Assumptions C52_write_stopped_faults.
(** The signal stays until it is reset: over any history of calls and requests, and in any
    concurrent execution of clients. *)
Theorem C52_until_reset :
  forall E h s, Forall (keeps_stop E) h -> stop_flag E (w_srv (dat s)) true -> stop_flag E (w_srv (dat (snd (ev_hist E h s)))) true.
Proof. exact ev_keeps. Qed.
Print Assumptions C52_until_reset.
Theorem C52_until_reset_threads :
  forall E css sch w ps' s', Forall (Forall (fun c => c <> OnRd RdReset)) css -> stop_flag E (w_srv w) true ->
  @sched_run ccmd world (clisem E) _ sch (map (fun cs => thread (map c_call cs)) css, mkst w ∅) = Some (ps', s') ->
  stop_flag E (w_srv (dat s')) true.
Proof. exact clients_keep_stop. Qed.
Print Assumptions C52_until_reset_threads.
Example C52_client_demo :
  fst (ev_hist E1 [Cli 1 (OnRd RdClosed); Cli 1 (OnMir M0 (HWrite (txt "x"))); Srv (HBase Close); Cli 1 (OnRd RdClosed);
                   Cli 1 (OnRd RdStop); Cli 2 (OnMir M0 (HWrite (txt "y"))); Cli 1 (OnRd RdClosed);
                   Cli 2 (OnMir M0 HRead); Srv (HReq DelState); Cli 3 (OnMir M0 (HWrite (txt "z"))); Cli 2 (OnMir M0 HRead)]
         (mkst (world1 []) ∅)) =
  [Good (CJson (JBool false)); Good (CNat 1); Good CUnit; Good (CJson (JBool false)); Good (CBool true); Fail StopIteration;
   Good (CJson (JBool true)); Good (CText (txt "x")); Good CUnit; Good (CNat 1); Good (CText (txt "xz"))].
Proof. vm_compute. reflexivity. Qed.
Example C52_keeps_demo :
  Forall (keeps_stop E1) [Cli 1 (OnRd RdStop); Cli 2 (OnMir M0 (HClose None)); Srv (HBase Close); Srv HStopAll; Srv (HReq DelMsg)].
Proof. repeat constructor; try discriminate. Qed.

(** ** C53 *)
(** close() delivers the held text and then the end mark or the error, unless the signal is
    set, something is held and the exception is no StopIteration. *)
Theorem C53_close :
  forall E M t m exc v g b w, has_rlock M -> 1 <= m -> server E m (w_srv w) g b -> w_faults w = [] -> mirror_is M (Some v) w ->
  (hm_aggr M = true -> v = []) ->
  (b = true -> v = [] \/ exists e, exc = Some e /\ ex_cls e = ExcStopIteration) ->
  exists g' w', hmsg_steps E (says_line v ++ [match exc with Some e => says_exc true e | None => HEof end]) g g' /\
    call E t (OnMir M (HClose exc)) w = (Good CUnit, mkst w' ∅) /\
    server E m (w_srv w') g' b /\ w_faults w' = [] /\ mirror_is M None w' /\ others_same M w w'.
Proof. exact (fun E M t m exc v g b w H => close_up E M H t m exc v g b w). Qed.
Print Assumptions C53_close.
Theorem C53_close_stopped :
  forall E M t exc v w, has_rlock M -> w_faults w = [] -> stop_flag E (w_srv w) true -> mirror_is M (Some v) w -> v <> [] ->
  (forall e, exc = Some e -> ex_cls e <> ExcStopIteration) ->
  call E t (OnMir M (HClose exc)) w = (Fail StopIteration, mkst w ∅).
Proof. exact (fun E M t exc v w H => close_stopped E M H t exc v w). Qed.
Print Assumptions C53_close_stopped.
Definition stop_exc : excobj := mkexc ExcStopIteration (txt "stop").
Example C53_demo :
  let h := [Cli 1 (OnMir M0 (HWrite (txt "x"))); Cli 1 (OnRd RdStop)] in
  let r1 := ev_hist E1 (h ++ [Cli 1 (OnMir M0 (HClose (Some stop_exc))); Cli 1 (OnMir M0 HClosed)]) (mkst (world1 []) ∅) in
  let r2 := ev_hist E1 (h ++ [Cli 1 (OnMir M0 (HClose None)); Cli 1 (OnMir M0 HRead)]) (mkst (world1 []) ∅) in
  skipn 2 (fst r1) = [Good CUnit; Good (CBool true)] /\
  shown (dat (snd r1)) = ([IMsg (mkgmsg (JStr (txt "error")) [JStr (txt "boom")]); IStr (txt "7x"); IMsg (mkgmsg (JStr (txt "error")) [JStr (txt "stop")])], []) /\
  skipn 2 (fst r2) = [Fail StopIteration; Good (CText (txt "x"))] /\ shown (dat (snd r2)) = shown (world1 []).
Proof. vm_compute. auto. Qed.

(** ** C54 *)
(** [cli_pool ws]: thread [i] executes the calls [ws[i]] on its own mirror or on a reader.
    At any moment of any execution the server holds the log of the messages that arrived so
    far, each one completely, in some [order]; the messages of every mirror are the ones its
    calls should send, in their order; every thread can go on. *)
Theorem C54_any_time :
  forall E m g0 ws x0 w sch ps' s', 1 <= m -> work_ok ws -> server E m (w_srv w) g0 false -> w_faults w = [] ->
  (forall i M cs, nth_error ws i = Some (Mirror M cs) -> mirror_is M (x0 i) w /\ (hm_aggr M = true -> x0 i = Some [] \/ x0 i = None)) ->
  @sched_run ccmd world (clisem E) _ sch (cli_pool ws, mkst w ∅) = Some (ps', s') ->
  exists order g,
    hmsg_steps E (map snd order) g0 g /\ server E m (w_srv (dat s')) g false /\
    (forall i o, In (i, o) order -> exists M cs, nth_error ws i = Some (Mirror M cs)) /\
    (forall i M cs, nth_error ws i = Some (Mirror M cs) ->
       (exists rest rs x', mcalls_do (hm_aggr M) cs (x0 i) (events_of i order ++ rest) rs x') /\
       (forall r, nth_error ps' i = Some r -> finished r = true ->
          exists rs x', r = Ret rs /\ mcalls_do (hm_aggr M) cs (x0 i) (events_of i order) rs x' /\ mirror_is M x' (dat s'))) /\
    (forall i cs r, nth_error ws i = Some (Reader cs) -> nth_error ps' i = Some r -> finished r = true ->
       exists rs, r = Ret rs /\ reads_along E m g0 order 0 cs rs) /\
    (forall i p, nth_error ps' i = Some p -> finished p = false -> exists c', @cstep ccmd world (clisem E) _ i (ps', s') = Some c') /\
    (Forall (fun p => finished p = true) ps' -> lks s' = ∅).
Proof. exact clients_any_time. Qed.
Print Assumptions C54_any_time.
Theorem C54_no_infinite_execution :
  forall E ws w f, f 0 = (cli_pool ws, mkst w ∅) -> ~ forall n, exists j, @cstep ccmd world (clisem E) _ j (f n) = Some (f (S n)).
Proof. exact (fun E _ _ f _ => @no_infinite ccmd world _ (clisem E) f). Qed.
Print Assumptions C54_no_infinite_execution.
(** One mirror writing texts, any number of readers: as if the texts were written directly. *)
Theorem C54_transparent :
  forall E m g0 ws i M texts w sch ps' s', 1 <= m -> work_ok ws -> server E m (w_srv w) g0 false -> w_faults w = [] ->
  nth_error ws i = Some (Mirror M (map HWrite texts)) -> (forall j M' cs, nth_error ws j = Some (Mirror M' cs) -> j = i) ->
  mirror_is M (Some []) w -> no_pair (concat texts) ->
  @sched_run ccmd world (clisem E) _ sch (cli_pool ws, mkst w ∅) = Some (ps', s') -> Forall (fun p => finished p = true) ps' ->
  exists g direct v, server E m (w_srv (dat s')) g false /\ mirror_is M (Some v) (dat s') /\
    nth_error ps' i = Some (Ret (map (fun s => Good (CNat (length s))) texts)) /\
    log_steps (map SWrite texts) g0 direct /\ done g = done direct /\ pend g ++ v = pend direct /\ (hm_aggr M = true -> v = []).
Proof. exact single_mirror. Qed.
Print Assumptions C54_transparent.
(** Two mirrors and a reader, in turns as far as the locks allow. *)
Definition ws1 : list work :=
  [Mirror M0 [HWrite (txt "p"); HWrite (txt "q" ++ [LF] ++ txt "r"); HClose None];
   Mirror M1 [HWrite (txt "s"); HSendError exc1]; Reader [RdRead None]].
Example C54_case_hypotheses :
  work_ok ws1 /\ server E1 3 (w_srv (world1 [])) (mkslog [IStr (txt "a"); IStr (txt "b"); IMsg (mkgmsg (JStr (txt "error")) [JStr (txt "boom")])] (txt "7")) false /\
  mirror_is M0 (Some []) (world1 []) /\ mirror_is M1 (Some []) (world1 []).
Proof.
  split.
  - split; [repeat constructor; cbn; intuition discriminate|]. split; [repeat constructor; cbn; intuition discriminate|].
    split; [repeat constructor|]. intros cs [H|[H|[H|[]]]]; try discriminate. injection H as <-. repeat constructor.
  - split; [|split; reflexivity]. apply (server_msgs E1 3 ops1); [lia|].
    eapply hss_cons; [apply hs_text; [discriminate|apply log_write_fun; reflexivity]|].
    eapply hss_cons; [apply hs_note; constructor; apply log_new_line_fun; reflexivity|].
    eapply hss_cons; [apply hs_text; [discriminate|apply log_write_fun; reflexivity]|].
    apply hss_nil.
Qed.
Fixpoint turns (n fuel : nat) (c : list (prog ccmd (list (outcome cres))) * st world) : list nat :=
  match fuel with
  | O => []
  | S fuel' =>
      match @cstep ccmd world (clisem E1) _ (fuel mod n) c with
      | Some c1 => (fuel mod n) :: turns n fuel' c1
      | None => turns n fuel' c
      end
  end.
Example C54_case :
  option_map (fun c => (map (fun p => match p with Ret r => Some r | _ => None end) (fst c), shown (dat (snd c))))
    (@sched_run ccmd world (clisem E1) _ (turns 3 300 (cli_pool ws1, mkst (world1 []) ∅)) (cli_pool ws1, mkst (world1 []) ∅)) =
  Some ([Some [Good (CNat 1); Good (CNat 3); Good CUnit]; Some [Good (CNat 1); Good CUnit];
         Some [Good (CItems [IStr (txt "b"); IMsg (mkgmsg (JStr (txt "error")) [JStr (txt "boom")]); IStr (txt "7")])]],
        ([IMsg (mkgmsg (JStr (txt "error")) [JStr (txt "boom")]); IStr (txt "pq"); IStr (txt "r")], [])).
Proof. vm_compute. reflexivity. Qed.
(** The condition on surrogate pairs is needed. *)
Theorem C54_surrogates_refuted :
  exists texts, let direct := concat texts in no_break direct /\
    let r := ev_hist E1 (map (fun s => Cli 1 (OnMir M0 (HWrite s))) (texts ++ [[LF]])) (mkst (world1 []) ∅) in
    fst r = map (fun s => Good (CNat (length s))) (texts ++ [[LF]]) /\
    last (fst (shown (dat (snd r)))) (IStr []) <> IStr (txt "7" ++ direct).
Proof.
  exists [[55357]; [56832]]%N. split; [repeat constructor; unfold line_break; lia|]. split; [vm_compute; reflexivity|].
  vm_compute. discriminate.
Qed.
Print Assumptions C54_surrogates_refuted.

(** ** C55 *)
(** One write, and any sequence of writes, whatever happens to the requests. *)
Theorem C55_write :
  forall E M t m data v g w, has_rlock M -> 1 <= m -> server E m (w_srv w) g false -> Forall fault_ok (w_faults w) ->
  mirror_is M (Some v) w ->
  exists ok taken sent v' g' r w',
    write_does (hm_aggr M) data v (w_faults w) ok taken sent v' (w_faults w') /\
    call E t (OnMir M (HWrite data)) w = (r, mkst w' ∅) /\ write_result data ok r /\
    hmsg_steps E (map says_text sent) g g' /\ server E m (w_srv w') g' false /\
    mirror_is M (Some v') w' /\ others_same M w w' /\ Forall fault_ok (w_faults w').
Proof. exact (fun E M t m data v g w H => write_faults E M H t m data v g w). Qed.
Print Assumptions C55_write.
Theorem C55_writes :
  forall E M t m texts v g w, has_rlock M -> 1 <= m -> server E m (w_srv w) g false -> Forall fault_ok (w_faults w) ->
  mirror_is M (Some v) w ->
  exists oks taken sent v' g' rs w',
    writes_do (hm_aggr M) texts v (w_faults w) oks taken sent v' (w_faults w') /\
    calls E t (map (fun data => OnMir M (HWrite data)) texts) w = (rs, mkst w' ∅) /\
    List.Forall2 (fun '(data, ok) r => write_result data ok r) (combine texts oks) rs /\
    hmsg_steps E (map says_text sent) g g' /\ server E m (w_srv w') g' false /\
    mirror_is M (Some v') w' /\ others_same M w w' /\ Forall fault_ok (w_faults w').
Proof. exact (fun E M t m texts v g w H Hm => writes_faults E M H t m texts Hm v g w). Qed.
Print Assumptions C55_writes.
(** Unless an answer gets lost: everything taken over arrives once, in order, or is held. *)
Theorem C55_once :
  forall texts v fs oks taken sent v' fs', writes_do false texts v fs oks taken sent v' fs' -> Forall (fun f => f <> Lost) fs ->
  concat sent ++ v' = v ++ concat taken /\ Forall (fun f => f <> Lost) fs'.
Proof. exact once. Qed.
Print Assumptions C55_once.
(** An aggressive mirror delivers exactly the texts of the successful writes. *)
Theorem C55_aggressive :
  forall texts v fs oks taken sent v' fs', writes_do true texts v fs oks taken sent v' fs' -> Forall (fun f => f <> Lost) fs ->
  sent = map fst (List.filter snd (combine texts oks)) /\ v' = v /\ Forall (fun f => f <> Lost) fs'.
Proof. exact at_once. Qed.
Print Assumptions C55_aggressive.
Definition ab : text := txt "ab" ++ [LF].
Definition after_writes (M : hmir) (fs : list fault) (texts : list text) : list (outcome cres) * (list item * text) :=
  let r := calls E1 1 (map (fun data => OnMir M (HWrite data)) texts) (world1 fs) in (fst r, shown (dat (snd r))).
(** (a) the check fails: nothing is kept; (b) the delivery fails: kept and delivered later;
    (c) the caller repeats the failed write: twice; (d) aggressive: dropped. *)
Example C55_demo :
  after_writes M0 [Refused 503 None] [ab; txt "c" ++ [LF]] =
    ([Fail ValueError; Good (CNat 2)], ([IStr (txt "b"); IMsg (mkgmsg (JStr (txt "error")) [JStr (txt "boom")]); IStr (txt "7c")], [])) /\
  after_writes M0 [Up; Refused 503 (Some (JObj []))] [ab; txt "c" ++ [LF]] =
    ([Fail ConnectionError; Good (CNat 2)], ([IMsg (mkgmsg (JStr (txt "error")) [JStr (txt "boom")]); IStr (txt "7ab"); IStr (txt "c")], [])) /\
  after_writes M0 [Up; Down] [ab; ab] =
    ([Fail HTTPError; Good (CNat 3)], ([IMsg (mkgmsg (JStr (txt "error")) [JStr (txt "boom")]); IStr (txt "7ab"); IStr (txt "ab")], [])) /\
  after_writes M1 [Up; Down] [ab; txt "c" ++ [LF]] =
    ([Fail HTTPError; Good (CNat 2)], ([IStr (txt "b"); IMsg (mkgmsg (JStr (txt "error")) [JStr (txt "boom")]); IStr (txt "7c")], [])).
Proof. vm_compute. auto. Qed.
(** A lost answer: the text arrives twice although it was written once. *)
Theorem C55_lost_answer_refuted :
  exists fs, Forall fault_ok fs /\
    after_writes M0 fs [ab; txt "c" ++ [LF]] =
      ([Fail HTTPError; Good (CNat 2)], ([IStr (txt "7ab"); IStr (txt "ab"); IStr (txt "c")], [])).
Proof. exists [Up; Lost]. split; [repeat constructor|]. vm_compute. reflexivity. Qed.
Print Assumptions C55_lost_answer_refuted.

(** ** C71 *)
(** A rejected reading request: which exception the client raises depends on the error page. *)
Theorem C71_error_page :
  forall E w t size e, wf_henv E -> w_faults w = [] ->
  (forall n, asks n (option_map (Z.max 0) size) -> rejected E (mkst (w_srv w) ∅) (GetMsg n) e) ->
  call E t (OnRd (RdRead size)) w = (Fail (error_of (snd (on_err E e))), mkst w ∅).
Proof. exact rd_read_rejected. Qed.
Print Assumptions C71_error_page.
(** Flask's own error pages are HTML: ValueError instead of the documented ConnectionError. *)
Definition html : henv := mkhenv (fun _ => []) (fun _ => (500, None)).
Theorem C71_connection_error_refuted :
  wf_henv html /\
  fst (call html 1 (OnRd (RdRead None)) (mkworld (dat (snd (h_hist html [(1, HBase Close)] (hfresh 3)))) ∅ [])) = Fail ValueError /\
  wf_henv E1 /\
  fst (call E1 1 (OnRd (RdRead None)) (mkworld (dat (snd (h_hist E1 [(1, HBase Close)] (hfresh 3)))) ∅ [])) = Fail ConnectionError.
Proof.
  split; [intros e; cbn; lia|]. split; [vm_compute; reflexivity|]. split; [intros e; cbn; lia|]. vm_compute. reflexivity.
Qed.
Print Assumptions C71_connection_error_refuted.
