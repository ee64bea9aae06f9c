(** * PropHostLedger: an account of all calls of threads that share one LineHostMirror (C86)

    [hev], [hmoves], [served], [x_acts] are in HostLedgerSpec.v, [all3] is in
    MirLedgerSpec.v; proofs are in HostLedger.v. *)
From stdpp Require Import gmap.
From Coq Require Import String.
From Coq Require Import List NArith ZArith Bool Arith.
From Verif Require Import PyStr Prog PyIO Base Spec LineBuf Proc ProcRun MirLedgerSpec Json Host HostSpec HostCli HostCliSpec HostLazy HostLazySpec
  PropHostCli PropLock HostLedgerSpec HostLedger.
Import ListNotations.
Local Open Scope nat_scope.

(** ** C86.  Any calls of any number of threads on one mirror whose lock exists; at the same
    time other clients use the service, and requests may fail.  Every finished execution is
    one sequence [es] of parts, tagged with threads: the parts are executed one after the
    other ([hmoves]); the requests among them are served in this order ([served]); the parts
    of each thread are those of its calls, and each call has the result that goes with its
    parts ([x_acts]).  Afterwards the hypotheses hold again. *)
Theorem C86_account :
  forall E M css w0 sch ps' s',
  hl_has_lock M w0 -> at_end M w0 ->
  x_sched E sch (x_pool M css, mkst w0 ∅) = Some (ps', s') -> Forall (fun p => finished p = true) ps' ->
  exists es,
    hmoves (lm_aggr M) es (hview M w0) (hview M (dat s')) /\
    served E (asked es) (hnet w0) (hnet (dat s')) /\
    Forall (fun e => fst e < length css) es /\
    (forall i cs, nth_error css i = Some cs -> exists rs ess,
       nth_error ps' i = Some (Ret rs) /\ events_of i es = concat ess /\ all3 (x_acts (lm_aggr M)) cs rs ess) /\
    s' = mkst (dat s') ∅ /\ hl_has_lock M (dat s') /\ at_end M (dat s').
Proof. exact (fun E M css w0 sch ps' s' Hl He => c86_account E M css w0 He sch ps' s' Hl). Qed.
Print Assumptions C86_account.
(** No execution gets stuck. *)
Theorem C86_progress :
  forall E M css w0 sch ps' s',
  hl_has_lock M w0 -> at_end M w0 -> x_sched E sch (x_pool M css, mkst w0 ∅) = Some (ps', s') ->
  Forall (fun p => finished p = true) ps' \/ exists i, x_sched E [i] (ps', s') <> None.
Proof. exact (fun E M css w0 sch ps' s' Hl He => c86_progress E M css w0 He sch ps' s' Hl). Qed.
Print Assumptions C86_progress.

(** What such a sequence says about texts.  As long as nobody clears or closes the mirror,
    the texts that the service took and the text still held are the texts that were written
    and the line breaks that were added, in this order. *)
Theorem C86_text :
  forall es v v', hmoves false es v v' -> Forall (fun e => snd e <> HDrop /\ snd e <> HShut) es ->
  concat (map (fun e => given (snd e)) es) ++ h_held v' = h_held v ++ concat (map (fun e => added (snd e)) es).
Proof. exact c86_text. Qed.
Print Assumptions C86_text.
Theorem C86_text_aggressive :
  forall es v v', hmoves true es v v' ->
  Forall (fun e => forall data p, snd e = HText data p -> exists a, p = Some (data, a)) es.
Proof. exact c86_text_aggressive. Qed.
Print Assumptions C86_text_aggressive.

(** What the account allows happens.  (The service holds "7" as an unfinished line, which the
    end signal completes.)  A call of write() returns the length of the text, and the text is
    lost: it was written between the end signal and the clear() of close(). *)
Definition lines_of (w : lworld) : list item := fst (shown (l_w w)).
Theorem C86_written_text_arrives_refuted :
  exists sch s', x_sched E1 sch (x_pool ML [[Mine (HWrite (txt "a"))]; [Mine (HClose None)]], mkst used ∅) =
    Some ([Ret [Good (XCall (CNat 1))]; Ret [Good (XCall CUnit)]], s') /\
  (newest (dat s') = IStr (txt "7") /\ still_held (dat s') = []).
Proof.
  apply (@plan_witness lcmd lworld _ (lsem E1) [(1, 16); (0, 200); (1, 200); (0, 200)] _ _
    (fun d => newest d = IStr (txt "7") /\ still_held d = [])); vm_compute; auto.
Qed.
Print Assumptions C86_written_text_arrives_refuted.
(** The same with a complete line: it is sent after the end signal. *)
Theorem C86_nothing_after_end_refuted :
  exists sch s', x_sched E1 sch (x_pool ML [[Mine (HWrite (txt "a" ++ [LF]))]; [Mine (HClose None)]], mkst used ∅) =
    Some ([Ret [Good (XCall (CNat 2))]; Ret [Good (XCall CUnit)]], s') /\
  skipn 1 (lines_of (dat s')) = [IStr (txt "7"); IStr (txt "a")].
Proof.
  apply (@plan_witness lcmd lworld _ (lsem E1) [(1, 16); (0, 200); (1, 200); (0, 200)] _ _
    (fun d => skipn 1 (lines_of d) = [IStr (txt "7"); IStr (txt "a")])); vm_compute; reflexivity.
Qed.
Print Assumptions C86_nothing_after_end_refuted.
(** write() may raise ValueError (of the io.StringIO inside) instead of the OSError for a
    mirror that is not writable (host.py:489-490). *)
Theorem C86_closed_gives_OSError_refuted :
  exists sch s', x_sched E1 sch (x_pool ML [[Mine (HWrite (txt "a"))]; [Mine (HClose None)]], mkst used ∅) =
    Some ([Ret [Fail ValueError]; Ret [Good (XCall CUnit)]], s') /\ newest (dat s') = IStr (txt "7").
Proof.
  apply (@plan_witness lcmd lworld _ (lsem E1) [(0, 6); (1, 200); (0, 200); (1, 200)] _ _ (fun d => newest d = IStr (txt "7"))); vm_compute; reflexivity.
Qed.
Print Assumptions C86_closed_gives_OSError_refuted.
(** An aggressive mirror does not even raise: the text is lost without a trace. *)
Definition MA : lmir := mklm 0 true.
Theorem C86_aggressive_write_arrives_refuted :
  exists sch s', x_sched E1 sch (x_pool MA [[Mine (HWrite (txt "a" ++ [LF]))]; [Mine (HClose None)]], mkst used ∅) =
    Some ([Ret [Good (XCall (CNat 2))]; Ret [Good (XCall CUnit)]], s') /\ newest (dat s') = IStr (txt "7").
Proof.
  apply (@plan_witness lcmd lworld _ (lsem E1) [(0, 6); (1, 200); (0, 200); (1, 200)] _ _ (fun d => newest d = IStr (txt "7"))); vm_compute; reflexivity.
Qed.
Print Assumptions C86_aggressive_write_arrives_refuted.

(** The hypotheses hold for a mirror after one call, and an account of the second of these
    executions is: *)
Definition end_msg : request := PostMsg (BJson body_close).
Definition fine : reply := Good (201, Some (JObj [(k_message, JStr (txt "success"))])).
Definition not_stopped : reply := Good (200, Some (JObj [(k_message, JStr (txt "success")); (k_data, JBool false)])).
Example C86_case :
  hl_has_lock ML used /\ at_end ML used /\ lm_aggr ML = false /\
  (let es := [(1, HIs false); (1, HIs false); (1, HHeld []); (1, HReq end_msg fine); (0, HIs false); (0, HAsk [] not_stopped);
              (0, HText (txt "a" ++ [LF]) (Some (txt "a" ++ [LF], fine))); (1, HDrop); (1, HShut)] in
   hmoves false es (hview ML used) (mkhst [] true None) /\
   h_acts false (HWrite (txt "a" ++ [LF])) (Good (CNat 2)) (events_of 0 es) /\
   h_acts false (HClose None) (Good CUnit) (events_of 1 es) /\
   asked es = [(end_msg, fine); (ask_stop, not_stopped); (post_str (txt "a" ++ [LF]), fine)] /\
   exists n, served E1 (asked es) (hnet used) n).
Proof.
  split; [eexists; vm_compute; reflexivity|]. split; [right; vm_compute; reflexivity|]. split; [reflexivity|].
  assert (Ht : taken fine = Good tt) by (vm_compute; reflexivity).
  assert (Hg : go_on not_stopped = Good tt) by (vm_compute; reflexivity).
  split; [|split; [|split; [|split]]].
  - change (hview ML used) with (mkhst [] false None).
    eapply hms_cons; [apply hm_is|]. eapply hms_cons; [apply hm_is|]. eapply hms_cons; [apply hm_held|].
    eapply hms_cons; [apply hm_req|]. eapply hms_cons; [apply hm_is|]. eapply hms_cons; [apply hm_ask, Hg|].
    eapply hms_cons; [apply hm_text, (p_sent false (txt "a" ++ [LF]) [] fine eq_refl)|].
    + intros H. apply (proj1 (List.Forall_forall _ _) H LF); vm_compute; auto.
    + exact Ht.
    + eapply hms_cons; [apply hm_drop|]. eapply hms_cons; [apply hm_shut|]. apply hms_nil.
  - change (Good (CNat 2)) with (put_result (CNat (length (txt "a" ++ [LF]))) (Some (txt "a" ++ [LF], fine))). apply ha_write, Hg.
  - apply (ha_close false None [HHeld []] fine); [apply hl_none|exact Ht].
  - reflexivity.
  - assert (Hs : forall r a d, a = Good (fst (serve E1 r d)) -> serves E1 (r, a) (d, []) (snd (serve E1 r d), [])).
    { intros r a d ->. apply sv_end. }
    eexists. eapply sd_cons; [apply Hs; vm_compute; reflexivity|]. eapply sd_cons; [apply Hs; vm_compute; reflexivity|].
    eapply sd_cons; [apply Hs; vm_compute; reflexivity|]. apply sd_nil.
Qed.
(** Two texts, of which the second could not be sent at first. *)
Example C86_text_case :
  let es := [(0, HAsk [] not_stopped); (0, HText (txt "a") None); (1, HAsk (txt "a") not_stopped);
             (1, HText [LF] (Some (txt "a" ++ [LF], Fail HTTPError))); (0, HAsk (txt "a" ++ [LF]) not_stopped);
             (0, HText [LF] (Some (txt "a" ++ [LF; LF], fine)))] in
  hmoves false es (mkhst [] false None) (mkhst [] false None) /\ Forall (fun e => snd e <> HDrop /\ snd e <> HShut) es /\
  concat (map (fun e => given (snd e)) es) = txt "a" ++ [LF; LF].
Proof.
  assert (Ht : taken fine = Good tt) by (vm_compute; reflexivity).
  assert (Hg : go_on not_stopped = Good tt) by (vm_compute; reflexivity).
  assert (Hn : ~ no_break [LF]) by (intros H; apply (proj1 (List.Forall_forall _ _) H LF); vm_compute; auto).
  split; [|split; [|vm_compute; reflexivity]].
  - eapply hms_cons; [apply hm_ask, Hg|]. eapply hms_cons; [apply hm_text, (p_hold false (txt "a") [] eq_refl)|].
    { constructor; [|constructor]. vm_compute. intuition discriminate. }
    eapply hms_cons; [apply hm_ask, Hg|]. eapply hms_cons; [apply hm_text, (p_failed false [LF] (txt "a") _ HTTPError eq_refl Hn); reflexivity|].
    eapply hms_cons; [apply hm_ask, Hg|]. eapply hms_cons; [apply hm_text, (p_sent false [LF] (txt "a" ++ [LF]) fine eq_refl Hn Ht)|]. apply hms_nil.
  - repeat constructor; discriminate.
Qed.
