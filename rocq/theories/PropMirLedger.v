(** * PropMirLedger: an account of all calls of threads that share one LineProcMirror (C80)

    [tev], [tview], [tmoves], [acts], [all3] are in MirLedgerSpec.v; proofs are in
    Sections.v (for any class), MirSect.v and MirLedger.v. *)
From stdpp Require Import gmap relations.
From Coq Require Import String.
From Coq Require Import List NArith ZArith Bool Arith.
From Verif Require Import PyStr Prog PyIO Base Spec LineBuf LineBufSpec LineBufConcProofs Proc ProcSpec ProcRun MirLedgerSpec MirLedger
  PropProc PropPool PropLock.
Import ListNotations.
Local Open Scope nat_scope.

(** ** C80.  All calls except changes of the settings, on a mirror whose lock exists and whose
    queue is unbounded; any number of threads, any schedule.  Every finished execution is
    one sequence [es] of parts, tagged with threads.  The parts are executed one after the
    other ([tmoves]), the parts of each thread are those of its calls, and each call has
    the result that goes with its parts ([acts]). *)
Theorem C80_account :
  forall css sch d0 ps' s',
  mreach d0 -> has_lock d0 -> e_qmax d0 = 0 -> Forall (Forall (fun c => fixed_settings c = true)) css ->
  sched_run sch (mir_pool css, idle d0) = Some (ps', s') -> Forall (fun p => finished p = true) ps' ->
  exists es,
    tmoves (m_aggr (e_mir d0)) (stop_seen d0) (map snd es) (tview d0) (tview (dat s')) /\
    Forall (fun e => fst e < length css) es /\
    forall i cs, nth_error css i = Some cs -> exists rs ess,
      nth_error ps' i = Some (Ret rs) /\ events_of i es = concat ess /\
      all3 (acts (m_aggr (e_mir d0)) (stop_seen d0)) cs rs ess.
Proof. exact c80_account. Qed.
Print Assumptions C80_account.
(** No execution gets stuck. *)
Theorem C80_progress :
  forall css sch d0 ps' s',
  mreach d0 -> has_lock d0 -> e_qmax d0 = 0 -> Forall (Forall (fun c => fixed_settings c = true)) css ->
  sched_run sch (mir_pool css, idle d0) = Some (ps', s') ->
  Forall (fun p => finished p = true) ps' \/ exists i, cstep i (ps', s') <> None.
Proof. exact c80_progress. Qed.
Print Assumptions C80_progress.

(** What the account allows happens.  A call of write() returns the length of the text, and
    the text is lost: it was written between the end signal and the clear() of close(). *)
Theorem C80_written_text_arrives_refuted :
  exists sch s', sched_run sch (mir_pool [[CWrite (txt "a")]; [CClose None]], idle mir_used) = Some ([Ret [Good (MNat 1)]; Ret [Good MUnit]], s') /\
  e_q (dat s') = [QClose].
Proof. apply (plan_witness [(1, 17); (0, 200); (1, 200)] _ _ (fun d => e_q d = [QClose])); vm_compute; reflexivity. Qed.
Print Assumptions C80_written_text_arrives_refuted.
(** The same with a complete line: it is sent after the end signal. *)
Theorem C80_nothing_after_end_refuted :
  exists sch s', sched_run sch (mir_pool [[CWrite (txt "a" ++ lf)]; [CClose None]], idle mir_used) = Some ([Ret [Good (MNat 2)]; Ret [Good MUnit]], s') /\
  e_q (dat s') = [QClose; QStr (txt "a" ++ lf)].
Proof. apply (plan_witness [(1, 17); (0, 200); (1, 200)] _ _ (fun d => e_q d = [QClose; QStr (txt "a" ++ lf)])); vm_compute; reflexivity. Qed.
Print Assumptions C80_nothing_after_end_refuted.
(** write() may raise ValueError (of the io.StringIO inside) instead of the OSError for a
    mirror that is not writable (mproc.py:747-748). *)
Theorem C80_closed_gives_OSError_refuted :
  exists sch s', sched_run sch (mir_pool [[CWrite (txt "a")]; [CClose None]], idle mir_used) = Some ([Ret [Fail ValueError]; Ret [Good MUnit]], s') /\
  e_q (dat s') = [QClose].
Proof. apply (plan_witness [(0, 6); (1, 200); (0, 200)] _ _ (fun d => e_q d = [QClose])); vm_compute; reflexivity. Qed.
Print Assumptions C80_closed_gives_OSError_refuted.
(** An aggressive mirror does not even raise: the text is lost without a trace. *)
Definition aggr_used : menv := after_calls [CSetAggr true; CClosed] (new_mirror 0 (Some false)).
Theorem C80_aggressive_write_arrives_refuted :
  exists sch s', sched_run sch (mir_pool [[CWrite (txt "a" ++ lf)]; [CClose None]], idle aggr_used) = Some ([Ret [Good (MNat 2)]; Ret [Good MUnit]], s') /\
  e_q (dat s') = [QClose].
Proof. apply (plan_witness [(0, 6); (1, 200); (0, 200)] _ _ (fun d => e_q d = [QClose])); vm_compute; reflexivity. Qed.
Print Assumptions C80_aggressive_write_arrives_refuted.

(** The hypotheses hold for a mirror after one call, and the account of the first of these
    executions is: *)
Example C80_case :
  mreach mir_used /\ has_lock mir_used /\ e_qmax mir_used = 0 /\ m_aggr (e_mir mir_used) = false /\ stop_seen mir_used = false /\
  Forall (fun c => fixed_settings c = true) [CWrite (txt "a"); CRead None; CNewLine; CClear; CClose (Some oops); CSendData (txt "b")] /\
  tmoves false false [TIs false; TIs false; TLine; TMsg QClose; TIs false; TText (txt "a"); TDrop; TShut] (tview mir_used) (mkts [QClose] [] true) /\
  acts false false (CWrite (txt "a")) (Good (MNat 1)) [TIs false; TText (txt "a")] /\
  acts false false (CClose None) (Good MUnit) [TIs false; TIs false; TLine; TMsg QClose; TDrop; TShut].
Proof.
  split. { exists 0, 0, false, None, true, [], 0, (Some false). apply (mcalls_later [CClosed]). vm_compute. reflexivity. }
  split; [eexists; vm_compute; reflexivity|]. split; [vm_compute; reflexivity|]. split; [vm_compute; reflexivity|].
  split; [vm_compute; reflexivity|]. split; [repeat constructor|].
  split; [|split; [apply a_write|apply a_close]].
  change (tview mir_used) with (mkts [] [] false).
  eapply tms_cons; [apply tm_is|]. eapply tms_cons; [apply tm_is|]. eapply tms_cons; [apply tm_no_line|].
  eapply tms_cons; [apply tm_msg|]. eapply tms_cons; [apply tm_is|].
  eapply tms_cons; [apply tm_hold; [reflexivity|reflexivity|]|].
  { constructor; [|constructor]. vm_compute. intuition discriminate. }
  eapply tms_cons; [apply tm_drop|]. eapply tms_cons; [apply tm_shut|]. apply tms_nil.
Qed.
