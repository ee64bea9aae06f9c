(** * PropMirClose: threads that close one LineProcMirror at the same time (C79)

    [n_ends], [may_end], [n_may_end] are in ProcSpec.v; proofs are in MirClose.v. *)
From stdpp Require Import gmap relations.
From Coq Require Import String.
From Coq Require Import List NArith ZArith Bool Arith.
From Verif Require Import PyStr Prog PyIO Base Spec LineBuf LineBufSpec LineBufConcProofs Proc ProcSpec ProcRun MirClose PropProc PropPool PropLock.
Import ListNotations.
Local Open Scope nat_scope.

(** ** C79.  Whatever calls the threads make on the mirror, and however they are interleaved. *)

(** Once a call of close() has returned, the mirror is closed. *)
Theorem C79_close_closes :
  forall css sch d0 ps' s' i cs rs j exc,
  sched_run sch (mir_pool css, idle d0) = Some (ps', s') ->
  nth_error css i = Some cs -> nth_error ps' i = Some (Ret rs) ->
  nth_error cs j = Some (CClose exc) -> nth_error rs j = Some (Good MUnit) ->
  is_closed (e_mir (dat s')) = true.
Proof. exact c79_closes. Qed.
Print Assumptions C79_close_closes.

(** A closed mirror stays closed, and whenever the mirror has become closed, an end signal
    has been sent before. *)
Theorem C79_closed_means_signalled :
  forall css sch d0 ps' s',
  sched_run sch (mir_pool css, idle d0) = Some (ps', s') ->
  (is_closed (e_mir d0) = true -> is_closed (e_mir (dat s')) = true) /\
  (is_closed (e_mir d0) = false -> is_closed (e_mir (dat s')) = true -> n_ends (e_q d0) < n_ends (e_q (dat s'))).
Proof. exact c79_signalled. Qed.
Print Assumptions C79_closed_means_signalled.

(** At most one end signal for every call of close(), send_eof() and send_error(). *)
Theorem C79_signals_bounded :
  forall css sch d0 ps' s',
  sched_run sch (mir_pool css, idle d0) = Some (ps', s') ->
  n_ends (e_q (dat s')) <= n_ends (e_q d0) + n_may_end css.
Proof. exact (fun css sch d0 ps' s' => ends_bound css sch d0 (stdpp.base.empty : locks) ps' s'). Qed.
Print Assumptions C79_signals_bounded.

(** The bound is reached: "This method only takes effects once.  The second call will do
    nothing." (mproc.py:492) does not hold for two threads. *)
Definition two_closes : list (list mcall) := [[CClose None]; [CClose None]].
Theorem C79_takes_effect_once_refuted :
  exists sch s', sched_run sch (mir_pool two_closes, idle mir_used) = Some ([Ret [Good MUnit]; Ret [Good MUnit]], s') /\
  e_q (dat s') = [QClose; QClose].
Proof. apply (plan_witness [(0, 24); (1, 20); (0, 200); (1, 200); (0, 200)] _ _ (fun d => e_q d = [QClose; QClose])); vm_compute; reflexivity. Qed.
Print Assumptions C79_takes_effect_once_refuted.
(** The second call may also raise an exception. *)
Theorem C79_second_close_returns_refuted :
  exists sch s', sched_run sch (mir_pool two_closes, idle mir_used) = Some ([Ret [Good MUnit]; Ret [Fail ValueError]], s') /\
  e_q (dat s') = [QClose].
Proof. apply (plan_witness [(0, 24); (1, 10); (0, 200); (1, 200); (0, 200)] _ _ (fun d => e_q d = [QClose])); vm_compute; reflexivity. Qed.
Print Assumptions C79_second_close_returns_refuted.

(** Two mirrors were handed out.  Two threads of one process close the first one: wait()
    returns although the other process has not started, and its line is not recorded. *)
Definition used_mirrors : psys := after [OnMirror 1 CClosed] two_mirrors.
Definition racing_jobs : list (nat * list mcall) := [(1, [CClose None]); (1, [CClose None]); (2, [CWrite (txt "c" ++ lf); CClose None])].
Theorem C79_wait_for_all_refuted :
  exists sch s', sched_run sch (processes racing_jobs 20, idle used_mirrors) =
    Some ([Ret (Produced [Good MUnit]); Ret (Produced [Good MUnit]); Ret (Produced [Good (MNat 2); Good MUnit]); Ret (Waited (Good tt))], s') /\
  (s_n used_mirrors = 2%Z /\ inbox (dat s') = [QStr (txt "c" ++ lf); QClose] /\ records (dat s') = []).
Proof.
  apply (plan_witness [(0, 24); (1, 20); (0, 200); (1, 200); (0, 200); (3, 400); (2, 200)] _ _
    (fun d => s_n used_mirrors = 2%Z /\ inbox d = [QStr (txt "c" ++ lf); QClose] /\ records d = [])); vm_compute; auto.
Qed.
Print Assumptions C79_wait_for_all_refuted.

Example C79_case :
  let c := plan [(0, 24); (1, 20); (0, 200); (1, 200); (0, 200)] (mir_pool two_closes, idle mir_used) in
  is_closed (e_mir mir_used) = false /\ n_may_end two_closes = 2 /\ is_closed (e_mir (dat (snd c))) = true /\
  n_ends (e_q mir_used) = 0 /\ n_ends (e_q (dat (snd c))) = 2 /\
  n_may_end [[CWrite (txt "a"); CEof]; [CWarning oops; CClose (Some oops)]; [CError oops]] = 3.
Proof. vm_compute. auto 10. Qed.
