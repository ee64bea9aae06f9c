(** * PropRace: races of process mode (C20) *)
From stdpp Require Import gmap relations.
From Coq Require Import String.
From Coq Require Import List NArith ZArith Bool Arith.
From Verif Require Import PyStr Prog PyIO Base Spec LineBuf LineBufSpec LineBufConcProofs Proc ProcSpec ProcRun ProcRace PropProc.
Import ListNotations.
Local Open Scope nat_scope.

(** ** C20.  Threads of the main process that call methods of one LineProcBuffer. *)

(** Main buffer (maxlen 2) with records x, y and unfinished text z; a warning has arrived. *)
Definition race_full : psys :=
  after [OnMirror 0 (CWrite (txt "x" ++ lf ++ txt "y" ++ lf ++ txt "z")); OnMain PReceive; OnMirror 0 (CWarning oops)]
        (lp_fresh 2).
(** Main buffer (maxlen 3) with the record a; a warning has arrived. *)
Definition race_one : psys :=
  after [OnMirror 0 (CWrite (txt "a" ++ lf)); OnMain PReceive; OnMirror 0 (CWarning oops)] (lp_fresh 3).
Example race_reach : preach 2 race_full /\ preach 3 race_one.
Proof.
  split.
  - exists (by0 [OnMirror 0 (CWrite (txt "x" ++ lf ++ txt "y" ++ lf ++ txt "z")); OnMain PReceive; OnMirror 0 (CWarning oops)]). hist.
  - exists (by0 [OnMirror 0 (CWrite (txt "a" ++ lf)); OnMain PReceive; OnMirror 0 (CWarning oops)]). hist.
Qed.
Definition w_item : item := IMsg (gm_init (GMExc oops)).

(** The item is lost: read() puts the oldest record back into the full deque. *)
Theorem C20_item_survives_read_refuted :
  exists sch s', sched_run sch (lp_pool [[PReceive]; [PBase (Read None)]], idle race_full) =
    Some ([Ret [Good (RBool true)]; Ret [Good (RItems [IStr (txt "y"); w_item; IStr (txt "z")])]], s') /\
  (records (dat s') = [IStr (txt "x"); IStr (txt "y")] /\
   forall order, order_of [[PReceive]; [PBase (Read None)]] order ->
     records (dat (lp_hist order (idle race_full))) = [IStr (txt "y"); w_item]).
Proof.
  apply (plan_witness [(1, 8); (0, 100); (1, 100)] _ _
    (fun d => records d = [IStr (txt "x"); IStr (txt "y")] /\ forall order, order_of [[PReceive]; [PBase (Read None)]] order ->
     records (dat (lp_hist order (idle race_full))) = [IStr (txt "y"); w_item])); [vm_compute; reflexivity|].
  split; [vm_compute; reflexivity|].
  intros order H. destruct (order_two _ _ order H) as [-> | ->]; vm_compute; reflexivity.
Qed.
Print Assumptions C20_item_survives_read_refuted.

(** The records are reordered for good: read(1) takes the record out and appends it again. *)
Theorem C20_order_survives_read_n_refuted :
  exists sch s', sched_run sch (lp_pool [[PReceive]; [PBase (Read (Some 1%Z))]], idle race_one) =
    Some ([Ret [Good (RBool true)]; Ret [Good (RItems [IStr (txt "a")])]], s') /\
  (records (dat s') = [w_item; IStr (txt "a")] /\
   forall order, order_of [[PReceive]; [PBase (Read (Some 1%Z))]] order ->
     records (dat (lp_hist order (idle race_one))) = [IStr (txt "a"); w_item]).
Proof.
  apply (plan_witness [(1, 9); (0, 100); (1, 100)] _ _
    (fun d => records d = [w_item; IStr (txt "a")] /\ forall order, order_of [[PReceive]; [PBase (Read (Some 1%Z))]] order ->
     records (dat (lp_hist order (idle race_one))) = [IStr (txt "a"); w_item])); [vm_compute; reflexivity|].
  split; [vm_compute; reflexivity|].
  intros order H. destruct (order_two _ _ order H) as [-> | ->]; vm_compute; reflexivity.
Qed.
Print Assumptions C20_order_survives_read_n_refuted.

(** Calls that do not overlap: receive() records exactly the message, read() shows the
    records and changes nothing. *)
Theorem C20_receive_alone :
  forall m d t x rest, 1 <= m -> preach m d -> main_closed d = false -> inbox d = x :: rest ->
  exists b d', run t (sys_p lp_receive) (idle d) = (Good b, idle d') /\ inbox d' = rest /\ received m d d' [x].
Proof. exact c20_receive. Qed.
Print Assumptions C20_receive_alone.

Theorem C20_read_alone :
  forall m d t size, 1 <= m -> preach m d -> main_closed d = false ->
  run t (sys_p (lp_call (PBase (Read size)))) (idle d) =
  (Good (RItems (view m size (mkslog (records d) (current d)))), idle d).
Proof. exact c20_read. Qed.
Print Assumptions C20_read_alone.
Example C20_alone_case : main_closed race_full = false /\ inbox race_full = [QWarning (gm_init (GMExc oops))] /\
  view 2 None (mkslog (records race_full) (current race_full)) = [IStr (txt "y"); IStr (txt "z")].
Proof. repeat split; vm_compute; reflexivity. Qed.

(** ** C36.  Two threads of one process make the first use of a mirror: each creates a lock
    of its own, both are inside the critical section, and the text "a" is lost. *)
Theorem C36_first_use_is_safe_refuted :
  exists sch s', sched_run sch (mir_pool [[CWrite (txt "a")]; [CWrite (txt "b" ++ lf)]], idle (new_mirror 0 (Some false))) =
    Some ([Ret [Good (MNat 1)]; Ret [Good (MNat 2)]], s') /\
  ((held (e_mir (dat s')) = [] /\ e_q (dat s') = [QStr (txt "b" ++ lf)]) /\
   forall order, order_of [[CWrite (txt "a")]; [CWrite (txt "b" ++ lf)]] order ->
     let d := dat (snd (mir_hist order (idle (new_mirror 0 (Some false))))) in
     held (e_mir d) = txt "a" /\ e_q d = [QStr (txt "b" ++ lf)] \/ held (e_mir d) = [] /\ e_q d = [QStr (txt "ab" ++ lf)]).
Proof.
  apply (plan_witness [(0, 1); (1, 23); (0, 100); (1, 100)] _ _
    (fun d => (held (e_mir d) = [] /\ e_q d = [QStr (txt "b" ++ lf)]) /\
      forall order, order_of [[CWrite (txt "a")]; [CWrite (txt "b" ++ lf)]] order ->
        let d := dat (snd (mir_hist order (idle (new_mirror 0 (Some false))))) in
        held (e_mir d) = txt "a" /\ e_q d = [QStr (txt "b" ++ lf)] \/ held (e_mir d) = [] /\ e_q d = [QStr (txt "ab" ++ lf)]));
    [vm_compute; reflexivity|].
  split; [vm_compute; split; reflexivity|].
  intros order H. destruct (order_two _ _ order H) as [-> | ->]; vm_compute; auto.
Qed.
Print Assumptions C36_first_use_is_safe_refuted.
