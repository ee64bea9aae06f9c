(** * PropReader: connections of LineHostReader (C57)

    [does h e l]: after the history [h] of entering, leaving and using the reader, the event
    [e] should do [l] with the pools (ReaderSpec.v).  Proofs are in ReaderProofs.v. *)
From Coq Require Import List Arith Lia.
From Verif Require Import Reader ReaderSpec ReaderProofs.
Import ListNotations.
Local Open Scope nat_scope.

(** What every event does: the first REnter creates the pool of the reader, which is used
    for ever; before it every use has its own pool.  Every RExit clears the pool. *)
Theorem C57_events : forall h e l, last_act h e = l <-> does h e l.
Proof. exact what_happens. Qed.
Print Assumptions C57_events.
(** A pool holds connections after [h] exactly if it is the pool of the reader and was used
    after the last RExit. *)
Theorem C57_open_connections : forall h k, nth_error (pools_after h) k = Some true <->
  exists a b1 ok b2, ~ In REnter a /\ h = a ++ REnter :: b1 ++ RUse ok :: b2 /\ ~ In RExit b2 /\ k = uses a.
Proof. exact holding_pools. Qed.
Print Assumptions C57_open_connections.
Theorem C57_number_of_pools : forall h, length (pools_after h) <= uses h + 1.
Proof. exact pools_count. Qed.
Print Assumptions C57_number_of_pools.
Example C57_demo :
  fst (rd_run rd_init [RUse true; REnter; RUse false; RUse true; RExit; RUse true; REnter; RExit]) =
  [[PNew 0; PReq 0; PClear 0]; [PNew 1]; [PReq 1]; [PReq 1]; [PClear 1]; [PReq 1]; []; [PClear 1]].
Proof. reflexivity. Qed.

(** "Outside the context a temporary pool is established and destroyed everytime": not after
    the context was left; the connection stays open. *)
Theorem C57_temporary_pool_refuted :
  exists h, last_act h (RUse true) = [PReq 0] /\ h = [REnter; RUse true; RExit] /\
    nth_error (pools_after (h ++ [RUse true])) 0 = Some true.
Proof. exists [REnter; RUse true; RExit]. vm_compute. auto. Qed.
Print Assumptions C57_temporary_pool_refuted.
(** "Re-entering has no effect": leaving the inner context closes the connections of the
    outer one. *)
Theorem C57_reenter_refuted :
  exists h, nth_error (pools_after h) 0 = Some true /\ nth_error (pools_after (h ++ [REnter; RExit])) 0 = Some false.
Proof. exists [REnter; RUse true]. vm_compute. auto. Qed.
Print Assumptions C57_reenter_refuted.
