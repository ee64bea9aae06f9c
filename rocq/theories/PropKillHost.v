(** * PropKillHost: killed clients of the host service (C100)

    [cli_pool ws] as in C54 and C93: clients with a mirror of their own, and readers.
    [krun stay evs]: single commands of a client, or its death between any two of its
    commands; [dead]: the killed clients.  The RLock of a mirror is in the memory of its
    process and stays acquired.  A request is one command: the server handles it completely,
    or it was not sent (C56 for the server side).  Vocabulary in KillHostSpec.v, proofs in
    KillHost.v. *)
From stdpp Require Import gmap.
From Coq Require Import String.
From Coq Require Import List NArith ZArith Bool Arith Lia.
From Verif Require Import PyStr Prog PyIO Base Spec LineBuf Json JsonSpec Host HostSpec HostCli HostCliSpec HostCliFacts HostCliProofs PropHostCli
  CtxSpec Ctx PrintSpec PrintHost PropPrintHost PrintCli PropPrintCli Kill KillProc KillHostSpec KillHost.
Import ListNotations.
Local Open Scope nat_scope.

(** Whoever is killed whenever: the server holds the log of complete messages, a beginning
    of what each client should send, everything if the client is finished; the calls of the
    finished clients returned what they return without any kills.  Every client that is not
    finished can go on at any time, by itself.  From a killed client nothing more comes. *)
Theorem C100_any_time :
  forall E m g0 ws x0 w evs ps s dead, 1 <= m -> work_ok ws -> server E m (w_srv w) g0 false -> w_faults w = [] ->
  (forall i M cs, nth_error ws i = Some (Mirror M cs) -> mirror_is M (x0 i) w /\ (hm_aggr M = true -> x0 i = Some [] \/ x0 i = None)) ->
  @krun ccmd world (clisem E) stay _ evs ((cli_pool ws, mkst w ∅), []) = Some ((ps, s), dead) ->
  exists order, clients_so_far E m g0 ws x0 ps s order /\
    (forall i p, nth_error ps i = Some p -> finished p = false -> exists c, @cstep ccmd world (clisem E) _ i (ps, s) = Some c) /\
    forall evs' ps' s' dead', @krun ccmd world (clisem E) stay _ evs' ((ps, s), dead) = Some ((ps', s'), dead') ->
    exists more, clients_so_far E m g0 ws x0 ps' s' (order ++ more) /\ forall k, In k dead -> events_of k more = [].
Proof. exact killed_clients. Qed.
Print Assumptions C100_any_time.

(** Clients that print whole lines into mirrors that are not aggressive (as in
    C92_lines_stay_whole): even if clients are killed, every record is a whole line of one
    client, and the lines of each client are a beginning of what it prints; what readers
    return is made of such lines. *)
Theorem C100_lines_stay_whole :
  forall E m g0 exc ws w evs ps' s' dead, 1 <= m -> clients_ok ws w -> line_clients ws -> server E m (w_srv w) g0 false -> w_faults w = [] ->
  pend g0 = [] -> @krun ccmd world (clisem E) stay _ evs ((print_clients exc ws, mkst w ∅), []) = Some ((ps', s'), dead) ->
  exists li : list (nat * item),
    server E m (w_srv (dat s')) (mkslog (done g0 ++ map snd li) []) false /\
    (forall i x, In (i, x) li -> exists j, nth_error ws i = Some (Prints j)) /\
    (forall i j, nth_error ws i = Some (Prints j) ->
       (exists rest, client_prints exc j (events_of i li ++ rest)) /\
       (forall p, nth_error ps' i = Some p -> finished p = true -> client_prints exc j (events_of i li))) /\
    ((forall x, In x (done g0) -> ~ is_raw x) ->
     forall i cs p, nth_error ws i = Some (Reads cs) -> nth_error ps' i = Some p -> finished p = true ->
       exists rs, p = Ret (CRead rs) /\ lines_read m (done g0 ++ map snd li) (List.length (done g0)) cs rs) /\
    (forall i p, nth_error ps' i = Some p -> finished p = false -> exists c, @cstep ccmd world (clisem E) _ i (ps', s') = Some c).
Proof. exact killed_lines. Qed.
Print Assumptions C100_lines_stay_whole.

(** ** Concrete cases *)
Definition steps (t n : nat) : list event := repeat (Step t) n.
Definition kh_at {A} (evs : list event) (x : kconfig (C:=ccmd) (D:=world) A) : kconfig (C:=ccmd) (D:=world) A :=
  match @krun ccmd world (clisem E1) stay _ evs x with Some r => r | None => x end.
Example kh_run {A} evs (x : kconfig (C:=ccmd) (D:=world) A) dead :
  match @krun ccmd world (clisem E1) stay _ evs x with Some _ => true | None => false end = true -> snd (kh_at evs x) = dead ->
  @krun ccmd world (clisem E1) stay _ evs x = Some ((fst (fst (kh_at evs x)), snd (fst (kh_at evs x))), dead).
Proof. unfold kh_at. destruct (krun stay evs x) as [[[ps s] dd]|]; [|discriminate]. simpl. intros _ ->. reflexivity. Qed.

Example others_done {A} (ps : list (prog ccmd A)) : forallb finished (tl ps) = true ->
  forall i p, nth_error ps i = Some p -> i <> 0 -> finished p = true.
Proof.
  intros H [|i] p Hp Hi; [congruence|]. destruct ps as [|q ps]; [discriminate|].
  apply (proj1 (forallb_forall _ _) H). eapply nth_error_In, Hp.
Qed.

Definition jobs : list work :=
  [Mirror M0 [HWrite (txt "p"); HWrite (txt "q" ++ [LF] ++ txt "r"); HClose None];
   Mirror M1 [HWrite (txt "s"); HWrite (txt "t" ++ [LF])]; Reader [RdRead None; RdRead None]].
Example C100_case_hypotheses :
  work_ok jobs /\ server E1 4 (w_srv world0) slog0 false /\ mirror_is M0 (Some []) world0 /\ mirror_is M1 (Some []) world0.
Proof.
  split; [|apply C78_demo_server]. split; [repeat constructor; cbn; intuition discriminate|]. split; [repeat constructor; cbn; intuition discriminate|].
  split; [repeat constructor|]. intros cs [H|[H|[H|[]]]]; try discriminate. injection H as <-. repeat constructor.
Qed.

(** Client 0 is killed in write(), right after its message was handled: it has the lock of
    its mirror twice.  The others finish. *)
Definition cut_evs : list event := steps 2 1 ++ steps 0 24 ++ [Kill 0] ++ steps 1 26 ++ steps 2 1.
Definition cut_end := kh_at cut_evs ((cli_pool jobs, mkst world0 ∅), []).
Example C100_case :
  snd cut_end = [0] /\ lks (snd (fst cut_end)) !! hm_lock M0 = Some (Excl 0 1) /\
  map (fun p => match p with Ret r => Some r | _ => None end) (fst (fst cut_end)) =
    [None; Some [Good (CNat 1); Good (CNat 2)]; Some [Good (CItems []); Good (CItems [IStr (txt "pq"); IStr (txt "rst")])]] /\
  events_of 0 [(0, says_text (txt "pq" ++ [LF] ++ txt "r")); (1, says_text (txt "s")); (1, says_text (txt "t" ++ [LF]))] =
    [says_text (txt "pq" ++ [LF] ++ txt "r")].
Proof. vm_compute. auto. Qed.

(** The unfinished line of a killed client is not closed: the next text of another client
    goes on in the same record. *)
Theorem C100_record_of_one_client_refuted :
  exists ws w evs ps s, work_ok ws /\ server E1 4 (w_srv w) slog0 false /\
    @krun ccmd world (clisem E1) stay _ evs ((cli_pool ws, mkst w ∅), []) = Some ((ps, s), [0]) /\
    (forall i p, nth_error ps i = Some p -> i <> 0 -> finished p = true) /\
    shown (dat s) = ([IStr (txt "pq"); IStr (txt "r" ++ txt "st")], []).
Proof.
  exists jobs, world0, cut_evs, (fst (fst cut_end)), (snd (fst cut_end)).
  split; [apply C100_case_hypotheses|]. split; [apply C100_case_hypotheses|].
  split; [unfold cut_end; apply kh_run; vm_compute; reflexivity|]. split; [|vm_compute; reflexivity].
  apply others_done. vm_compute. reflexivity.
Qed.
Print Assumptions C100_record_of_one_client_refuted.

(** Text that write() has taken (it returned its length), but that is no line yet, is lost
    with the client: in the end the server does not have it. *)
Definition lost_evs : list event := steps 0 10 ++ [Kill 0] ++ steps 1 26 ++ steps 2 2.
Definition lost_end := kh_at lost_evs ((cli_pool jobs, mkst world0 ∅), []).
Theorem C100_written_text_arrives_refuted :
  exists ws w evs ps s, work_ok ws /\ server E1 4 (w_srv w) slog0 false /\
    @krun ccmd world (clisem E1) stay _ evs ((cli_pool ws, mkst w ∅), []) = Some ((ps, s), [0]) /\
    nth_error ws 0 = Some (Mirror M0 [HWrite (txt "p"); HWrite (txt "q" ++ [LF] ++ txt "r"); HClose None]) /\
    nth_error ps 0 = Some (thread_from [Good (CNat 1)] (map (m_call M0) [HWrite (txt "q" ++ [LF] ++ txt "r"); HClose None])) /\
    (forall i p, nth_error ps i = Some p -> i <> 0 -> finished p = true) /\
    shown (dat s) = ([IStr (txt "st")], []).
Proof.
  exists jobs, world0, lost_evs, (fst (fst lost_end)), (snd (fst lost_end)).
  split; [apply C100_case_hypotheses|]. split; [apply C100_case_hypotheses|].
  split; [unfold lost_end; apply kh_run; vm_compute; reflexivity|]. split; [reflexivity|]. split; [vm_compute; reflexivity|].
  split; [|vm_compute; reflexivity].
  apply others_done. vm_compute. reflexivity.
Qed.
Print Assumptions C100_written_text_arrives_refuted.

(** Clients that print lines; the first one is killed between its two lines (the second was
    printed in part). *)
Definition print_end := kh_at (steps 0 60 ++ [Kill 0]) ((print_clients show_exc ws2, mkst world0 ∅), []).
Example C100_case_lines :
  clients_ok ws2 world0 /\ line_clients ws2 /\ snd print_end = [0] /\
  shown (dat (snd (fst print_end))) = ([IStr (txt "a b")], []).
Proof. split; [apply C92_case|]. split; [apply C92_case|]. split; vm_compute; reflexivity. Qed.
