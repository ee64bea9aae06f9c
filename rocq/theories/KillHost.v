(** * KillHost: killed clients of the host service (lemmas for C100) *)
From stdpp Require Import gmap.
From Coq Require Import List NArith ZArith Bool Arith Lia.
From Verif Require Import PyStr Prog ProgFacts PyIO Base Spec LineBuf Json Host HostSpec HostCli HostCliSpec HostCliFacts HostCliProofs HostCliConc
  PrintSpec PrintHost PrintCli PrintCliProofs PrintCliLines Kill KillFacts KillProc KillHostSpec.
Import ListNotations.
Local Open Scope nat_scope.

Section KillHost.
  Variable E : henv.
  #[local] Hint Extern 0 (Sem ccmd world) => exact (clisem E) : typeclass_instances.

  Lemma at_so_far m g0 ws x0 order g ps s : clients_at E m g0 ws x0 order g ps s ->
    clients_so_far E m g0 ws x0 ps s order /\ forall i p, nth_error ps i = Some p -> finished p = false -> exists c', cstep i (ps, s) = Some c'.
  Proof.
    intros (T1 & T2 & T3 & T4 & T5 & T6 & _). split; [|exact T6]. split; [eauto|]. split; [exact T3|]. split; [exact T4|exact T5].
  Qed.
  Lemma not_sent k (order : list (nat * hmsg)) : (forall o, ~ In (k, o) order) -> events_of k order = [].
  Proof.
    intros H. unfold events_of. induction order as [|[i o] l IH]; [reflexivity|]. cbn [List.filter fst].
    destruct (Nat.eqb_spec i k) as [->|Hne].
    - exfalso. apply (H o). left. reflexivity.
    - apply IH. intros o' Hin. apply (H o'). right. exact Hin.
  Qed.

  Lemma killed_clients m g0 ws x0 w evs ps s dead : 1 <= m -> work_ok ws -> server E m (w_srv w) g0 false -> w_faults w = [] ->
    (forall i M cs, nth_error ws i = Some (Mirror M cs) -> mirror_is M (x0 i) w /\ (hm_aggr M = true -> x0 i = Some [] \/ x0 i = None)) ->
    krun stay evs ((cli_pool ws, mkst w ∅), []) = Some ((ps, s), dead) ->
    exists order, clients_so_far E m g0 ws x0 ps s order /\
      (forall i p, nth_error ps i = Some p -> finished p = false -> exists c, cstep i (ps, s) = Some c) /\
      forall evs' ps' s' dead', krun stay evs' ((ps, s), dead) = Some ((ps', s'), dead') ->
      exists more, clients_so_far E m g0 ws x0 ps' s' (order ++ more) /\ forall k, In k dead -> events_of k more = [].
  Proof.
    intros Hm Hws Hs Hu Hx Hk. pose proof (killed_is_stopped _ _ _ _ _ Hk) as Hr.
    destruct (sched_pinv E m Hm (cli_who ws) (cli_who_ok ws Hws) _ _ g0 _ [] [] _ _ _ (cli_start E m g0 ws x0 w Hm Hws Hs Hu Hx) Hr) as (order & sn & _ & Hi).
    cbn [app fst snd] in Hi. exists order.
    destruct (cli_says E m g0 ws x0 order sn ps s Hm Hws Hi) as (g & Hat). apply at_so_far in Hat. destruct Hat as [H1 H2].
    split; [exact H1|]. split; [exact H2|]. intros evs' ps' s' dead' Hk'.
    pose proof (killed_is_stopped _ _ _ _ _ Hk') as Hr'.
    destruct (sched_pinv E m Hm (cli_who ws) (cli_who_ok ws Hws) _ _ g0 _ _ _ _ _ _ Hi Hr') as (more & sn' & Hw & Hi').
    cbn [app fst snd] in Hi'. exists more.
    destruct (cli_says E m g0 ws x0 _ _ ps' s' Hm Hws Hi') as (g' & Hat). apply at_so_far in Hat. split; [apply Hat|].
    intros k Hd. apply not_sent. intros o Hin. exact (dead_still _ _ _ _ _ _ _ Hk' Hd (Hw _ _ Hin)).
  Qed.

  (** With kills of the readers and writers that print. *)
  Lemma killed_lines m g0 exc ws w evs ps' s' dead : 1 <= m -> clients_ok ws w -> line_clients ws -> server E m (w_srv w) g0 false -> w_faults w = [] ->
    pend g0 = [] -> krun stay evs ((print_clients exc ws, mkst w ∅), []) = Some ((ps', s'), dead) ->
    exists li : list (nat * item),
      server E m (w_srv (dat s')) (mkslog (done g0 ++ map snd li) []) false /\
      (forall i x, In (i, x) li -> exists j, nth_error ws i = Some (Prints j)) /\
      (forall i j, nth_error ws i = Some (Prints j) ->
         (exists rest, client_prints exc j (events_of i li ++ rest)) /\
         (forall p, nth_error ps' i = Some p -> finished p = true -> client_prints exc j (events_of i li))) /\
      ((forall x, In x (done g0) -> ~ is_raw x) ->
       forall i cs p, nth_error ws i = Some (Reads cs) -> nth_error ps' i = Some p -> finished p = true ->
         exists rs, p = Ret (CRead rs) /\ lines_read m (done g0 ++ map snd li) (List.length (done g0)) cs rs) /\
      (forall i p, nth_error ps' i = Some p -> finished p = false -> exists c, cstep i (ps', s') = Some c).
  Proof.
    intros Hm Hok Hl Hs Hu Hp Hk. pose proof (killed_is_stopped _ _ _ _ _ Hk) as Hr.
    destruct (c92_lines E m g0 exc ws w _ ps' s' Hm Hok Hl Hs Hu Hp Hr) as (li & L1 & L2 & L3 & L4).
    destruct (c92_any_time E m g0 exc ws w _ ps' s' Hm Hok Hs Hu Hr) as (od & g & _ & _ & _ & _ & _ & L5 & _).
    exists li. split; [exact L1|]. split; [exact L2|]. split; [exact L3|]. split; [exact L4|exact L5].
  Qed.
End KillHost.
