(** * KillHostSpec: vocabulary of the statements about killed clients of the host service *)
From stdpp Require Import gmap.
From Coq Require Import List NArith ZArith Bool Arith.
From Verif Require Import PyStr Prog PyIO Base Spec LineBuf Json Host HostSpec HostCli HostCliSpec.
Import ListNotations.
Local Open Scope nat_scope.

(** The state of the pool [cli_pool ws] after some steps, from a server that held the log
    [g0] and mirrors in the states [x0].  [order]: the messages that arrived at the server,
    each with its sender.  The server holds the log of these messages.  Every mirror sent a
    beginning of what its calls should send; a client that is finished sent everything, its
    calls returned what they should, and its mirror is as it should be.  A reader that is
    finished saw the log grow. *)
Definition clients_so_far (E : henv) (m : nat) (g0 : slog) (ws : list work) (x0 : nat -> option text)
    (ps : list (prog ccmd (list (outcome cres)))) (s : st world) (order : list (nat * hmsg)) : Prop :=
  (exists g, hmsg_steps E (map snd order) g0 g /\ server E m (w_srv (dat s)) g false) /\
  (forall i o, In (i, o) order -> exists M cs, nth_error ws i = Some (Mirror M cs)) /\
  (forall i M cs, nth_error ws i = Some (Mirror M cs) ->
     (exists rest rs x', mcalls_do (hm_aggr M) cs (x0 i) (events_of i order ++ rest) rs x') /\
     (forall r, nth_error ps i = Some r -> finished r = true ->
        exists rs x', r = Ret rs /\ mcalls_do (hm_aggr M) cs (x0 i) (events_of i order) rs x' /\ mirror_is M x' (dat s))) /\
  (forall i cs r, nth_error ws i = Some (Reader cs) -> nth_error ps i = Some r -> finished r = true ->
     exists rs, r = Ret rs /\ reads_along E m g0 order 0 cs rs).
