(** * PropHostReads: what a LineHostReader returns while mirrors write (C93)

    Only theorem statements and concrete cases; proofs are in HostReads.v and HostCliConc.v,
    the vocabulary in HostCliSpec.v and HostSpec.v.  The threads are those of C54. *)
From stdpp Require Import gmap.
From Coq Require Import String.
From Coq Require Import List NArith ZArith Bool Arith Lia.
From Verif Require ProcRun.
From Verif Require Import PyStr Prog PyIO Base Spec LineBuf Json Host HostSpec HostCli HostCliSpec HostCliFacts HostCliProofs PropHostCli HostReads.
Import ListNotations.
Local Open Scope nat_scope.

(** Every call of every reader returns what it would return alone, on a server that has got
    the first [q] messages of one common order, completely; [q] only grows from call to call.
    The order is that of C54: the messages of each mirror are those its calls should send,
    and nobody empties the server. *)
Theorem C93_snapshots :
  forall E m g0 ws x0 w sch ps' s', 1 <= m -> work_ok ws -> server E m (w_srv w) g0 false -> w_faults w = [] ->
  (forall i M cs, nth_error ws i = Some (Mirror M cs) -> mirror_is M (x0 i) w /\ (hm_aggr M = true -> x0 i = Some [] \/ x0 i = None)) ->
  @sched_run ccmd world (clisem E) _ sch (cli_pool ws, mkst w ∅) = Some (ps', s') ->
  exists order,
    (forall i M cs, nth_error ws i = Some (Mirror M cs) -> exists rest rs x', mcalls_do (hm_aggr M) cs (x0 i) (events_of i order ++ rest) rs x') /\
    (forall i o, In (i, o) order -> o <> HEmpty /\ exists M cs, nth_error ws i = Some (Mirror M cs)) /\
    (exists g, hmsg_steps E (map snd order) g0 g /\ server E m (w_srv (dat s')) g false) /\
    (forall i cs r, nth_error ws i = Some (Reader cs) -> nth_error ps' i = Some r -> finished r = true ->
       exists rs, r = Ret rs /\ reads_along E m g0 order 0 cs rs).
Proof. exact snapshots. Qed.
Print Assumptions C93_snapshots.

(** What that is: read() returns the last records of the log of these messages, and its
    unfinished line. *)
Theorem C93_read :
  forall E m g0 order, 1 <= m -> forall size q r g, (forall i, In i (done g0) -> ~ is_raw i) ->
  returns_after E m g0 order (RdRead size) q r -> hmsg_steps E (map snd (firstn q order)) g0 g ->
  r = Good (CItems (map wire_item (view m (option_map (Z.max 0) size) g))).
Proof. exact read_after. Qed.
Print Assumptions C93_read.
(** len() returns the number of these records, or one more if the last line is finished and
    the buffer is not full (see C09). *)
Theorem C93_len :
  forall E m g0 order, 1 <= m -> forall q r g,
  returns_after E m g0 order RdLen q r -> hmsg_steps E (map snd (firstn q order)) g0 g ->
  exists n, r = Good (CJson (JNum (Z.of_nat n))) /\
    (n = List.length (visible m g) <-> (pend g <> [] \/ m <= List.length (done g))) /\
    (n <> List.length (visible m g) -> n = S (List.length (visible m g))).
Proof. exact len_after. Qed.
Print Assumptions C93_len.
(** [closed] is false all the time. *)
Theorem C93_closed :
  forall E m g0 order q r, returns_after E m g0 order RdClosed q r -> r = Good (CJson (JBool false)).
Proof. exact closed_after. Qed.
Print Assumptions C93_closed.
(** From one call to a later one, the finished records of the log stay the same, and new ones
    come after them. *)
Theorem C93_grows :
  forall E (order : list (nat * hmsg)) q q' g0 g g', q <= q' -> Forall (fun o => snd o <> HEmpty) order ->
  hmsg_steps E (map snd (firstn q order)) g0 g -> hmsg_steps E (map snd (firstn q' order)) g0 g' ->
  exists more, done g' = done g ++ more.
Proof. exact grows_along. Qed.
Print Assumptions C93_grows.

(** ** Concrete case: two mirrors, and a reader that reads between their messages *)
Definition ws3 : list work :=
  [Mirror M0 [HWrite (txt "p"); HWrite (txt "q" ++ [LF] ++ txt "r"); HClose None];
   Mirror M1 [HWrite (txt "s"); HSendError exc1]; Reader [RdRead None; RdLen; RdRead (Some 1%Z); RdClosed]].
Example C93_case :
  let c := @ProcRun.plan ccmd world _ (clisem E1) [(1, 12); (2, 1); (0, 40); (2, 2); (1, 300); (0, 300); (2, 300)] (cli_pool ws3, mkst (world1 []) ∅) in
  map (fun p => match p with Ret r => Some r | _ => None end) (fst c) =
    [Some [Good (CNat 1); Good (CNat 3); Good CUnit]; Some [Good (CNat 1); Good CUnit];
     Some [Good (CItems [IStr (txt "b"); IMsg (mkgmsg (JStr (txt "error")) [JStr (txt "boom")]); IStr (txt "7s")]);
           Good (CJson (JNum 3)); Good (CItems [IStr (txt "r")]); Good (CJson (JBool false))]].
Proof. vm_compute. reflexivity. Qed.
Example C93_case_hypotheses : work_ok ws3 /\ mirror_is M0 (Some []) (world1 []) /\ mirror_is M1 (Some []) (world1 []).
Proof.
  split; [|split; reflexivity].
  split; [repeat constructor; cbn; intuition discriminate|]. split; [repeat constructor; cbn; intuition discriminate|].
  split; [repeat constructor|]. intros cs [H|[H|[H|[]]]]; try discriminate. injection H as <-. repeat constructor.
Qed.
