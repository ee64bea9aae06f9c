(** * PropHostNet: the connections of LineHostMirror and LineHostReader (C87)

    The model with connections is in HostNet.v, the vocabulary in HostNetSpec.v; proofs are in
    HostNetProofs.v, HostNetSim.v and HostNetSeq.v. *)
From stdpp Require Import gmap.
From Coq Require Import String.
From Coq Require Import List NArith ZArith Bool Arith.
From Verif Require Import PyStr Prog PyIO Base Spec LineBuf Proc ProcRun Json Host HostSpec HostCli HostCliSpec HostLazy HostLazySpec
  PropHostCli PropLock HostNet HostNetSpec HostNetProofs HostNetSim HostNetSeq.
Import ListNotations.
Local Open Scope nat_scope.

(** ** C87.  Any number of threads, mirrors, readers and calls, any interleaving, any faults.

    Responses.  At any moment what happened with a response is a beginning of its whole
    [life]: it comes, its body is read if the request was no message that was taken, it is
    released, it is closed - each once, in this order, in the pool that it came from.  When
    the threads are done, every response has had its whole life. *)
Theorem C87_responses :
  forall E css w sch ps' s', net_sched E sch (net_pool css, mkst (nstart w) ∅) = Some (ps', s') ->
  forall h, resp_log h (n_log (dat s')) = [] \/
    exists k r code rest, life k r h code = resp_log h (n_log (dat s')) ++ rest /\ resp_log h (n_log (dat s')) <> [] /\
      (Forall (fun p => finished p = true) ps' -> rest = []).
Proof. exact c87_responses. Qed.
Print Assumptions C87_responses.
(** Pools that are stored in no [__http_]: they serve exactly one request; then they are
    cleared, whatever the request led to. *)
Theorem C87_temporary :
  forall E css w sch ps' s', net_sched E sch (net_pool css, mkst (nstart w) ∅) = Some (ps', s') ->
  forall k, (forall u, ~ In (EvOwn u k) (n_log (dat s'))) ->
  pool_log k (n_log (dat s')) = [] \/
  exists l rest, one_use k l /\ l = pool_log k (n_log (dat s')) ++ rest /\ (Forall (fun p => finished p = true) ps' -> rest = []).
Proof. exact c87_temporary. Qed.
Print Assumptions C87_temporary.
(** Pools that are stored in [__http_]: they are created once, then stored, in one object
    only, and used only afterwards.  No method of a mirror, and nothing else but that the
    mirror goes, clears the pool of a mirror. *)
Theorem C87_stored :
  forall E css w sch ps' s', net_sched E sch (net_pool css, mkst (nstart w) ∅) = Some (ps', s') ->
  forall u k, In (EvOwn u k) (n_log (dat s')) ->
  exists rest, pool_log k (n_log (dat s')) = EvPool k :: EvOwn u k :: rest /\
    (forall k', ~ In (EvPool k') rest) /\ (forall u' k', ~ In (EvOwn u' k') rest) /\
    forall j, u = inl j -> In (EvClear k) rest -> gone css j.
Proof. exact c87_stored. Qed.
Print Assumptions C87_stored.
(** The connections change nothing else: every execution goes with an execution of the
    methods of HostLazy.v and HostCli.v, with the same results, the same state of service,
    mirrors and faults, the same locks held, and with the same threads being stuck. *)
Theorem C87_same_results :
  forall E css w sch ps' s', net_sched E sch (net_pool css, mkst (nstart w) ∅) = Some (ps', s') ->
  exists sch' qs', hl_sched E sch' (plain_pool css, mkst w ∅) = Some (qs', mkst (n_l (dat s')) (lks s')) /\ length qs' = length ps' /\
    (forall i rs, ps' !! i = Some (Ret rs) -> qs' !! i = Some (Ret rs)) /\
    (forall i, net_sched E [i] (ps', s') = None -> hl_sched E [i] (qs', mkst (n_l (dat s')) (lks s')) = None).
Proof. exact c87_same_results. Qed.
Print Assumptions C87_same_results.
(** And conversely. *)
Theorem C87_conversely :
  forall E css w sch qs' s2, hl_sched E sch (plain_pool css, mkst w ∅) = Some (qs', s2) ->
  exists sch' ps' s', net_sched E sch' (net_pool css, mkst (nstart w) ∅) = Some (ps', s') /\ mkst (n_l (dat s')) (lks s') = s2 /\
    length ps' = length qs' /\ forall i rs, qs' !! i = Some (Ret rs) -> ps' !! i = Some (Ret rs).
Proof. exact conversely. Qed.
Print Assumptions C87_conversely.

(** A mirror that is used by one thread: without requests there is no pool.  Otherwise there
    is exactly one pool; it is there before the first request, all requests go through it,
    and one finalizer is registered for it.  No call clears it, [close()] included. *)
Theorem C87_mirror :
  forall E M cs w, let r := net_run E (map (KMir M) cs) w in
  log_of r = [] /\ fin_of r = [] \/
  exists rest, rest <> [] /\ log_of r = EvPool 0 :: EvOwn (inl (lm_id M)) 0 :: rest /\ Forall (used 0) rest /\ fin_of r = [(lm_id M, 0)].
Proof. exact c87_mirror. Qed.
Print Assumptions C87_mirror.
(** It is cleared when the mirror goes. *)
Theorem C87_gone :
  forall E M cs w rs s', net_run E (map (KMir M) cs ++ [KGone (lm_id M)]) w = (Good rs, s') ->
  n_fin (dat s') = [] /\
  (n_log (dat s') = [] \/
   exists rest, rest <> [] /\ n_log (dat s') = EvPool 0 :: EvOwn (inl (lm_id M)) 0 :: rest ++ [EvClear 0] /\ Forall (used 0) rest).
Proof. exact c87_gone. Qed.
Print Assumptions C87_gone.
(** A reader used as a context: one pool, one request through it for each call; it is cleared
    at the end.  Calls afterwards go through the same pool, and it is not cleared again. *)
Theorem C87_reader :
  forall E j cs1 cs2 w rs s', net_run E (KEnter j :: map (KRd j) cs1 ++ KExit j :: map (KRd j) cs2) w = (Good rs, s') ->
  exists es1 es2, n_log (dat s') = EvPool 0 :: EvOwn (inr j) 0 :: es1 ++ EvClear 0 :: es2 /\ Forall (used 0) es1 /\ Forall (used 0) es2 /\
    length (List.filter asks es1) = length cs1 /\ length (List.filter asks es2) = length cs2.
Proof. exact reader_context. Qed.
Print Assumptions C87_reader.

(** Anything that one thread does with one reader, nested and unbalanced contexts included:
    it never gets stuck.  Before the first [__enter__] every call has a pool of its own.  The
    first [__enter__] creates the pool through which everything goes from then on; further
    ones do nothing.  Every [__exit__] after the first [__enter__] clears it. *)
Theorem C87_reader_any :
  forall E j ds w, (exists rs, fst (net_run E (map (do_rd j) ds) w) = Good rs) /\
  reader_log j None 0 ds (log_of (net_run E (map (do_rd j) ds) w)).
Proof. exact reader_any. Qed.
Print Assumptions C87_reader_any.

(** ** Cases *)

(** A mirror writes half a line, ends it, is closed and goes: four requests, one pool.  The
    first two of them ask for something, the other two are messages. *)
Definition mirror_life : list kcall := [KMir ML (HWrite (txt "a")); KMir ML (HWrite (txt "b" ++ [LF])); KMir ML (HClose None); KGone 0].
Example C87_case_mirror :
  exists r1 r2 r3 r4, log_of (net_run E1 mirror_life unused) =
    [EvPool 0; EvOwn (inl 0) 0; EvResp 0 r1 0 200; EvLoad 0 0; EvRelease 0 0; EvClose 0 0; EvResp 0 r2 1 200; EvLoad 0 1; EvRelease 0 1; EvClose 0 1;
     EvResp 0 (PostMsg r3) 2 201; EvRelease 0 2; EvClose 0 2; EvResp 0 (PostMsg r4) 3 201; EvRelease 0 3; EvClose 0 3; EvClear 0].
Proof. do 4 eexists. vm_compute. reflexivity. Qed.
Example C87_case_mirror_results :
  fst (net_run E1 mirror_life unused) = Good [Good (CNat 1); Good (CNat 2); Good CUnit; Good CUnit].
Proof. vm_compute. reflexivity. Qed.
(** A reader in a context and, for comparison, a reader without. *)
Example C87_case_reader :
  let l := log_of (net_run E1 [KEnter 3; KRd 3 RdLen; KRd 3 RdClosed; KExit 3] unused) in
  length l = 11 /\ length (List.filter made l) = 1 /\ length (List.filter asks l) = 2 /\
  fst (net_run E1 [KEnter 3; KRd 3 RdLen; KRd 3 RdClosed; KExit 3] unused) = Good [Good CUnit; Good (CJson (JNum 3)); Good (CJson (JBool false)); Good CUnit].
Proof. vm_compute. auto. Qed.
Example C87_case_temporary :
  let l := log_of (net_run E1 [KRd 3 RdLen; KRd 3 RdClosed] unused) in
  length l = 12 /\ length (List.filter made l) = 2 /\ one_use 0 (pool_log 0 l) /\ one_use 1 (pool_log 1 l).
Proof.
  cbn zeta. split; [vm_compute; reflexivity|]. split; [vm_compute; reflexivity|].
  split; [exact (ou_resp 0 (GetState (Some (txt "curlen"))) 0 200)|exact (ou_resp 1 (GetState (Some (txt "closed"))) 1 200)].
Qed.
(** Two threads: the reader has read a response in a temporary pool and not yet released it;
    meanwhile the mirror does all its work in another pool. *)
Example C87_case_midst :
  exists sch ps' s', net_sched E1 sch (net_pool [[KRd 3 RdLen]; mirror_life], mkst (nstart unused) ∅) = Some (ps', s') /\
    map (@finished ncmd _) ps' = [false; true] /\
    pool_log 0 (n_log (dat s')) = [EvPool 0; EvResp 0 (GetState (Some (txt "curlen"))) 0 200; EvLoad 0 0] /\
    length (pool_log 1 (n_log (dat s'))) = 17.
Proof.
  destruct (@plan_witness ncmd nworld _ (nsem E1) [(0, 4); (1, 200)] (net_pool [[KRd 3 RdLen]; mirror_life], mkst (nstart unused) ∅) _
    (fun d => pool_log 0 (n_log d) = [EvPool 0; EvResp 0 (GetState (Some (txt "curlen"))) 0 200; EvLoad 0 0] /\ length (pool_log 1 (n_log d)) = 17) eq_refl)
    as (sch & s' & H1 & H2); [vm_compute; auto|].
  exists sch. do 2 eexists. split; [exact H1|]. split; [vm_compute; reflexivity|exact H2].
Qed.

(** ** Not so *)

(** The documentation of LineHostReader says that outside of a context a temporary pool is
    established and destroyed every time (host.py:788-790).  After a context was left, the
    old pool is used again, and what it opens stays open. *)
Theorem C87_outside_refuted :
  exists w, let r := net_run E1 [KEnter 3; KExit 3; KRd 3 RdLen] w in
  (exists v, fst r = Good [Good CUnit; Good CUnit; Good v]) /\
  exists q code, log_of r = [EvPool 0; EvOwn (inr 3) 0; EvClear 0] ++ life 0 q 0 code.
Proof. exists unused. cbn zeta. split; [eexists; vm_compute; reflexivity|]. exists (GetState (Some (txt "curlen"))), 200. vm_compute. reflexivity. Qed.
Print Assumptions C87_outside_refuted.
(** [__enter__] says "Re-enter this context will not take any effects" (host.py:841-842), and
    counts what is to be left.  But only the first [__enter__] counts: leaving the inner
    context clears the pool of the outer one, and the outer one clears it again. *)
Theorem C87_reenter_refuted :
  exists w q code, log_of (net_run E1 [KEnter 3; KEnter 3; KExit 3; KRd 3 RdLen; KExit 3] w) =
  [EvPool 0; EvOwn (inr 3) 0; EvClear 0] ++ life 0 q 0 code ++ [EvClear 0].
Proof. exists unused, (GetState (Some (txt "curlen"))), 200. vm_compute. reflexivity. Qed.
Print Assumptions C87_reenter_refuted.
(** With threads the finalizer of a mirror's pool can be missing: pool 0 was stored and used,
    all threads are done, the mirror is gone, and the pool was never cleared. *)
Theorem C87_finalizer_refuted :
  exists css w sch ps' s', net_sched E1 sch (net_pool css, mkst (nstart w) ∅) = Some (ps', s') /\
  Forall (fun p => finished p = true) ps' /\ gone css 0 /\ In (EvOwn (inl 0) 0) (n_log (dat s')) /\
  (exists r h code, In (EvResp 0 r h code) (n_log (dat s'))) /\ ~ In (EvClear 0) (n_log (dat s')) /\ n_fin (dat s') = [].
Proof.
  exists [[KMir ML HSendEof; KGone 0]; [KMir ML HSendEof]; [KMir ML HSendEof]], unused.
  destruct (@plan_witness ncmd nworld _ (nsem E1) [(0, 12); (1, 11); (0, 2); (2, 200); (1, 2); (0, 2); (1, 200); (0, 200)]
    (net_pool [[KMir ML HSendEof; KGone 0]; [KMir ML HSendEof]; [KMir ML HSendEof]], mkst (nstart unused) ∅)
    [Ret [Good CUnit; Good CUnit]; Ret [Good CUnit]; Ret [Good CUnit]]
    (fun d => In (EvOwn (inl 0) 0) (n_log d) /\ (exists r h code, In (EvResp 0 r h code) (n_log d)) /\ ~ In (EvClear 0) (n_log d) /\ n_fin d = []))
    as (sch & s' & H1 & H2).
  - vm_compute. reflexivity.
  - vm_compute. split; [tauto|]. split; [|split; [intuition discriminate|reflexivity]]. eauto 20.
  - exists sch. do 2 eexists. split; [exact H1|]. split; [repeat constructor|]. split; [exists [KMir ML HSendEof; KGone 0]; split; [left; reflexivity|right; left; reflexivity]|exact H2].
Qed.
Print Assumptions C87_finalizer_refuted.
