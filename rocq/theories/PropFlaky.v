(** * PropFlaky: exceptions from outside in the middle of a call (C88)

    Any command of a method may raise an exception of its own (an error of the operating
    system, a broken connection, KeyboardInterrupt, MemoryError).  [flaky_call p]: the call
    [p] with a check before every command but the release of a lock, and at its end; the
    list [fs] says which checks raise what (Flaky.v).  [cut t p d k k fs r s'] (FlakySpec.v):
    either no exception came and result, data and locks are those of [p]; or the first
    that came is raised, the locks are those before the call, and the data is that after
    some number of commands of [p].  [wfk k]: no lock is recorded as held by nobody.  Only
    theorem statements and concrete cases; proofs are in FlakyFacts.v, FlakyHost.v,
    FlakyServer.v and FlakyProofs.v. *)
From stdpp Require Import gmap.
From Coq Require Import String.
From Coq Require Import List NArith ZArith Bool Arith.
From Verif Require Import PyStr Prog PyIO Base Spec SpecFacts LineBuf Proc ProcSpec ProcRun CountSpec HostSpec HostCli HostCliSpec FileBuf FileSpec FileStmt
  FileTmpSpec CrashSpec Flaky FlakySpec FlakyFacts FlakyHost FlakyProofs FlakyServer PropProc PropCount PropCrash.
Import ListNotations.
Local Open Scope nat_scope.

(** ** C88 *)
Theorem C88_buffer : forall c t d fs k, wfk k ->
  let o := run t (flaky_call (lb_call c)) (mkst (d, fs) k) in cut t (lb_call c) d k k fs (fst o) (snd o).
Proof. exact c88_buffer. Qed.
Print Assumptions C88_buffer.
Theorem C88_file : forall b c t d fs k, wfk k ->
  let o := run t (flaky_call (fb_call b c)) (mkst (d, fs) k) in cut t (fb_call b c) d k k fs (fst o) (snd o).
Proof. exact c88_file. Qed.
Print Assumptions C88_file.
(** LineProcBuffer and LineProcMirror *)
Theorem C88_system : forall c t d fs k, wfk k ->
  let o := run t (flaky_call (s_call c)) (mkst (d, fs) k) in cut t (s_call c) d k k fs (fst o) (snd o).
Proof. exact c88_system. Qed.
Print Assumptions C88_system.
(** LineHostMirror and LineHostReader; [rlock c]: the lock of the mirror is a
    threading.RLock (host.py:172). *)
Theorem C88_host : forall E c t w fs k, rlock c -> wfk k ->
  host_cut E t c w k k fs (fst (host_run E t c w fs k)) (snd (host_run E t c w fs k)).
Proof. exact c88_host. Qed.
Print Assumptions C88_host.
(** LineHostBuffer and its service *)
Theorem C88_server : forall E c t d fs k, wfk k ->
  let o := run t (flaky_call (Host.h_call E c)) (mkst (d, fs) k) in cut t (Host.h_call E c) d k k fs (fst o) (snd o).
Proof. exact c88_server. Qed.
Print Assumptions C88_server.

(** Conversely, a call that would return can be left after any number [j] of its commands. *)
Theorem C88_buffer_anywhere : forall c t d k j e a s1, wfk k -> run t (lb_call c) (mkst d k) = (Good a, s1) ->
  exists n, run t (flaky_call (lb_call c)) (mkst (d, repeat None n ++ [Some e]) k) =
    (Fail e, mkst (dat (prefix_run t j (lb_call c) (mkst d k)), []) k).
Proof. exact c88_buffer_hit. Qed.
Print Assumptions C88_buffer_anywhere.
Theorem C88_file_anywhere : forall b c t d k j e a s1, wfk k -> run t (fb_call b c) (mkst d k) = (Good a, s1) ->
  exists n, run t (flaky_call (fb_call b c)) (mkst (d, repeat None n ++ [Some e]) k) =
    (Fail e, mkst (dat (prefix_run t j (fb_call b c) (mkst d k)), []) k).
Proof. exact c88_file_hit. Qed.
Print Assumptions C88_file_anywhere.
Theorem C88_system_anywhere : forall c t d k j e a s1, wfk k -> run t (s_call c) (mkst d k) = (Good a, s1) ->
  exists n, run t (flaky_call (s_call c)) (mkst (d, repeat None n ++ [Some e]) k) =
    (Fail e, mkst (dat (prefix_run t j (s_call c) (mkst d k)), []) k).
Proof. exact c88_system_hit. Qed.
Print Assumptions C88_system_anywhere.
Theorem C88_host_anywhere : forall E c t w k j e a s1, rlock c -> wfk k ->
  @run _ _ (clisem E) _ t (c_call c) (mkst w k) = (Good a, s1) ->
  exists n, host_run E t c w (repeat None n ++ [Some e]) k =
    (Fail e, mkst (dat (@prefix_run _ _ (clisem E) _ t j (c_call c) (mkst w k)), []) k).
Proof. exact c88_host_hit. Qed.
Print Assumptions C88_host_anywhere.
Theorem C88_server_anywhere : forall E c t d k j e a s1, wfk k -> run t (Host.h_call E c) (mkst d k) = (Good a, s1) ->
  exists n, run t (flaky_call (Host.h_call E c)) (mkst (d, repeat None n ++ [Some e]) k) =
    (Fail e, mkst (dat (prefix_run t j (Host.h_call E c) (mkst d k)), []) k).
Proof. exact c88_server_hit. Qed.
Print Assumptions C88_server_anywhere.

(** Threads that use one LineBuffer, any call being left at any point: at every moment all
    have finished, and no lock is held, or one can go on. *)
Notation all_finished ps := (Forall (fun p => finished p = true) ps) (only parsing).
Theorem C88_buffer_progress : forall css d sch ps' s',
  sched_run sch (fl_pool (map (map lb_call) css), mkst d ∅) = Some (ps', s') ->
  (all_finished ps' /\ lks s' = ∅) \/ exists i c', cstep i (ps', s') = Some c'.
Proof. exact c88_buffer_progress. Qed.
Print Assumptions C88_buffer_progress.
(** Processes that use the same log files, each with a LineFileBuffer of its own. *)
Theorem C88_file_progress : forall n name fl bs css d sch ps' s', one_log n name fl bs -> length css = n ->
  sched_run sch (fl_pool (imap (fun i cs => map (fb_call (bs i)) cs) css), mkst d ∅) = Some (ps', s') ->
  (all_finished ps' /\ lks s' = ∅) \/ exists i c', cstep i (ps', s') = Some c'.
Proof. exact c88_file_progress. Qed.
Print Assumptions C88_file_progress.
(** Threads that use any LineHostMirror and LineHostReader objects. *)
Theorem C88_host_progress : forall E css w sch ps' s', Forall (Forall rlock) css ->
  @sched_run _ _ (flsem ccmd world (Sem0 := clisem E)) _ sch (fl_pool (map (map c_call) css), mkst w ∅) = Some (ps', s') ->
  (all_finished ps' /\ lks s' = ∅) \/
  exists i c', @cstep _ _ (flsem ccmd world (Sem0 := clisem E)) _ i (ps', s') = Some c'.
Proof. exact c88_host_progress. Qed.
Print Assumptions C88_host_progress.
(** Threads of the server: requests, and calls of the LineHostBuffer. *)
Theorem C88_server_progress : forall E css d sch ps' s',
  sched_run sch (fl_pool (map (map (Host.h_call E)) css), mkst d ∅) = Some (ps', s') ->
  (all_finished ps' /\ lks s' = ∅) \/ exists i c', cstep i (ps', s') = Some c'.
Proof. exact c88_server_progress. Qed.
Print Assumptions C88_server_progress.

(** LineFileBuffer.write: an exception leaves on disk what a crash leaves (C40), and the
    locks are free. *)
Theorem C88_file_write : forall b t k fs cl l data ls r flt, wf_fbuf b -> unlocked b k -> wfk k ->
  length l <= b_max b -> FileSpec.records (b_name b) fs l ->
  utf8 data -> utf8 (unfinished (b_name b) (b_tmp b) fs) -> no_cr (unfinished (b_name b) (b_tmp b) fs) ->
  segments data ls r ->
  let v := unfinished (b_name b) (b_tmp b) fs in
  let lines := match ls with [] => [] | l1 :: ls' => (v ++ l1) :: ls' end in
  let o := run t (flaky_call (fb_call b (XWrite data))) (mkst (mkfdir fs cl, flt) k) in
  let fs' := files (fst (dat (snd o))) in
    lks (snd o) = k /\ fclosed (fst (dat (snd o))) = cl /\
    intact (b_name b) (b_max b) fs' l lines /\
    (forall y, y <> temp_file (b_name b) (b_tmp b) -> (forall i, y <> record_file (b_name b) i) -> fs' !! y = fs !! y) /\
    (fs' !! temp_file (b_name b) (b_tmp b) = fs !! temp_file (b_name b) (b_tmp b) \/
     (lines = [] /\ exists p, prefix_of p r /\ unfinished (b_name b) (b_tmp b) fs' = v ++ p) \/
     (FileSpec.records (b_name b) fs' (last_items (b_max b) (l ++ lines)) /\
      prefix_of (unfinished (b_name b) (b_tmp b) fs') r)).
Proof. exact c88_file_write. Qed.
Print Assumptions C88_file_write.

(** ** What does not hold *)
Definition ctrl_c (n : nat) : faults := repeat None n ++ [Some KeyboardInterrupt].
(** KeyboardInterrupt in wait() after the last end signal is taken from the queue: all
    mirrors are closed, and wait() called again never returns. *)
Theorem C88_wait_again_refuted :
  exists (fs : faults) d1, let o := run 0 (flaky_call (s_call (ToMain (PWait 20)))) (mkst (one_closed, fs) ∅) in
  fst o = Fail KeyboardInterrupt /\ d1 = fst (dat (snd o)) /\
  ProcSpec.is_closed (mir_at d1 1) = true /\ inbox d1 = [] /\ s_n d1 = 1%Z /\
  fst (run 0 (s_call (ToMain (PWait 20))) (mkst d1 ∅)) = Block /\
  fst (run 0 (s_call (ToMain (PWait 20))) (mkst one_closed ∅)) = Good (FromMain RUnit).
Proof. exists (ctrl_c 2), (fst (dat (snd (run 0 (flaky_call (s_call (ToMain (PWait 20)))) (mkst (one_closed, ctrl_c 2) ∅))))). repeat split; vm_compute; reflexivity. Qed.
Print Assumptions C88_wait_again_refuted.
(** A line that is sent when KeyboardInterrupt comes is sent again with the next line, or
    its line break is appended to it. *)
Definition has_ab : psys := after [OnMirror 0 (CWrite (txt "ab"))] (lp_fresh 3).
Definition ends_ab (n : nat) := run 0 (flaky_call (s_call (ToMirror 0 (CWrite lf)))) (mkst (has_ab, ctrl_c n) ∅).
Theorem C88_sent_once_refuted :
  exists n n', fst (ends_ab n) = Fail KeyboardInterrupt /\ fst (ends_ab n') = Fail KeyboardInterrupt /\
  inbox (fst (dat (snd (ends_ab n)))) = [QStr (txt "ab" ++ lf)] /\ inbox (fst (dat (snd (ends_ab n')))) = [QStr (txt "ab" ++ lf)] /\
  inbox (after [OnMirror 0 (CWrite (txt "c" ++ lf))] (fst (dat (snd (ends_ab n))))) =
    [QStr (txt "ab" ++ lf); QStr (txt "ab" ++ lf ++ txt "c" ++ lf)] /\
  inbox (after [OnMirror 0 (CWrite (txt "c" ++ lf))] (fst (dat (snd (ends_ab n'))))) =
    [QStr (txt "ab" ++ lf); QStr (txt "c" ++ lf ++ lf)].
Proof. exists 20, 21. repeat split; vm_compute; reflexivity. Qed.
Print Assumptions C88_sent_once_refuted.
(** LineFileBuffer: OSError while the records are renamed; write() raises it, and read()
    then shows no record, though both are on disk and come back with the next line. *)
Definition two_lines : st fdir := snd (fb_hist (restart 5) [(0, XWrite (nl "a" ++ nl "b"))] no_files).
Definition disk_full (n : nat) := run 0 (flaky_call (fb_call (restart 5 0) (XWrite (nl "c")))) (mkst (dat two_lines, repeat None n ++ [Some OSError]) ∅).
Theorem C88_records_seen_refuted :
  exists n, fst (disk_full n) = Fail OSError /\
  fst (fb_hist (restart 5) [(0, XRead None); (0, XWrite (nl "d")); (0, XRead None)] (mkst (fst (dat (snd (disk_full n)))) ∅)) =
    [Good (VTexts []); Good (VNat 0); Good (VTexts [txt "a"; txt "b"; txt "d"])] /\
  fst (fb_hist (restart 5) [(0, XRead None)] two_lines) = [Good (VTexts [txt "a"; txt "b"])].
Proof. exists 12. repeat split; vm_compute; reflexivity. Qed.
Print Assumptions C88_records_seen_refuted.

(** ** Cases *)
Example C88_case_wfk : wfk ∅ /\ wfk (<[4 := Excl 1 2]> ∅).
Proof.
  split; [apply wfk_empty|]. intros l. destruct (decide (l = 4)) as [->|H]; [rewrite lookup_insert; exact I|]. rewrite lookup_insert_ne by congruence.
  rewrite lookup_empty. exact I.
Qed.
(** A call that comes to its end though exceptions are to come later, and one that is left. *)
Example C88_case :
  let p := lb_call (Write (nl "ab" ++ txt "c")) in
  fst (run 0 (flaky_call p) (mkst (dat (fresh 2), ctrl_c 30) ∅)) = Good (RNat 1) /\
  fst (run 0 (flaky_call p) (mkst (dat (fresh 2), ctrl_c 5) ∅)) = Fail KeyboardInterrupt /\
  snd (dat (snd (run 0 (flaky_call p) (mkst (dat (fresh 2), ctrl_c 5) ∅)))) = [] /\
  dq (storage (fst (dat (snd (run 0 (flaky_call p) (mkst (dat (fresh 2), ctrl_c 5) ∅)))))) = [IStr (txt "ab")] /\
  fst (run 0 p (fresh 2)) = Good (RNat 1).
Proof. repeat split; vm_compute; reflexivity. Qed.
(** Two threads on one LineBuffer; the first write is left while it holds the lock. *)
Definition two_writers : list (list LineBuf.call) := [[Write (nl "ab"); Write (nl "c")]; [Write (nl "d")]].
Example C88_case_pool :
  let c := plan [(0, 12); (1, 1); (0, 100); (1, 100)] (fl_pool (map (map lb_call) two_writers), mkst (dat (fresh 9), ctrl_c 5) ∅) in
  map finished (fst c) = [true; true] /\ fst c !! 0 = Some (Ret [Fail KeyboardInterrupt; Good (RNat 0)]) /\
  dq (storage (fst (dat (snd c)))) = [IStr (txt "ab"); IStr (txt "c"); IStr (txt "d")].
Proof. repeat split; vm_compute; reflexivity. Qed.
(** A request that is left while it holds two locks (PropFlakyServer.v has more). *)
Example C88_case_server :
  let p := Host.h_call (Host.mkhenv (fun _ => []) (fun _ => (500, None))) (Host.HReq Host.DelMsg) in
  let s := Host.hfresh 3 in
  fst (run 0 p s) = Good (Host.HAnswer (Host.success 200)) /\
  (let o := run 0 (flaky_call p) (mkst (dat s, ctrl_c 3) ∅) in
   fst o = Fail KeyboardInterrupt /\ lks (snd o) !! 0 = None /\ lks (snd o) !! 4 = None) /\
  lks (snd (run 0 p (mkst (dat s) (<[0 := Excl 1 1]> ∅)))) !! 4 = Some (Excl 0 1).
Proof. repeat split; vm_compute; reflexivity. Qed.
