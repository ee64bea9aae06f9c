(** * PropWrite: what write() returns, in any execution (C10, C22)

    For C10 and C22 on one call see PropLineBuf.v and PropProc.v.  Here: any number of
    threads and calls of any kind, any interleaving, any state at the start (reachable or
    not), also with exceptions from outside ([fl_pool], Flaky.v); [returned css ps i k c r]:
    call number [k] of thread [i] is [c], and it returned [r].  Vocabulary in
    WriteRetSpec.v, proofs in WriteRet.v. *)
From stdpp Require Import gmap.
From Coq Require Import String.
From Coq Require Import List NArith ZArith Bool Arith.
From Verif Require Import PyStr Prog PyIO Base Spec SpecFacts LineBuf LineBufConc Flaky FlakySpec ProcRun WriteRetSpec WriteRet.
From Verif Require Proc ProcSpec CountSpec Host HostCli HostLazy HostNet HostNetSpec FileBuf FileConc FileStmt PropHostCli PropLock PropFileConc.
Import ListNotations.
Local Open Scope nat_scope.

(** Computes the witness of [returned]. *)
Local Ltac ran := eexists _, _; split; [vm_compute; reflexivity|split; [vm_compute; reflexivity|split; [vm_compute; reflexivity|vm_compute; reflexivity]]].

(** ** C10 *)
Theorem C10_any_execution :
  forall css s sch ps s' i k data r, sched_run sch (lb_pool css, s) = Some (ps, s') ->
  returned css ps i k (Write data) r -> exists n, r = RNat n /\ written data n.
Proof. exact (fun css s sch ps s' i k data r => lb_returned css s sch ps s' i k (Write data) r). Qed.
Print Assumptions C10_any_execution.
Theorem C10_any_exceptions :
  forall css s sch ps s' i k data r, sched_run sch (fl_pool (map (map lb_call) css), s) = Some (ps, s') ->
  returned css ps i k (Write data) r -> exists n, r = RNat n /\ written data n.
Proof. exact (fun css s sch ps s' i k data r => lb_returned_flaky css s sch ps s' i k (Write data) r). Qed.
Print Assumptions C10_any_exceptions.
(** The same number for LineFileBuffer.write(), whatever the buffers, paths and files. *)
Theorem C10_file :
  forall bs css s sch ps s' i k data r, sched_run sch (FileConc.fb_pool bs css, s) = Some (ps, s') ->
  returned css ps i k (FileBuf.XWrite data) r -> exists n, r = FileBuf.VNat n /\ written data n.
Proof. exact (fun bs css s sch ps s' i k data r => fb_returned bs css s sch ps s' i k (FileBuf.XWrite data) r). Qed.
Print Assumptions C10_file.
Theorem C10_file_exceptions :
  forall bs css s sch ps s' i k data r,
  sched_run sch (fl_pool (imap (fun i => map (FileBuf.fb_call (bs i))) css), s) = Some (ps, s') ->
  returned css ps i k (FileBuf.XWrite data) r -> exists n, r = FileBuf.VNat n /\ written data n.
Proof. exact (fun bs css s sch ps s' i k data r => fb_returned_flaky bs css s sch ps s' i k (FileBuf.XWrite data) r). Qed.
Print Assumptions C10_file_exceptions.

(** Two threads, the second one between the two critical sections of the first one; the third call
    is left by KeyboardInterrupt. *)
Definition ctrl_c (n : nat) : faults := repeat None n ++ [Some KeyboardInterrupt].
Definition x_css : list (list call) := [[Write (txt "a" ++ [LF] ++ txt "bc"); Write (txt "d")]; [Write [LF]]].
Example C10_case_any :
  let c := plan [(0, 5); (1, 100); (0, 100)] (fl_pool (map (map lb_call) x_css), mkst (dat (fresh 3), ctrl_c 19) ∅) in
  returned x_css (fst c) 0 0 (Write (txt "a" ++ [LF] ++ txt "bc")) (RNat 2) /\ written (txt "a" ++ [LF] ++ txt "bc") 2 /\
  returned x_css (fst c) 1 0 (Write [LF]) (RNat 1) /\ written [LF] 1 /\
  nth_error (fst c) 0 = Some (Ret [Good (RNat 2); Fail KeyboardInterrupt]).
Proof.
  split; [ran|]. split.
  { exists [txt "a"], (txt "bc"). split; [apply segments_iff; vm_compute; reflexivity|]. right. split; [intros [? _]; discriminate|reflexivity]. }
  split; [ran|]. split; [|vm_compute; reflexivity].
  exists [[]], []. split; [apply segments_iff; vm_compute; reflexivity|]. left. auto.
Qed.
Example C10_case_file :
  let css := [[FileBuf.XWrite (txt "a1" ++ [LF] ++ txt "z")]; [FileBuf.XWrite (txt "b" ++ [LF])]] in
  let c := plan [(0, 9); (1, 3); (0, 200); (1, 200)] (FileConc.fb_pool PropFileConc.x_bufs css, FileStmt.no_files) in
  returned css (fst c) 0 0 (FileBuf.XWrite (txt "a1" ++ [LF] ++ txt "z")) (FileBuf.VNat 1) /\
  returned css (fst c) 1 0 (FileBuf.XWrite (txt "b" ++ [LF])) (FileBuf.VNat 0).
Proof. split; ran. Qed.

(** ** C22 *)
Theorem C22_any_execution :
  forall css s sch ps s' i k j data r, sched_run sch (CountSpec.sys_pool css, s) = Some (ps, s') ->
  returned css ps i k (CountSpec.ToMirror j (Proc.CWrite data)) r -> r = CountSpec.FromMirror (Proc.MNat (length data)).
Proof. exact (fun css s sch ps s' i k j data r => sys_returned css s sch ps s' i k (CountSpec.ToMirror j (Proc.CWrite data)) r). Qed.
Print Assumptions C22_any_execution.
Theorem C22_any_exceptions :
  forall css s sch ps s' i k j data r, sched_run sch (fl_pool (map (map CountSpec.s_call) css), s) = Some (ps, s') ->
  returned css ps i k (CountSpec.ToMirror j (Proc.CWrite data)) r -> r = CountSpec.FromMirror (Proc.MNat (length data)).
Proof. exact (fun css s sch ps s' i k j data r => sys_returned_flaky css s sch ps s' i k (CountSpec.ToMirror j (Proc.CWrite data)) r). Qed.
Print Assumptions C22_any_exceptions.
(** LineHostMirror.write(), with any service and any faults of the requests. *)
Theorem C22_host :
  forall E css s sch ps s' i k M data r, HostNetSpec.net_sched E sch (HostNetSpec.net_pool css, s) = Some (ps, s') ->
  returned css ps i k (HostNet.KMir M (HostCli.HWrite data)) r -> r = HostCli.CNat (length data).
Proof. exact (fun E css s sch ps s' i k M data r => net_returned E css s sch ps s' i k (HostNet.KMir M (HostCli.HWrite data)) r). Qed.
Print Assumptions C22_host.
Theorem C22_host_exceptions :
  forall E css s sch ps s' i k M data r,
  @sched_run (fl HostNet.ncmd) _ (@flsem _ HostNet.nworld (HostNet.nsem E)) _ sch (fl_pool (map (map HostNet.k_call) css), s) = Some (ps, s') ->
  returned css ps i k (HostNet.KMir M (HostCli.HWrite data)) r -> r = HostCli.CNat (length data).
Proof. exact (fun E css s sch ps s' i k M data r => net_returned_flaky E css s sch ps s' i k (HostNet.KMir M (HostCli.HWrite data)) r). Qed.
Print Assumptions C22_host_exceptions.
(** The documented result of LineHostMirror.write(), the number of lines, is wrong. *)
Theorem C22_host_number_of_lines_refuted :
  exists E css s sch ps s' i k M data n ls r, HostNetSpec.net_sched E sch (HostNetSpec.net_pool css, s) = Some (ps, s') /\
  returned css ps i k (HostNet.KMir M (HostCli.HWrite data)) (HostCli.CNat n) /\ segments data ls r /\ n <> length ls.
Proof.
  exists PropHostCli.E1, [[HostNet.KMir (HostLazy.mklm 1 false) (HostCli.HWrite (txt "ab" ++ [LF]))]], (mkst (HostNet.nstart PropLock.unused) ∅).
  destruct (@plan_sched HostNet.ncmd HostNet.nworld _ (HostNet.nsem PropHostCli.E1) [(0, 200)]
    (HostNetSpec.net_pool [[HostNet.KMir (HostLazy.mklm 1 false) (HostCli.HWrite (txt "ab" ++ [LF]))]], mkst (HostNet.nstart PropLock.unused) ∅)) as [sch H].
  exists sch. eexists _, _, 0, 0, _, _, 3, [txt "ab"], []. split; [exact (eq_trans H (f_equal Some (surjective_pairing _)))|].
  split; [ran|]. split; [apply segments_iff; vm_compute; reflexivity|discriminate].
Qed.
Print Assumptions C22_host_number_of_lines_refuted.
(** A mirror used by two threads, one write left by KeyboardInterrupt; a host mirror used by two
    threads whose second request is refused. *)
Example C22_case_any :
  let w data := CountSpec.ToMirror 0 (Proc.CWrite data) in
  let css := [[w (txt "a" ++ [LF] ++ txt "bc"); w (txt "xy")]; [w (txt "d")]] in
  let c := plan [(0, 18); (1, 4); (0, 60); (1, 100); (0, 100); (1, 100)]
    (fl_pool (map (map CountSpec.s_call) css), mkst (ProcSpec.lp_fresh 3, ctrl_c 45) ∅) in
  returned css (fst c) 0 0 (w (txt "a" ++ [LF] ++ txt "bc")) (CountSpec.FromMirror (Proc.MNat 4)) /\
  map (fun p => match p with Ret r => Some r | _ => None end) (fst c) =
    [Some [Good (CountSpec.FromMirror (Proc.MNat 4)); Good (CountSpec.FromMirror (Proc.MNat 2))]; Some [Fail KeyboardInterrupt]].
Proof. split; [ran|vm_compute; reflexivity]. Qed.
Example C22_case_host :
  let w data := HostNet.KMir (HostLazy.mklm 1 false) (HostCli.HWrite data) in
  let css := [[w (txt "ab" ++ [LF]); w (txt "c")]; [w (txt "def")]] in
  let c := @plan HostNet.ncmd HostNet.nworld _ (HostNet.nsem PropHostCli.E1) [(0, 24); (1, 9); (0, 200); (1, 200); (0, 200)]
    (HostNetSpec.net_pool css, mkst (HostNet.nstart (HostLazy.mklw (PropHostCli.world1 [HostCli.Up; HostCli.Down]) ∅ 0)) ∅) in
  returned css (fst c) 0 1 (w (txt "c")) (HostCli.CNat 1) /\
  map (fun p => match p with Ret r => Some r | _ => None end) (fst c) =
    [Some [Fail HTTPError; Good (HostCli.CNat 1)]; Some [Good (HostCli.CNat 3)]].
Proof. split; [ran|vm_compute; reflexivity]. Qed.
