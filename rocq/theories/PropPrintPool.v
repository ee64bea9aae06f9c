(** * PropPrintPool: processes that print inside [with mirror:] while the main process waits (C90)

    Only theorem statements and concrete cases; proofs are in PrintPoolProofs.v and
    ProcGen.v, the vocabulary in PrintPool.v, PrintSpec.v and ProcSpec.v.
    [print_pool exc jobs fuel]: thread k runs [with mirror: code] for [jobs[k]], the last
    thread is the main process in wait().  Every schedule, step by step, is covered. *)
From stdpp Require Import gmap relations.
From Coq Require Import String.
From Coq Require Import List NArith ZArith Bool Arith Lia.
From Verif Require Import Held PyStr Prog PyIO Base Spec LineBuf LineBufSpec Proc ProcSpec ProcRun PropProc PropPool
  Ctx Print PrintSpec PropPrint PrintPool PrintPoolProofs.
Import ListNotations.
Local Open Scope nat_scope.

(** The code of one process, run step by step and not disturbed, does what Print.v says
    (C75, C76); it never waits for ever. *)
Theorem C90_alone : forall k exc b s d t r s' d', mreach d -> e_qmax d = 0 ->
  kexec (proc_mirror k (fun _ d => d) exc) b s d = (r, s', d') ->
  run t (mir_code k exc b s) (idle d) = (Good (r, s'), idle d') /\ r <> Hangs.
Proof. exact c_alone. Qed.
Print Assumptions C90_alone.

(** Once wait() has returned, everything printed inside the blocks has been received, the
    texts of each process in order and followed by the signal for how its block ended. *)
Theorem C90_everything_printed_arrives :
  forall m d exc jobs fuel, 1 <= m -> preach m d -> main_closed d = false -> PrintPool.jobs_ok d jobs -> enough jobs fuel ->
  inbox d = [] -> s_n d = Z.of_nat (List.length jobs) -> jobs <> [] ->
  forall sch ps' s' x, sched_run sch (print_pool exc jobs fuel, idle d) = Some (ps', s') ->
  ps' !! List.length jobs = Some (Ret x) ->
  x = PWaited (Good tt) /\ inbox (dat s') = [] /\ s_n (dat s') = 0%Z /\
  exists msgss lg, Forall2 (sends_msgs exc) jobs msgss /\ order_of msgss lg /\ received m d (dat s') (map snd lg).
Proof. exact c90_arrives. Qed.
Print Assumptions C90_everything_printed_arrives.

(** If every text is without line break or ends with one (so for every print() whose
    arguments have no line break), the records are whole lines of single processes, in the
    order in which they were printed, and the exceptions that left the blocks. *)
Theorem C90_lines_stay_whole :
  forall m d exc jobs fuel, 1 <= m -> preach m d -> main_closed d = false -> PrintPool.jobs_ok d jobs -> enough jobs fuel ->
  inbox d = [] -> s_n d = Z.of_nat (List.length jobs) -> jobs <> [] ->
  forall sch ps' s' x, current d = [] -> (forall j, In j jobs -> Forall whole_lines (code_texts (j_code j))) ->
  sched_run sch (print_pool exc jobs fuel, idle d) = Some (ps', s') -> ps' !! List.length jobs = Some (Ret x) ->
  exists itemss li, Forall2 (prints exc) jobs itemss /\ order_of itemss li /\
    records (dat s') = last_items m (records d ++ map snd li) /\ current (dat s') = [].
Proof. exact c90_lines. Qed.
Print Assumptions C90_lines_stay_whole.

(** A process whose block was left has its streams back, ended the way its block did, and
    its mirror is closed. *)
Theorem C90_processes :
  forall m d exc jobs fuel, 1 <= m -> preach m d -> main_closed d = false -> PrintPool.jobs_ok d jobs -> enough jobs fuel ->
  inbox d = [] ->
  forall sch ps' s' k j x, sched_run sch (print_pool exc jobs fuel, idle d) = Some (ps', s') ->
  jobs !! k = Some j -> ps' !! k = Some (Ret x) ->
  exists l r s2, block_does exc j l r /\ x = Printed r s2 /\ r <> Hangs /\ out s2 = out (j_sys j) /\ err s2 = err (j_sys j) /\
    is_closed (mir_at (dat s') (j_mir j)) = true.
Proof. exact c90_processes. Qed.
Print Assumptions C90_processes.

(** An execution that cannot be continued has come to its end: every process has returned
    (so wait() has) and no lock is held; and no execution goes on for ever. *)
Theorem C90_ends :
  forall m d exc jobs fuel, 1 <= m -> preach m d -> main_closed d = false -> PrintPool.jobs_ok d jobs -> enough jobs fuel ->
  inbox d = [] -> s_n d = Z.of_nat (List.length jobs) -> jobs <> [] ->
  forall sch ps' s', sched_run sch (print_pool exc jobs fuel, idle d) = Some (ps', s') ->
  (forall i, cstep i (ps', s') = None) ->
  Forall (fun p => exists x, p = Ret x) ps' /\ lks s' = stdpp.base.empty.
Proof. exact c90_ends. Qed.
Print Assumptions C90_ends.
Theorem C90_no_infinite_execution :
  forall exc jobs fuel d (f : nat -> config (C:=scmd) (D:=psys) kresult),
  f 0 = (print_pool exc jobs fuel, idle d) -> ~ forall n, exists i, cstep i (f n) = Some (f (S n)).
Proof. exact (fun _ _ _ _ f _ => no_infinite f). Qed.
Print Assumptions C90_no_infinite_execution.

(** Calls of print() with arguments without line breaks are such texts. *)
Theorem C90_print_is_whole : forall to_err args, Forall no_break args -> Forall whole_lines (code_texts (print to_err args)).
Proof. exact print_whole. Qed.
Print Assumptions C90_print_is_whole.

(** ** Concrete case: two processes; the first prints two lines, one of them in two calls,
    the second prints elsewhere too and is left by an exception with an unfinished line *)
Definition jobs2 : list job :=
  [mkjob 1 5 (KSeq (print false [txt "a"; txt "b"]) (KSeq (KPut false (txt "c")) (print true [txt "d"]))) std;
   mkjob 2 6 (KSeq (KWith (ROut 7 100) (print false [txt "x"])) (KSeq (KPut true (txt "tail")) (KRaise oops))) std].
Local Ltac tell := lazymatch goal with
  | |- told _ _ _ KPass _ _ => constructor
  | |- told _ _ _ (KSeq _ _) _ _ => eapply t_seq; [tell|tell]
  | |- told _ _ _ (KPut false _) _ _ => eapply (t_out _ _ _ _ _ (Good 0)); reflexivity
  | |- told _ _ _ (KPut true _) _ _ => eapply (t_err _ _ _ _ _ (Good 0)); reflexivity
  | |- told _ _ _ (KWith (ROut _ _) _) _ _ => eapply t_rout; [|tell]; discriminate
  | |- told _ _ _ (KRaise _) _ _ => constructor
  | |- _ => idtac
  end.
Local Ltac steps := repeat first [constructor 1 | econstructor; [constructor; apply LineBufProofs.log_write_fun; vm_compute; reflexivity|]].
Local Ltac whole := lazymatch goal with
  |- whole_lines ?t => exists (fst (SpecFacts.seg t)), (snd (SpecFacts.seg t)); split; [apply SpecFacts.seg_segments|vm_compute; auto] end.
Example C90_case : PrintPool.jobs_ok two_mirrors jobs2 /\ enough jobs2 20 /\ inbox two_mirrors = [] /\
  s_n two_mirrors = Z.of_nat (List.length jobs2) /\ jobs2 <> [] /\
  (forall j, In j jobs2 -> Forall whole_lines (code_texts (j_code j))) /\
  Forall2 (prints show_exc) jobs2 [[IStr (txt "a b"); IStr (txt "cd")]; [IStr (txt "tail"); IMsg (gm_init (GMExc oops))]].
Proof.
  split; [split; [repeat constructor; simpl; intuition discriminate|]|].
  { intros j [<-|[<-|[]]]; (split; [vm_compute; lia|]; split; [vm_compute; reflexivity|]; split; [repeat split; vm_compute; reflexivity|]);
      (split; [cbn; tauto|]; intros []). }
  split; [apply Nat.ltb_lt; vm_compute; reflexivity|]. split; [vm_compute; reflexivity|]. split; [vm_compute; reflexivity|].
  split; [discriminate|]. split.
  { intros j [<-|[<-|[]]]; vm_compute code_texts;
      repeat (apply List.Forall_cons; [whole|]); apply List.Forall_nil. }
  constructor; [|constructor; [|constructor]].
  - eexists _, _, _, [IStr (txt "a b"); IStr (txt "cd")], []. split; [split|].
    + unfold jobs2, print. cbn [j_code j_obj print_texts print_args app put_all]. tell.
    + repeat constructor; eexists; reflexivity.
    + split; [cbn; steps|]. split; [apply ln_empty|reflexivity].
  - eexists _, _, _, [IStr (txt "tail")], []. split; [split|].
    + unfold jobs2, print. cbn [j_code j_obj print_texts print_args app put_all]. tell.
    + repeat constructor; eexists; reflexivity.
    + split; [cbn; steps|]. split; [apply (ln_some [] (txt "tail")); discriminate|reflexivity].
Qed.
(** One way it can go. *)
Example C90_run :
  exists sch ps' s', sched_run sch (print_pool show_exc jobs2 20, idle two_mirrors) = Some (ps', s') /\
  ps' !! List.length jobs2 = Some (Ret (PWaited (Good tt))) /\
  records (dat s') = [IMsg (gm_init (GMExc oops)); IStr (txt "a b"); IStr (txt "cd")].
Proof. apply (pdrains_witness [(0, 40); (1, 400); (0, 400); (1, 400); (2, 800)]); vm_compute; reflexivity. Qed.

(** A print() call whose text has a line break inside it does not stay whole: if one process
    prints 'a\nb' and another one 'c', a record 'bc' is possible, and an empty one at the end. *)
Definition mixing_prints : list job :=
  [mkjob 1 5 (print false [txt "a" ++ lf ++ txt "b"]) std; mkjob 2 6 (print false [txt "c"]) std].
Theorem C90_lines_mix_refuted :
  exists sch ps' s', sched_run sch (print_pool show_exc mixing_prints 20, idle two_mirrors) = Some (ps', s') /\
  ps' !! List.length mixing_prints = Some (Ret (PWaited (Good tt))) /\
  records (dat s') = [IStr (txt "a"); IStr (txt "bc"); IStr []].
Proof. apply (pdrains_witness [(0, 40); (1, 400); (0, 400); (1, 400); (2, 800)]); vm_compute; reflexivity. Qed.
Print Assumptions C90_lines_mix_refuted.
