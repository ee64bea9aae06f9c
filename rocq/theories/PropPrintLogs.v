(** * PropPrintLogs: processes that print inside [with LineFileBuffer:] on one log, and readers (C94)

    Only theorem statements and concrete cases; proofs are in PrintLogsProofs.v and
    PrintLogsLines.v, the vocabulary in PrintLogs.v, PrintSpec.v and FileTmpSpec.v.
    [print_files exc bs ws]: process i has the buffer [bs i] and runs [with buffer: code] or
    calls methods.  Every schedule, step by step, is covered. *)
From stdpp Require Import gmap.
From Coq Require Import String.
From Coq Require Import List NArith ZArith Bool Arith Lia.
From Verif Require Import Held PyStr Prog PyIO Base Spec SpecFacts LineBuf Conc FileBuf FileSpec FileStmt FileFacts FileProofs FileConcSpec FileTmpSpec
  PropFile PropFileConc PropFileTmp ProcRun Ctx Print PrintSpec PropPrintFile PrintPool PrintLogs PrintLogsProofs PrintLogsLines.
Import ListNotations.
Local Open Scope nat_scope.

(** The code of one process, run step by step and not disturbed, does what Print.v says
    (C75, C77), from any directory; it never waits for ever. *)
Theorem C94_alone : forall b k exc c s d t r s' d', wf_fbuf b ->
  kexec (file_buffer k b (fun _ d => d) exc) c s d = (r, s', d') ->
  run t (fil_code b k exc c s) (mkst d ∅) = (Good (r, s'), mkst d' ∅) /\ r <> Hangs.
Proof. exact c94_alone. Qed.
Print Assumptions C94_alone.

(** Processes with different tmp_ids print, others look at the log.  At any moment of any
    execution, if no process is just changing the records, these are the last [m] of the
    old records and those that arrived so far, [mixed]; each one is a whole line, or
    exception, of a single process, and those of each process are the first ones of what it
    should add.  A process whose block was left has added everything, its unfinished line is
    what it should be, its streams are back, and it ended as its block did.  What readers
    return are the last records of earlier and later moments. *)
Theorem C94_any_time :
  forall n name fl bs m exc ws d0 sch ps' s' l,
  one_log n name fl bs -> (forall i, i < n -> b_max (bs i) = m) ->
  (forall i j, i < n -> j < n -> b_tmp (bs i) = b_tmp (bs j) -> i = j) ->
  length ws = n -> Forall (fwork_ok name) ws -> (forall cs, In (FCalls cs) ws -> Forall looking cs) ->
  records name (files d0) l -> length l <= m ->
  (forall i, i < n -> open_flag (bs i) d0 true /\
     no_break (unfinished name (b_tmp (bs i)) (files d0)) /\ utf8 (unfinished name (b_tmp (bs i)) (files d0))) ->
  sched_run sch (print_files exc bs ws, mkst d0 ∅) = Some (ps', s') ->
  exists mixed : list (nat * text),
    Forall (fun e => exists j, nth_error ws (fst e) = Some (FPrints j)) mixed /\
    ((forall t q, lks s' !! fl <> Some (Excl t q)) -> records name (files (dat s')) (last_items m (l ++ map snd mixed))) /\
    (forall i j, nth_error ws i = Some (FPrints j) -> exists rest r v',
       fjob_prints exc j (unfinished name (b_tmp (bs i)) (files d0)) r (events_of i mixed ++ rest) v') /\
    (forall i j p, nth_error ws i = Some (FPrints j) -> nth_error ps' i = Some p -> finished p = true ->
       exists r s2, p = Ret (FPrinted r s2) /\ out s2 = out (fj_sys j) /\ err s2 = err (fj_sys j) /\
         fjob_prints exc j (unfinished name (b_tmp (bs i)) (files d0)) r (events_of i mixed) (unfinished name (b_tmp (bs i)) (files (dat s')))) /\
    (forall i cs p, nth_error ws i = Some (FCalls cs) -> nth_error ps' i = Some p -> finished p = true ->
       exists rs, p = Ret (FCalled rs) /\
         logs_seen m (l ++ map snd mixed) (unfinished name (b_tmp (bs i)) (files d0)) (length l) cs rs).
Proof. exact c94_any_time. Qed.
Print Assumptions C94_any_time.

(** Any tmp_ids, and any calls of the processes that do not print (clear() and close() as
    well): when all are finished, there is an account by steps as in C83, in which each
    printing process plays the writes of what it printed, then new_line(), or send_exc() with
    the exception that left its block; its streams are back in any case. *)
Theorem C94_account :
  forall n name fl bs m exc ws d0 sch ps' s' l v o,
  one_log n name fl bs -> (forall i, i < n -> b_max (bs i) = m) -> length ws = n -> Forall (fwork_ok name) ws ->
  records name (files d0) l -> length l <= m ->
  (forall i, i < n -> open_flag (bs i) d0 (o i) /\
     unfinished name (b_tmp (bs i)) (files d0) = v (b_tmp (bs i)) /\ no_break (v (b_tmp (bs i))) /\ utf8 (v (b_tmp (bs i)))) ->
  (forall i j, nth_error ws i = Some (FPrints j) -> o i = true) ->
  sched_run sch (print_files exc bs ws, mkst d0 ∅) = Some (ps', s') -> all_finished ps' ->
  exists (g : list (nat * fstep)) (o' : nat -> bool),
    Forall (fun e => fst e < n) g /\
    (forall i x, nth_error ws i = Some x -> open_flag (bs i) (dat s') (o' i) /\
       exists res, nth_error ps' i = Some (Ret res) /\ fwork_plays exc m x (o i) (events_of i g) (o' i) res) /\
    story m (fun i => b_tmp (bs i)) g l v (fun l' v' =>
      records name (files (dat s')) l' /\ length l' <= m /\
      forall i, i < n -> unfinished name (b_tmp (bs i)) (files (dat s')) = v' (b_tmp (bs i))).
Proof. exact c94_account. Qed.
Print Assumptions C94_account.

(** Whatever happened so far, either everything is finished and no lock is held, or some
    process can go on; and no execution goes on for ever. *)
Theorem C94_no_deadlock :
  forall n name fl bs exc ws d0 sch ps' s', one_log n name fl bs -> length ws = n ->
  sched_run sch (print_files exc bs ws, mkst d0 ∅) = Some (ps', s') ->
  (all_finished ps' /\ lks s' = ∅) \/ (exists i c, cstep i (ps', s') = Some c).
Proof. exact c94_no_deadlock. Qed.
Print Assumptions C94_no_deadlock.
Theorem C94_no_infinite_execution :
  forall exc bs ws d0 f, f 0 = (print_files exc bs ws, mkst d0 ∅) -> ~ forall n, exists i, cstep i (f n) = Some (f (S n)).
Proof. exact (fun _ _ _ _ f _ => no_infinite f). Qed.
Print Assumptions C94_no_infinite_execution.

(** ** Concrete case: two processes print, the second one is left by an exception with an
    unfinished line; a third one looks at the log; at most 3 records *)
Definition z_bufs (i : nat) : fbuf := mkfb i (txt "log") (txt "t" ++ dec_of_nat i) 3 0 (2 + 2 * i).
Definition ws3 : list fwork :=
  [FPrints (mkfjob 5 (KSeq (print false [txt "a"; txt "b"]) (KSeq (KPut false (txt "c")) (print true [txt "d"]))) std);
   FPrints (mkfjob 6 (KSeq (KWith (ROut 7 100) (print false [txt "x"])) (KSeq (KPut true (txt "tail")) (KRaise boom))) std);
   FCalls [XRead None; XLen; XClosed; XRead (Some 2%Z)]].
Definition boom_text : text := txt "line 1" ++ lf ++ txt "line 2".
Local Ltac tell := lazymatch goal with
  | |- told _ _ _ KPass _ _ => constructor
  | |- told _ _ _ (KSeq _ _) _ _ => eapply t_seq; [tell|tell]
  | |- told _ _ _ (KPut false _) _ _ => eapply (t_out _ _ _ _ _ (Good 0)); reflexivity
  | |- told _ _ _ (KPut true _) _ _ => eapply (t_err _ _ _ _ _ (Good 0)); reflexivity
  | |- told _ _ _ (KWith (ROut _ _) _) _ _ => eapply t_rout; [|tell]; discriminate
  | |- told _ _ _ (KRaise _) _ _ => constructor
  | |- _ => idtac
  end.
Local Ltac steps := repeat first [constructor 1 | econstructor; [constructor; apply LineBufProofs.log_write_fun; vm_compute; reflexivity|]].
Example C94_case : one_log 3 (txt "log") 0 z_bufs /\
  (forall i j, i < 3 -> j < 3 -> b_tmp (z_bufs i) = b_tmp (z_bufs j) -> i = j) /\ Forall (fwork_ok (txt "log")) ws3 /\
  (forall cs, In (FCalls cs) ws3 -> Forall looking cs) /\ records (txt "log") (files (mkfdir ∅ ∅)) [] /\
  (forall i j, nth_error ws3 i = Some (FPrints j) ->
     fjob_prints show_exc j [] (nth i [Ends; Throws boom] Ends) (nth i [[txt "a b"; txt "cd"]; [boom_text]] []) (nth i [[]; txt "tail"] [])).
Proof.
  assert (Hinj : forall i j, i < 3 -> j < 3 -> b_tmp (z_bufs i) = b_tmp (z_bufs j) -> i = j).
  { intros [|[|[|i]]] [|[|[|j]]] Hi Hj E; try lia; discriminate E. }
  split; [|split; [exact Hinj|split; [|split; [|split]]]].
  - split; [reflexivity| |].
    + intros [|[|[|i]]] Hi; [..|lia]; cbn; repeat split; lia.
    + intros i j Hi Hj Hne. split; [exact Hne|]. split; [cbn; lia|]. intros E. elim Hne. apply Hinj; auto.
  - apply List.Forall_cons; [|apply List.Forall_cons; [|apply List.Forall_cons; [|apply List.Forall_nil]]].
    + split; [repeat split|]. split; [cbn; tauto|]. split; [|apply List.Forall_nil].
      repeat (apply List.Forall_cons; [apply utf8_enc; vm_compute; reflexivity|]). apply List.Forall_nil.
    + split; [cbn; tauto|]. split; [cbn; intuition discriminate|].
      split; repeat (apply List.Forall_cons; [apply utf8_enc; vm_compute; reflexivity|]); apply List.Forall_nil.
    + repeat constructor.
  - intros cs [H|[H|[H|[]]]]; try discriminate. injection H as <-. repeat constructor.
  - intros k. cbn. rewrite lookup_empty. destruct k; reflexivity.
  - intros [|[|[|i]]] j H; try discriminate; [| |destruct i; discriminate]; injection H as <-; cbn [nth].
    + eexists _, [txt "a b"; txt "cd"], []. split; [split|].
      * unfold print. cbn [fj_code fj_obj print_texts print_args app put_all]. tell.
      * repeat constructor; eexists; reflexivity.
      * split; [cbn; steps|]. cbn. auto.
    + eexists _, [], (txt "tail"). split; [split|].
      * unfold print. cbn [fj_code fj_obj print_texts print_args app put_all]. tell.
      * repeat constructor; eexists; reflexivity.
      * split; [cbn; steps|]. exists boom_text. split; [apply C44_demo_record|]. auto.
Qed.
Definition fended (p : prog fcmd fresult) : option (option ending * list (outcome fres)) :=
  match p with Ret (FPrinted r _) => Some (Some r, []) | Ret (FCalled rs) => Some (None, rs) | _ => None end.
Definition log_files (fs : list text) (d : fdir) : list (option text) := map (fun f => files d !! (f : text)) fs.
(** One way it can go. *)
Example C94_run :
  (let c := plan [(0, 60); (1, 1000); (2, 18); (0, 1000); (2, 1000)] (print_files show_exc z_bufs ws3, mkst (mkfdir ∅ ∅) ∅) in
   (map fended (fst c), log_files [txt "log-2.log"; txt "log-1.log"; txt "log-0.log"; txt "log-3.log"; txt "log-t1.tmp"] (dat (snd c)))) =
  ([Some (Some Ends, []); Some (Some (Throws boom), []);
    Some (None, [Good (VTexts [txt "a b"; boom_text]); Good (VNat 2); Good (VBool false); Good (VTexts [boom_text; txt "cd"])])],
   [Some (txt "a b"); Some boom_text; Some (txt "cd"); None; Some (txt "tail")]).
Proof. vm_compute. reflexivity. Qed.

(** With the default tmp_id (file.py:62) the lines of two processes mix, although each of
    them prints one whole line, or a text is logged twice. *)
Definition two_printers (a b : list text) : list fwork :=
  [FPrints (mkfjob 5 (print false a) std); FPrints (mkfjob 6 (print false b) std)].
Definition both_print (r : list (option text)) : Prop :=
  exists sch ps' s', sched_run sch (print_files show_exc y_bufs (two_printers [txt "a"] [txt "b"]), mkst (mkfdir ∅ ∅) ∅) = Some (ps', s') /\
  all_finished ps' /\ log_files [txt "log-2.log"; txt "log-1.log"; txt "log-0.log"] (dat s') = r.
Theorem C94_same_id_refuted : both_print [None; Some (txt "ab"); Some []] /\ both_print [None; Some (txt "a"); Some (txt "ab")].
Proof.
  split.
  - apply (logs_run [(0, 15); (1, 1000); (0, 1000)] show_exc y_bufs _ _ (log_files _)); vm_compute; reflexivity.
  - apply (logs_run [(0, 20); (1, 1000); (0, 1000); (1, 1000); (0, 1000); (1, 1000)] show_exc y_bufs _ _ (log_files _)); vm_compute; reflexivity.
Qed.
Print Assumptions C94_same_id_refuted.
