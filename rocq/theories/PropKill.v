(** * PropKill: processes that are killed while they use one log (C98)

    [fb_pool bs css] and [sharing] as in PropFileConc.v.  [krun stays es]: the events [es]
    are single commands of a process ([Step]) and the death of a process ([Kill]) between
    any two of its commands; a dead process never goes on.  [fun _ => false]: the operating
    system releases the file locks of a dead process.  [dead]: the killed processes.
    Vocabulary in KillFileSpec.v, proofs in KillFileEnd.v. *)
From stdpp Require Import gmap.
From Coq Require Import String.
From Coq Require Import List NArith ZArith Bool Arith Lia.
From Verif Require Import PyStr Prog PyIO Base Spec LineBuf FileBuf FileSpec FileStmt FileConcSpec FileConc PropFileConc Kill KillFileSpec KillFileEnd.
Import ListNotations.
Local Open Scope nat_scope.

(** At any time, [h] is the history of the records: those that were there before, then
    those of the processes; a process contributed a beginning of what its calls write, of
    which the last record may be incomplete.  Every file of the log is a record of the
    history, no record is there twice.  A process that is finished was not killed; it wrote
    everything, has its own unfinished line, and got the right answers; what its calls of
    read() returned is part of the history.  If no call completes more than one line, then
    the records are in the order of the history, and each killed process costs at most one
    of the last [m] records; one more may be absent while a living process is in the
    middle of a change. *)
Theorem C98_killed_log :
  forall n name fl bs m css s0 evs ps s' dead l v,
  sharing n name fl bs -> (forall i, i < n -> b_max (bs i) = m) ->
  length css = n -> lks s0 = ∅ -> Forall (Forall logging) css ->
  records name (files (dat s0)) l -> length l <= m ->
  (forall i, i < n -> is_open (bs i) (dat s0) /\ unfinished name (b_tmp (bs i)) (files (dat s0)) = v i /\
             no_break (v i) /\ utf8 (v i)) ->
  krun (fun _ => false) evs ((fb_pool bs css, s0), []) = Some ((ps, s'), dead) ->
  let one_line := forall i cs, nth_error css i = Some cs -> line_by_line cs (v i) in
  exists (h : history) (pos : nat -> option nat),
    from_before h = l /\
    (forall i cs, nth_error css i = Some cs -> exists all v', writes m cs (v i) all v' /\ cut_short (written_by i h) all) /\
    (forall i s, In (Some i, s) h -> i < n) /\
    kept name m (files (dat s')) h pos /\
    (forall i cs p, nth_error css i = Some cs -> nth_error ps i = Some p -> finished p = true ->
       exists rs, p = Ret rs /\ answered_all m one_line h cs (v i) rs /\
         writes m cs (v i) (written_by i h) (unfinished name (b_tmp (bs i)) (files (dat s')))) /\
    (one_line -> in_order pos /\
      (forall e, e < length h -> length h + length dead < e + m -> exists x, pos x = Some e) /\
      ((forall i p, nth_error ps i = Some p -> In i dead \/ finished p = true) ->
       forall e, e < length h -> length h + length dead <= e + m -> exists x, pos x = Some e)).
Proof.
  intros n name fl bs m css s0 evs ps s' dead l v H1 H2 H3 H4 H5 H6 H7 H8 H9.
  exact (killed_log n name fl bs m H1 H2 css v l H3 H5 s0 evs ps s' dead H4 H6 H7 H8 H9).
Qed.
Print Assumptions C98_killed_log.

(** Whatever calls the processes make and whichever processes are killed: either every
    process that lives is finished and no lock is held, or one that lives can go on. *)
Theorem C98_progress :
  forall n name fl bs css d0 evs ps s' dead,
  sharing n name fl bs -> length css = n ->
  krun (fun _ => false) evs ((fb_pool bs css, mkst d0 ∅), []) = Some ((ps, s'), dead) ->
  ((forall i p, nth_error ps i = Some p -> In i dead \/ finished p = true) /\ lks s' = ∅) \/
  (exists i c', ~ In i dead /\ cstep i (ps, s') = Some c').
Proof. intros n name fl bs css d0 evs ps s' dead H1 H2. exact (killed_progress n name fl bs H1 css H2 d0 evs ps s' dead). Qed.
Print Assumptions C98_progress.

(** ** Executions *)
Definition k_bufs (m : nat) (i : nat) : fbuf :=
  mkfb i (txt "log") (match i with 0 => txt "A" | 1 => txt "B" | _ => txt "C" end) m 0 (2 * i + 2).
Example k_sharing m : 1 <= m -> sharing 3 (txt "log") 0 (k_bufs m).
Proof.
  intros Hm. split; [reflexivity| |].
  - intros [|[|[|i]]] Hi; [| | |lia]; cbn; repeat split; lia.
  - intros [|[|[|i]]] [|[|[|j]]] Hi Hj Hne; try lia; cbn; split; discriminate || lia.
Qed.
Definition k_ab : st fdir := mkst (mkfdir (list_to_map [(txt "log-0.log", txt "b"); (txt "log-1.log", txt "a")]) ∅) ∅.
Definition k_end (es : list event) (m : nat) (css : list (list fcall)) (s0 : st fdir) :=
  option_map (fun x => (snd x, map (fun p => match p with Ret r => Some r | _ => None end) (fst (fst x)),
      map (fun f => files (dat (snd (fst x))) !! (f : text)) [txt "log-0.log"; txt "log-1.log"; txt "log-2.log"; txt "log-3.log"]))
    (krun (fun _ => false) es ((fb_pool (k_bufs m) css, s0), [])).

(** The log has 2 records, 'a' and 'b'.  Process 0 is killed when it has written one of the
    two characters of its line 'xx' and holds the lock; process 1 goes on.  Of the history
    a, b, x, y the last two records are there. *)
Example C98_case :
  k_end (repeat (Step 0) 16 ++ [Kill 0] ++ repeat (Step 1) 38) 2
    [[XWrite (txt "xx" ++ nl)]; [XWrite (txt "y" ++ nl); XRead None]; []] k_ab =
  Some ([0], [None; Some [Good (VNat 0); Good (VTexts [txt "x"; txt "y"])]; Some []], [Some (txt "y"); Some (txt "x"); None; None]).
Proof. vm_compute. reflexivity. Qed.
Example C98_case_start : records (txt "log") (files (dat k_ab)) [txt "a"; txt "b"].
Proof.
  intros [|[|i]]; [reflexivity|reflexivity|]. transitivity (@None text); [|destruct i; reflexivity].
  unfold k_ab. simpl. rewrite !lookup_insert_ne, lookup_empty; [reflexivity| |];
    intros E; [apply (KillFileOps.file_inj (txt "log") 1) in E|apply (KillFileOps.file_inj (txt "log") 0) in E]; discriminate.
Qed.

(** A killed process does cost a record: 'a' is gone, and there are at most 2 records in
    the history. *)
Example C98_case_lost :
  k_end (repeat (Step 0) 12 ++ [Kill 0]) 2 [[XWrite (txt "xx" ++ nl)]; []; []] k_ab =
  Some ([0], [None; Some []; Some []], [Some (txt "b"); None; None; None]).
Proof. vm_compute. reflexivity. Qed.

(** It is not true that read() returns every record that is kept: a process killed between
    os.rename() and open() leaves no record with number 0, and read() of another process
    returns nothing, though the record 'b' is there. *)
Theorem C98_seen_refuted :
  exists evs ps s' dead,
    krun (fun _ => false) evs ((fb_pool (k_bufs 2) [[XWrite (txt "xx" ++ nl)]; [XRead None]; []], k_ab), []) = Some ((ps, s'), dead) /\
    nth_error ps 1 = Some (Ret [Good (VTexts [])]) /\
    files (dat s') !! record_file (txt "log") 1 = Some (txt "b").
Proof.
  exists (repeat (Step 0) 13 ++ [Kill 0] ++ repeat (Step 1) 11).
  destruct (krun (fun _ => false) (repeat (Step 0) 13 ++ [Kill 0] ++ repeat (Step 1) 11)
    ((fb_pool (k_bufs 2) [[XWrite (txt "xx" ++ nl)]; [XRead None]; []], k_ab), [])) as [[[ps s'] dead]|] eqn:E.
  - exists ps, s', dead. split; [reflexivity|]. pose proof (f_equal (option_map (fun x => (nth_error (fst (fst x)) 1, files (dat (snd (fst x))) !! txt "log-1.log"))) E) as E2.
    vm_compute in E2. injection E2 as E3 E4. split; [symmetry; exact E3|symmetry; exact E4].
  - vm_compute in E. discriminate.
Qed.
Print Assumptions C98_seen_refuted.

(** It is not true that the records are in order when a call may complete several lines:
    process 0 is killed after it stored 'a'; then process 1 begins and is killed after it
    stored 'x'; then process 2 begins; it reads 'x' before 'a'. *)
Theorem C98_order_refuted :
  exists k1 k2 k3,
    k_end (repeat (Step 0) k1 ++ [Kill 0] ++ repeat (Step 1) k2 ++ [Kill 1] ++ repeat (Step 2) k3) 4
      [[XWrite (txt "a" ++ nl ++ txt "b" ++ nl)]; [XWrite (txt "x" ++ nl ++ txt "y" ++ nl ++ txt "z" ++ nl)]; [XWrite (txt "c" ++ nl); XRead None]] no_files =
    Some ([1; 0], [None; None; Some [Good (VNat 0); Good (VTexts [txt "x"; txt "a"; txt "c"])]], [Some (txt "c"); Some (txt "a"); Some (txt "x"); None]).
Proof. exists 13, 13, 36. vm_compute. reflexivity. Qed.
Print Assumptions C98_order_refuted.
