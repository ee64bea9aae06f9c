(** * PropFileConc: several processes with LineFileBuffers on one log (C39)

    [fb_pool bs css]: process [i] makes the calls [css[i]] on its buffer [bs i];
    [sharing n name fl bs]: the buffers 0, ..., n-1 have the same path [name], hence the
    same lock [fl] for the records, and different temporary files.  [sched_run sch]
    executes single commands (one file-system operation, one character of a write, one
    acquisition or release of a lock) in the order given by [sch].  Proofs are in
    FileConc.v and Serial.v. *)
From stdpp Require Import gmap.
From Coq Require Import String.
From Coq Require Import List NArith ZArith Bool Arith Lia.
From Verif Require Import PyStr Prog PyIO Base Spec LineBuf FileBuf FileSpec FileStmt FileConcSpec FileConc.
Import ListNotations.
Local Open Scope nat_scope.

Notation all_finished ps := (Forall (fun p => finished p = true) ps).

(** The log.  [mixed] lists the batches in the order in which they reached the log, each
    with its process: the batches of process [i] are exactly what its calls add, in order,
    computed from its own calls and its own unfinished line alone; its unfinished line at
    the end is its own too; and the log is the last [m] of all these records. *)
Theorem C39_shared_log :
  forall n name fl bs m css s0 sch ps s' l v,
  sharing n name fl bs -> (forall i, i < n -> b_max (bs i) = m) ->
  length css = n -> lks s0 = ∅ -> Forall (Forall logging) css ->
  records name (files (dat s0)) l -> length l <= m ->
  (forall i, i < n -> is_open (bs i) (dat s0) /\ unfinished name (b_tmp (bs i)) (files (dat s0)) = v i /\
             no_break (v i) /\ utf8 (v i)) ->
  sched_run sch (fb_pool bs css, s0) = Some (ps, s') -> all_finished ps ->
  exists mixed : list (nat * list text),
    Forall (fun e => fst e < n) mixed /\
    (forall i cs, nth_error css i = Some cs ->
       adds_all cs (v i) (events_of i mixed) (unfinished name (b_tmp (bs i)) (files (dat s')))) /\
    records name (files (dat s')) (last_items m (l ++ concat (map snd mixed))).
Proof. exact shared_log. Qed.
Print Assumptions C39_shared_log.

(** All calls, clear() and close() included; [o i]: the buffer of process [i] is open.  Each
    entry of [mixed] is what one call did to the log: it added records or removed all of
    them.  What the calls of process [i] do is computed from its own calls, its own
    unfinished line and its own flag alone; clear() in one process neither touches the
    unfinished line of another one nor opens or closes anything. *)
Theorem C39_shared_log_all_calls :
  forall n name fl bs m css s0 sch ps s' l v o,
  sharing n name fl bs -> (forall i, i < n -> b_max (bs i) = m) ->
  length css = n -> lks s0 = ∅ -> Forall (Forall (encodes name)) css ->
  records name (files (dat s0)) l -> length l <= m ->
  (forall i, i < n -> open_flag (bs i) (dat s0) (o i) /\ unfinished name (b_tmp (bs i)) (files (dat s0)) = v i /\
             no_break (v i) /\ utf8 (v i)) ->
  sched_run sch (fb_pool bs css, s0) = Some (ps, s') -> all_finished ps ->
  exists (mixed : list (nat * effect)) (o' : nat -> bool),
    Forall (fun e => fst e < n) mixed /\
    (forall i cs, nth_error css i = Some cs ->
       open_flag (bs i) (dat s') (o' i) /\
       does_all cs (v i, o i) (events_of i mixed) (unfinished name (b_tmp (bs i)) (files (dat s')), o' i)) /\
    records name (files (dat s')) (log_after m l (map snd mixed)).
Proof. exact shared_log_all. Qed.
Print Assumptions C39_shared_log_all_calls.

(** All calls, from any directory, whatever the maxlen of each: the results and the final
    directory are those of some sequential order of the calls. *)
Theorem C39_serializable :
  forall n name fl bs css s0 sch ps s',
  sharing n name fl bs -> length css = n -> lks s0 = ∅ ->
  sched_run sch (fb_pool bs css, s0) = Some (ps, s') -> all_finished ps ->
  exists order : list (nat * fcall),
    order_of css order /\
    snd (fb_hist bs order s0) = s' /\
    (forall i p, nth_error ps i = Some p ->
       p = Ret (events_of i (combine (map fst order) (fst (fb_hist bs order s0))))).
Proof. intros n name fl bs css s0 sch ps s' H. exact (serializable n name fl bs H css s0 sch ps s'). Qed.
Print Assumptions C39_serializable.

(** All calls: whatever happened so far, either everything is finished and no lock is
    held, or some process can go on. *)
Theorem C39_no_deadlock :
  forall n name fl bs css d0 sch ps s',
  sharing n name fl bs -> length css = n ->
  sched_run sch (fb_pool bs css, mkst d0 ∅) = Some (ps, s') ->
  (all_finished ps /\ lks s' = ∅) \/ (exists i c, cstep i (ps, s') = Some c).
Proof. intros n name fl bs css d0 sch ps s' H. exact (no_deadlock n name fl bs H css d0 sch ps s'). Qed.
Print Assumptions C39_no_deadlock.

(** ** Two processes, log of at most 2 records *)
Definition x_bufs (i : nat) : fbuf :=
  mkfb i (txt "log") (match i with 0 => txt "A" | _ => txt "B" end) 2 0 (match i with 0 => 2 | _ => 4 end).
Example x_sharing : sharing 2 (txt "log") 0 x_bufs.
Proof.
  split; [reflexivity| |].
  - intros [|[|i]] Hi; [| |lia]; cbn; repeat split; lia.
  - intros [|[|i]] [|[|j]] Hi Hj Hne; try lia; cbn; split; discriminate || lia.
Qed.
Definition nl : text := [LF].
Definition x_calls : list (list fcall) :=
  [[XWrite (txt "a"); XWrite (txt "1" ++ nl ++ txt "z")]; [XWrite (txt "b" ++ nl); XNewLine; XRead None]].
Fact ascii_utf8 s : forallb (fun c => (c <? 55296)%N) s = true -> utf8 s.
Proof.
  intros Hs. apply List.Forall_forall. intros c Hc. rewrite forallb_forall in Hs. specialize (Hs c Hc).
  apply N.ltb_lt in Hs. lia.
Qed.
Example x_logging : Forall (Forall logging) x_calls.
Proof.
  unfold x_calls. repeat match goal with |- Forall _ (_ :: _) => apply List.Forall_cons | |- Forall _ [] => apply List.Forall_nil end;
    cbn [logging]; try exact I; apply ascii_utf8; reflexivity.
Qed.

Definition x_end (sch : list nat) :=
  option_map (fun c => (map (fun p => match p with Ret r => Some r | _ => None end) (fst c),
                        map (fun f => files (dat (snd c)) !! (f : text))
                          [txt "log-0.log"; txt "log-1.log"; txt "log-2.log"; txt "log-A.tmp"; txt "log-B.tmp"]))
    (sched_run sch (fb_pool x_bufs x_calls, no_files)).

(** Process 1 finds the lock of the records taken by process 0 for a while: the steps are
    taken in turns as far as the locks allow. *)
Fixpoint turns (fuel : nat) (c : list (prog fcmd (list (outcome fres))) * st fdir) : list nat :=
  match fuel with
  | O => []
  | S fuel' =>
      match cstep (fuel mod 2) c with
      | Some c1 => (fuel mod 2) :: turns fuel' c1
      | None => match cstep (S fuel mod 2) c with
                | Some c1 => (S fuel mod 2) :: turns fuel' c1
                | None => []
                end
      end
  end.
Example C39_case :
  x_end (turns 200 (fb_pool x_bufs x_calls, no_files)) =
  Some ([Some [Good (VNat 1); Good (VNat 1)]; Some [Good (VNat 0); Good VUnit; Good (VTexts [txt "b"; txt "a1"])]],
        [Some (txt "a1"); Some (txt "b"); None; Some (txt "z"); Some []]).
Proof. vm_compute. reflexivity. Qed.
Example C39_case_adds :
  adds_all (nth 0 x_calls []) [] [[]; [txt "a1"]] (txt "z") /\
  adds_all (nth 1 x_calls []) [] [[txt "b"]; []; []] [].
Proof.
  assert (Hn : forall s, forallb (fun c => (32 <? c)%N && (c <? 128)%N) s = true -> no_break s).
  { intros s Hs. apply List.Forall_forall. intros c Hc. rewrite forallb_forall in Hs. specialize (Hs c Hc).
    apply andb_prop in Hs. destruct Hs as [H1 H2]. apply N.ltb_lt in H1, H2. unfold line_break. lia. }
  split.
  - apply adds_cons with (v1 := txt "a").
    + apply (add_part (txt "a") (txt "a") []); [apply ascii_utf8; reflexivity|]. constructor. apply Hn. reflexivity.
    + apply adds_cons with (v1 := txt "z"); [|constructor].
      apply (add_lines (txt "1" ++ nl ++ txt "z") (txt "1") [] (txt "z") (txt "a")); [apply ascii_utf8; reflexivity|].
      apply seg_line; [apply Hn; reflexivity| |constructor; apply Hn; reflexivity]. apply term_one; [left; reflexivity|]. intros [E _]. discriminate.
  - apply adds_cons with (v1 := []).
    + apply (add_lines (txt "b" ++ nl) (txt "b") [] [] []); [apply ascii_utf8; reflexivity|].
      apply (seg_line (txt "b") nl [] [] []); [apply Hn; reflexivity| |constructor; apply Hn; reflexivity].
      apply term_one; [left; reflexivity|]. intros [E _]. discriminate.
    + apply adds_cons with (v1 := []); [apply (add_new_line [])|].
      apply adds_cons with (v1 := []); [apply add_nothing; exact I|constructor].
Qed.

(** Process 1 empties the log while process 0 is writing, then closes. *)
Definition x_calls2 : list (list fcall) :=
  [[XWrite (txt "a" ++ nl); XWrite (txt "b")]; [XWrite (txt "c"); XClear; XWrite (txt "d"); XClose None; XWrite (txt "e")]].
Example C39_case_clear :
  let c := sched_run (turns 300 (fb_pool x_bufs x_calls2, no_files)) (fb_pool x_bufs x_calls2, no_files) in
  option_map (fun c => (map (fun p => match p with Ret r => Some r | _ => None end) (fst c),
                        map (fun f => files (dat (snd c)) !! (f : text))
                          [txt "log-0.log"; txt "log-1.log"; txt "log-A.tmp"; txt "log-B.tmp"])) c =
  Some ([Some [Good (VNat 0); Good (VNat 1)]; Some [Good (VNat 1); Good VUnit; Good (VNat 1); Good VUnit; Fail OSError]],
        [Some (txt "d"); None; Some (txt "b"); Some []]).
Proof. vm_compute. reflexivity. Qed.
Example C39_case_encodes : Forall (Forall (encodes (txt "log"))) x_calls2.
Proof.
  unfold x_calls2. repeat match goal with |- Forall _ (_ :: _) => apply List.Forall_cons | |- Forall _ [] => apply List.Forall_nil end;
    cbn [encodes]; try exact I; try (apply ascii_utf8; reflexivity).
  repeat (apply List.Forall_cons; [repeat split; discriminate|]). apply List.Forall_nil.
Qed.
Example C39_case_does :
  does_all (nth 1 x_calls2 []) ([], true) [Adds []; Wipes; Adds []; Adds [txt "d"]; Adds []] ([], false) /\
  log_after 2 [] [Adds [txt "a"]; Adds []; Wipes; Adds []; Adds [txt "d"]; Adds []] = [txt "d"].
Proof.
  split; [|reflexivity].
  assert (Hn : forall s, forallb (fun c => (32 <? c)%N && (c <? 128)%N) s = true -> no_break s).
  { intros s Hs. apply List.Forall_forall. intros c Hc. rewrite forallb_forall in Hs. specialize (Hs c Hc).
    apply andb_prop in Hs. destruct Hs as [H1 H2]. apply N.ltb_lt in H1, H2. unfold line_break. lia. }
  apply does_cons with (p1 := (txt "c", true)).
  { apply do_adds, (add_part (txt "c") (txt "c") []); [apply ascii_utf8; reflexivity|]. constructor. apply Hn. reflexivity. }
  apply does_cons with (p1 := ([], true)); [apply do_clear|].
  apply does_cons with (p1 := (txt "d", true)).
  { apply do_adds, (add_part (txt "d") (txt "d") []); [apply ascii_utf8; reflexivity|]. constructor. apply Hn. reflexivity. }
  apply does_cons with (p1 := ([], false)); [apply (do_close (txt "d"))|].
  apply does_cons with (p1 := ([], false)); [apply do_closed; discriminate|constructor].
Qed.
