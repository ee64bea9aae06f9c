(** * PropFlakyFile: LineFileBuffer methods that are left in the middle (C109) *)
From stdpp Require Import gmap.
From Coq Require Import String.
From Coq Require Import List NArith ZArith Bool Arith Lia.
From Verif Require Import PyStr Prog PyIO Base Spec SpecFacts LineBuf FileBuf FileFacts FileSpec FileStmt CrashSpec Flaky FlakySpec FlakyFacts FlakyFileSpec FlakyFile.
Import ListNotations.
Local Open Scope nat_scope.

(** ** C109 *)

(** In the following: the process dies at any point of the call, or an exception from outside
    leaves it at any point ([file_left]); in the second case the call ends and its locks are
    released.  [wfk k]: the lock table is well formed. *)

(** new_line() of an open buffer with the unfinished line [v] and the records [l].  With an
    empty [v] no file changes.  Otherwise the records are intact (as in C40), files of others
    are unchanged, and the temporary file is unchanged unless the line is recorded. *)
Theorem C109_new_line : forall b t k, wf_fbuf b -> unlocked b k -> wfk k ->
  forall d l v, is_open b d -> log_holds b l v d ->
  file_left b t XNewLine d k (fun d' => fclosed d' = fclosed d /\ new_line_left b l v d d').
Proof. exact c109_new_line. Qed.
Print Assumptions C109_new_line.

(** The hypotheses hold for a log with the records "a", "b" and the unfinished line "u". *)
Definition log5 : fbuf := mkfb 0 (txt "log") (txt "t") 5 0 2.
Definition ab_u : st fdir :=
  mkst (mkfdir (<[temp_file (txt "log") (txt "t") := txt "u"]>
    (<[record_file (txt "log") 0 := txt "b"]> (<[record_file (txt "log") 1 := txt "a"]> ∅))) ∅) ∅.
Example C109_case : wf_fbuf log5 /\ unlocked log5 (lks ab_u) /\ wfk (lks ab_u) /\ is_open log5 (dat ab_u) /\
  log_holds log5 [txt "a"; txt "b"] (txt "u") (dat ab_u) /\ plain (b_name log5).
Proof.
  split; [split; simpl; [lia|discriminate]|]. split; [split; reflexivity|]. split; [exact wfk_empty|].
  split; [reflexivity|]. split; [|repeat constructor; discriminate].
  split; [simpl; lia|]. split; [|split; [vm_compute; reflexivity|split; [repeat constructor; vm_compute; intros [? ?]; congruence|]]].
  - intros n. unfold ab_u. cbn [dat files]. destruct n as [|[|n]]; [vm_compute; reflexivity|vm_compute; reflexivity|].
    rewrite !lookup_insert_ne; [destruct n; reflexivity|..].
    + intros H. apply (rec_name_inj log5) in H. discriminate.
    + intros H. apply (rec_name_inj log5) in H. discriminate.
    + intros H. symmetry in H. exact (rec_tmp log5 (S (S n)) log5 H).
  - intros [H|[]]. discriminate.
Qed.
(** close() left after the line is recorded and before the buffer is closed; and by an
    exception that comes at the end. *)
Example C109_case_close :
  let seen s := (map (fun i => files s !! record_file (txt "log") i) [0; 1; 2], files s !! tmp_of log5, fclosed s !! 0) in
  seen (dat (prefix_run 0 20 (fb_call log5 (XClose None)) ab_u)) = ([Some (txt "u"); Some (txt "b"); Some (txt "a")], Some (txt "u"), None) /\
  seen (dat (prefix_run 0 100 (fb_call log5 (XClose None)) ab_u)) = ([Some (txt "u"); Some (txt "b"); Some (txt "a")], Some [], Some tt).
Proof. vm_compute. split; reflexivity. Qed.

(** send_exc(): the records are intact, every other file (the unfinished line) is unchanged. *)
Theorem C109_send_exc : forall b t k, wf_fbuf b -> unlocked b k -> wfk k ->
  forall d l v, is_open b d -> log_holds b l v d -> forall e r, utf8 (ex_text e) -> exc_record e r ->
  file_left b t (XSendExc e) d k (fun d' => fclosed d' = fclosed d /\ exc_left b l r d d').
Proof. exact c109_send_exc. Qed.
Print Assumptions C109_send_exc.

(** close(): as new_line(); the buffer is closed only when its unfinished line is recorded. *)
Theorem C109_close : forall b t k, wf_fbuf b -> unlocked b k -> wfk k ->
  forall d l v, is_open b d -> log_holds b l v d ->
  file_left b t (XClose None) d k (fun d' => new_line_left b l v d d' /\
    (fclosed d' = fclosed d \/
     (fclosed d' = <[b_id b := tt]> (fclosed d) /\ (v <> [] -> line_done b l v d')))).
Proof. exact c109_close. Qed.
Print Assumptions C109_close.

(** close(exc): as send_exc(); the buffer is closed only when the exception is recorded. *)
Theorem C109_close_exc : forall b t k, wf_fbuf b -> unlocked b k -> wfk k ->
  forall d l v, is_open b d -> log_holds b l v d -> forall e r, utf8 (ex_text e) -> exc_record e r ->
  file_left b t (XClose (Some e)) d k (fun d' => exc_left b l r d d' /\
    (fclosed d' = fclosed d \/
     (fclosed d' = <[b_id b := tt]> (fclosed d) /\ records (b_name b) (files d') (last_items (b_max b) (l ++ [r]))))).
Proof. exact c109_close_exc. Qed.
Print Assumptions C109_close_exc.

(** clear(), in any state: every file is unchanged or removed; only files <name>-<anything>.log
    and the temporary file are removed, and the temporary file last. *)
Theorem C109_clear : forall b t k, wf_fbuf b -> unlocked b k -> wfk k ->
  forall d, plain (b_name b) -> file_left b t XClear d k (clear_left b d).
Proof. exact c109_clear. Qed.
Print Assumptions C109_clear.

(** The calls that only look change nothing, in any state; on a closed buffer no call but
    clear() changes anything. *)
Theorem C109_looks : forall b t k, wf_fbuf b -> unlocked b k -> wfk k ->
  forall c d, looks c -> file_left b t c d k (eq d).
Proof. exact c109_looks. Qed.
Print Assumptions C109_looks.
Theorem C109_closed : forall b t k, wf_fbuf b -> unlocked b k -> wfk k ->
  forall c d, is_closed b d -> c <> XClear -> file_left b t c d k (eq d).
Proof. exact c109_closed. Qed.
Print Assumptions C109_closed.

(** If clear() is left after it removed the newest record but not the others, read() finds
    nothing; but the old records come back when the next line is written.  (glob gives the
    files in any order; here it is the order of the model.) *)
Definition three : st fdir :=
  snd (fb_hist (fun _ => log5) [(0, XWrite (txt "1" ++ [10%N] ++ txt "2" ++ [10%N] ++ txt "3" ++ [10%N]))] no_files).
Theorem C109_clear_again_refuted : exists j,
  let s := mkst (dat (prefix_run 0 j (fb_call log5 XClear) three)) ∅ in
  fst (fb_hist (fun _ => log5) [(0, XRead None); (0, XWrite (txt "new" ++ [10%N])); (0, XRead None)] s) =
  [Good (VTexts []); Good (VNat 0); Good (VTexts [txt "1"; txt "2"; txt "new"])].
Proof. exists 3. vm_compute. reflexivity. Qed.
Print Assumptions C109_clear_again_refuted.
