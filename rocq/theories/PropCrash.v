(** * PropCrash: LineFileBuffer when the process dies in the middle of a call (C40, C41) *)
From stdpp Require Import gmap.
From Coq Require Import String.
From Coq Require Import List NArith ZArith Bool Arith Lia.
From Verif Require Import PyStr Prog PyIO Base Spec SpecFacts LineBuf FileBuf FileFacts FileSpec FileStmt FileProofs CrashSpec FileCrash.
Import ListNotations.
Local Open Scope nat_scope.

(** ** C40 *)

(** The process dies after any number [j] of commands (every single character that is
    written is a command of its own) of write(data), called with the log [l] and the
    unfinished line [v] on disk: the records are [intact], no other file is touched, and
    the temporary file is changed only when no line is completed (text is appended) or
    after all lines are recorded. *)
Theorem C40_crash_in_write :
  forall b t k fs cl l data ls r, wf_fbuf b -> unlocked b k ->
  length l <= b_max b -> records (b_name b) fs l ->
  utf8 data -> utf8 (unfinished (b_name b) (b_tmp b) fs) -> no_cr (unfinished (b_name b) (b_tmp b) fs) ->
  segments data ls r ->
  let v := unfinished (b_name b) (b_tmp b) fs in
  let lines := match ls with [] => [] | l1 :: ls' => (v ++ l1) :: ls' end in
  forall j, let fs' := files (dat (prefix_run t j (fb_write b data) (mkst (mkfdir fs cl) k))) in
    intact (b_name b) (b_max b) fs' l lines /\
    (forall y, y <> temp_file (b_name b) (b_tmp b) -> (forall i, y <> record_file (b_name b) i) -> fs' !! y = fs !! y) /\
    (fs' !! temp_file (b_name b) (b_tmp b) = fs !! temp_file (b_name b) (b_tmp b) \/
     (lines = [] /\ exists p, prefix_of p r /\ unfinished (b_name b) (b_tmp b) fs' = v ++ p) \/
     (records (b_name b) fs' (last_items (b_max b) (l ++ lines)) /\
      prefix_of (unfinished (b_name b) (b_tmp b) fs') r)).
Proof. exact c40. Qed.
Print Assumptions C40_crash_in_write.

Theorem C40_crash_in_send_exc :
  forall b t k fs cl l e r, wf_fbuf b -> unlocked b k ->
  length l <= b_max b -> records (b_name b) fs l -> utf8 (ex_text e) -> exc_record e r ->
  forall j, let fs' := files (dat (prefix_run t j (fb_send_exc b e) (mkst (mkfdir fs cl) k))) in
    intact (b_name b) (b_max b) fs' l [r] /\
    (forall y, (forall i, y <> record_file (b_name b) i) -> fs' !! y = fs !! y).
Proof. exact c40_exc. Qed.
Print Assumptions C40_crash_in_send_exc.

(** ** C41 *)

(** A run with one crash: [h] completely, then [j] commands of write(data); the lock files
    are free again when the process is gone; then [h'] by another process. *)
Definition crash_run (bs : nat -> fbuf) (h : list (nat * fcall)) (j : nat) (data : text)
  (h' : list (nat * fcall)) : list (outcome fres) :=
  let s := snd (fb_hist bs h no_files) in
  let s' := mkst (dat (prefix_run 0 j (fb_write (bs 0) data) s)) ∅ in
  fst (fb_hist bs h' s').
Definition nl (s : string) : text := txt s ++ [10%N].
(** Process 0 crashes, process 1 comes afterwards with the same path and tmp_id. *)
Definition restart (m i : nat) : fbuf := mkfb i (txt "log") (txt "t") m 0 2.

(** All records are invisible after a crash, and come back with the next line. *)
Theorem C41_records_hidden_refuted :
  exists j,
  crash_run (restart 5) [(0, XWrite (nl "a" ++ nl "b"))] j (nl "c")
    [(1, XRead None); (1, XWrite (nl "d")); (1, XRead None)] =
  [Good (VTexts []); Good (VNat 0); Good (VTexts [txt "a"; txt "b"; txt "d"])].
Proof. exists 15. vm_compute. reflexivity. Qed.
Print Assumptions C41_records_hidden_refuted.

(** The line "c" is recorded, and stays in the temporary file: it is read twice, and is
    also prepended to the next line. *)
Theorem C41_line_twice_refuted :
  exists j,
  crash_run (restart 5) [(0, XWrite (txt "c"))] j (nl "")
    [(1, XRead None); (1, XWrite (nl "d")); (1, XRead None)] =
  [Good (VTexts [txt "c"; txt "c"]); Good (VNat 0); Good (VTexts [txt "c"; txt "cd"])].
Proof. exists 14. vm_compute. reflexivity. Qed.
Print Assumptions C41_line_twice_refuted.

(** A record that was just created is left incomplete (here: "b" of "bcd"). *)
Theorem C41_torn_record_refuted :
  exists j,
  crash_run (restart 5) [(0, XWrite (nl "a"))] j (nl "bcd") [(1, XRead None)] =
  [Good (VTexts [txt "a"; txt "b"])].
Proof. exists 16. vm_compute. reflexivity. Qed.
Print Assumptions C41_torn_record_refuted.

(** One crash while two lines are written to a full log; the next line closes the gap and
    read() gives "3" before "2". *)
Theorem C41_order_refuted :
  exists j,
  crash_run (restart 5) [(0, XWrite (nl "1" ++ nl "2" ++ nl "3" ++ nl "4" ++ nl "5"))] j (nl "6" ++ nl "7")
    [(1, XWrite (nl "8")); (1, XRead None)] =
  [Good (VNat 0); Good (VTexts [txt "3"; txt "2"; txt "4"; txt "5"; txt "8"])].
Proof. exists 14. vm_compute. reflexivity. Qed.
Print Assumptions C41_order_refuted.

(** ** Non-vacuity of C40 *)

Definition crash_fs : directory :=
  <[record_file (txt "log") 0 := txt "b"]> (<[record_file (txt "log") 1 := txt "a"]> (<[temp_file (txt "log") (txt "t") := txt "u"]> ∅)).
Example C40_case_records :
  records (txt "log") crash_fs [txt "a"; txt "b"] /\ unfinished (txt "log") (txt "t") crash_fs = txt "u" /\
  segments (nl "vw") [txt "vw"] [].
Proof.
  split; [|split; [vm_compute; reflexivity|exact (seg_segments (nl "vw"))]].
  intros n. unfold crash_fs. destruct n as [|[|n]]; [vm_compute; reflexivity|vm_compute; reflexivity|].
  rewrite !lookup_insert_ne; [destruct n; reflexivity|..].
  - intros E. symmetry in E. exact (rec_tmp (restart 5 0) (S (S n)) (restart 5 0) E).
  - intros E. apply (rec_name_inj (restart 5 0)) in E. discriminate.
  - intros E. apply (rec_name_inj (restart 5 0)) in E. discriminate.
Qed.
Example C40_case :
  let b := restart 5 0 in
  let r := files (dat (prefix_run 0 19 (fb_write b (nl "vw")) (mkst (mkfdir crash_fs ∅) ∅))) in
  map (fun i => r !! record_file (txt "log") i) [0; 1; 2; 3] = [Some (txt "uv"); Some (txt "b"); Some (txt "a"); None].
Proof. vm_compute. reflexivity. Qed.
