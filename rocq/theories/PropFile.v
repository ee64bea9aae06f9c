(** * PropFile: properties of LineFileBuffer used by one process
    (C14, C34, C37, C38, C42-C46, C69, C70) *)
From stdpp Require Import gmap.
From Coq Require Import String.
From Coq Require Import List NArith ZArith Bool Arith Lia.
From Verif Require Import PyStr Prog PyIO Base Spec LineBuf LineBufSpec FileBuf FileFacts FileMore FileSpec FileStmt FileProofs.
Import ListNotations.
Local Open Scope nat_scope.

(** ** C37 *)

(** On an empty directory every history of calls gives the same answers as on a LineBuffer
    with the same maxlen. *)
Theorem C37_same_answers :
  forall b h, 1 <= b_max b -> b_tl b <> b_fl b -> Forall (fun tc => common b (snd tc)) h ->
  fst (fb_hist (fun _ => b) (file_hist h) (mkst (mkfdir ∅ ∅) ∅)) =
  map (out_map to_fres) (fst (run_hist h (fresh (b_max b)))).
Proof. exact c37_results. Qed.
Print Assumptions C37_same_answers.

(** The files after any history of write, new_line and clear (reading changes nothing, C38):
    one record file for each of the
    last maxlen completed lines (the newest has number 0), the unfinished line in the
    temporary file, and nothing else. *)
Theorem C37_files :
  forall b os g, 1 <= b_max b -> b_tl b <> b_fl b ->
  Forall (fun to => common b (call_of (snd to))) os ->
  log_steps (map snd os) slog0 g ->
  exists fs, snd (fb_hist (fun _ => b) (file_hist (hist_of os)) (mkst (mkfdir ∅ ∅) ∅)) = mkst (mkfdir fs ∅) ∅ /\
    records (b_name b) fs (last_items (b_max b) (map item_text (done g))) /\
    unfinished (b_name b) (b_tmp b) fs = pend g /\
    (forall x, fs !! x <> None ->
       x = temp_file (b_name b) (b_tmp b) \/ exists i, i < Nat.min (b_max b) (length (done g)) /\ x = record_file (b_name b) i).
Proof. exact c37_disk. Qed.
Print Assumptions C37_files.

Definition demo : fbuf := mkfb 0 (txt "log") (txt "t") 2 0 2.
Definition demo_hist : hist :=
  [(0, Write (txt "a" ++ [10%N] ++ txt "b" ++ [13%N; 10%N] ++ txt "c" ++ [10%N] ++ txt "d"));
   (0, Read None); (0, Read (Some 1%Z)); (0, NewLine); (0, Read None); (0, Clear); (0, Read None)].
Example C37_demo :
  fst (fb_hist (fun _ => demo) (file_hist demo_hist) no_files) =
  [Good (VNat 1); Good (VTexts [txt "c"; txt "d"]); Good (VTexts [txt "d"]); Good VUnit;
   Good (VTexts [txt "c"; txt "d"]); Good VUnit; Good (VTexts [])].
Proof. vm_compute. reflexivity. Qed.
Example C37_demo_common : Forall (fun tc => common demo (snd tc)) demo_hist.
Proof.
  assert (Hu : forall s, enc s -> utf8 s) by (intros s; apply utf8_enc).
  assert (Hp : plain (b_name demo)).
  { unfold plain, demo, b_name. repeat apply List.Forall_cons; try apply List.Forall_nil; repeat split; discriminate. }
  unfold demo_hist.
  repeat (apply List.Forall_cons; [first [exact I|exact Hp|apply Hu; vm_compute; reflexivity]|]). apply List.Forall_nil.
Qed.

(** ** C38 *)

(** For every directory: read() returns what is visible, read(n) its last n items, len() its
    length; nothing changes. *)
Theorem C38_read_n_and_len :
  forall b t k fs cl size, 1 <= b_max b -> b_tl b <> b_fl b -> k !! b_tl b = None -> k !! b_fl b = None ->
  cl !! b_id b = None ->
  exists l, sees (b_name b) (b_tmp b) (b_max b) fs l /\
    run t (fb_read b None) (mkst (mkfdir fs cl) k) = (Good l, mkst (mkfdir fs cl) k) /\
    run t (fb_read b (Some size)) (mkst (mkfdir fs cl) k) =
      (Good (if (size <=? 0)%Z then [] else last_items (Z.to_nat size) l), mkst (mkfdir fs cl) k) /\
    run t (fb_len b) (mkst (mkfdir fs cl) k) = (Good (length l), mkst (mkfdir fs cl) k).
Proof. exact c38. Qed.
Print Assumptions C38_read_n_and_len.

(** A directory with a gap (number 2 is missing) and a CR LF inside a record. *)
Definition gap_dir : directory :=
  <[record_file (txt "log") 0 := txt "x" ++ [13%N; 10%N] ++ txt "y"]>
  (<[record_file (txt "log") 1 := txt "w"]> (<[record_file (txt "log") 3 := txt "v"]> ∅)).
Example C38_demo :
  let b := mkfb 0 (txt "log") (txt "t") 5 0 2 in
  (fst (run 0 (fb_read b None) (mkst (mkfdir gap_dir ∅) ∅)),
   fst (run 0 (fb_read b (Some 1%Z)) (mkst (mkfdir gap_dir ∅) ∅)),
   fst (run 0 (fb_len b) (mkst (mkfdir gap_dir ∅) ∅))) =
  (Good [txt "w"; txt "x" ++ [10%N] ++ txt "y"], Good [txt "x" ++ [10%N] ++ txt "y"], Good 2).
Proof. vm_compute. reflexivity. Qed.

(** ** C42 *)

(** For a name without glob characters, clear() removes exactly the files
    <name>-<anything>.log and the temporary file; afterwards read() is empty. *)
Theorem C42_clear :
  forall b, wf_fbuf b -> forall t k d, plain (b_name b) -> unlocked b k ->
  exists fs', run t (fb_clear b) (mkst d k) = (Good tt, mkst (mkfdir fs' (fclosed d)) k) /\
    (forall x, x = temp_file (b_name b) (b_tmp b) \/ (exists mid, x = b_name b ++ txt "-" ++ mid ++ txt ".log") ->
       fs' !! x = None) /\
    (forall x, x <> temp_file (b_name b) (b_tmp b) -> (forall mid, x <> b_name b ++ txt "-" ++ mid ++ txt ".log") ->
       fs' !! x = files d !! x) /\
    (is_open b d -> run t (fb_read b None) (mkst (mkfdir fs' (fclosed d)) k) = (Good [], mkst (mkfdir fs' (fclosed d)) k)).
Proof. exact c42. Qed.
Print Assumptions C42_clear.

(** It removes the records of another log whose name is longer. *)
Definition other : fbuf := mkfb 1 (txt "log-b") (txt "t") 3 4 6.
Definition two_logs (i : nat) : fbuf := if i =? 0 then demo else other.
Theorem C42_isolation_refuted :
  exists h h', b_name (two_logs 0) <> b_name (two_logs 1) /\
  last (fst (fb_hist two_logs h no_files)) (Good VUnit) = Good (VTexts [txt "important"]) /\
  last (fst (fb_hist two_logs h' no_files)) (Good VUnit) = Good (VTexts []) /\
  (exists h1 h2, h = h1 ++ h2 /\ h' = h1 ++ [(0, XClear)] ++ h2).
Proof.
  exists ([(1, XWrite (txt "important" ++ [10%N]))] ++ [(1, XRead None)]),
         ([(1, XWrite (txt "important" ++ [10%N]))] ++ [(0, XClear)] ++ [(1, XRead None)]).
  split; [discriminate|]. split; [vm_compute; reflexivity|]. split; [vm_compute; reflexivity|].
  eexists. eexists. split; reflexivity.
Qed.
Print Assumptions C42_isolation_refuted.

(** With '[' in the name it removes none of its own records. *)
Theorem C42_glob_name_refuted :
  exists b, wf_fbuf b /\
  fst (fb_hist (fun _ => b) [(0, XWrite (txt "old" ++ [10%N])); (0, XClear); (0, XRead None)] no_files) =
  [Good (VNat 0); Good VUnit; Good (VTexts [txt "old"])].
Proof.
  exists (mkfb 0 (txt "log[1]") (txt "t") 3 0 2). split; [split; simpl; [lia|discriminate]|].
  vm_compute. reflexivity.
Qed.
Print Assumptions C42_glob_name_refuted.

(** ** C43 *)

(** The number in the name of a record is decimal, without leading zeros. *)
Theorem C43_number : forall p n x, x = record_file p n <-> exists s, decimal n s /\ x = p ++ txt "-" ++ s ++ txt ".log".
Proof. exact record_file_number. Qed.
Print Assumptions C43_number.
Example C43_number_case : decimal 10 (txt "10").
Proof. apply (dc_more 1 (txt "1") 0); [lia| |lia]. apply (dc_digit 1). lia. Qed.

Theorem C43_record_names :
  forall p q n k, record_file p n = record_file q k -> p = q /\ n = k.
Proof. exact log_name_inj. Qed.
Print Assumptions C43_record_names.

Theorem C43_record_is_not_temp :
  forall p n q t, record_file p n <> temp_file q t.
Proof. exact (fun p n q t => rec_tmp (mkfb 0 p [] 0 0 0) n (mkfb 0 q t 0 0 0)). Qed.
Print Assumptions C43_record_is_not_temp.

Theorem C43_temp_names_of_one_log :
  forall p t t', temp_file p t = temp_file p t' -> t = t'.
Proof. exact (fun p t t' => tmp_name_inj (mkfb 0 p t 0 0 0) (mkfb 0 p t' 0 0 0) eq_refl). Qed.
Print Assumptions C43_temp_names_of_one_log.

Theorem C43_temp_names_refuted :
  exists p t p' t', p <> p' /\ t <> t' /\ temp_file p t = temp_file p' t'.
Proof. exists (txt "a-b"), (txt "c"), (txt "a"), (txt "b-c"). repeat split; discriminate. Qed.
Print Assumptions C43_temp_names_refuted.

(** What the collision means: the unfinished line of one log is recorded in the other. *)
Theorem C43_text_leaks_refuted :
  exists bs, b_name (bs 0) <> b_name (bs 1) /\
  fst (fb_hist bs [(0, XWrite (txt "secret")); (1, XNewLine); (1, XRead None); (0, XRead None)] no_files) =
  [Good (VNat 6); Good VUnit; Good (VTexts [txt "secret"]); Good (VTexts [])].
Proof.
  exists (fun i => if i =? 0 then mkfb 0 (txt "a-b") (txt "c") 5 0 2 else mkfb 1 (txt "a") (txt "b-c") 5 4 2).
  split; [discriminate|]. vm_compute. reflexivity.
Qed.
Print Assumptions C43_text_leaks_refuted.

(** ** C44 *)

(** send_exc puts the text of the exception into one record, number 0; in a log without
    gaps it is the newest record and read() shows it as one item, before the unfinished
    line, which is untouched. *)
Theorem C44_exception_is_one_record :
  forall b, wf_fbuf b -> forall t k d e r, unlocked b k -> is_open b d -> utf8 (ex_text e) -> exc_record e r ->
  exists fs', run t (fb_send_exc b e) (mkst d k) = (Good tt, mkst (mkfdir fs' (fclosed d)) k) /\
    fs' !! record_file (b_name b) 0 = Some r /\
    (forall x, (forall n, x <> record_file (b_name b) n) -> fs' !! x = files d !! x) /\
    (forall l, records (b_name b) (files d) l -> length l <= b_max b ->
       records (b_name b) fs' (last_items (b_max b) (l ++ [r])) /\
       (Forall no_cr l -> no_cr (unfinished (b_name b) (b_tmp b) (files d)) ->
        run t (fb_read b None) (mkst (mkfdir fs' (fclosed d)) k) =
        (Good (last_items (b_max b)
                 (l ++ [r] ++ match unfinished (b_name b) (b_tmp b) (files d) with [] => [] | v => [v] end)),
         mkst (mkfdir fs' (fclosed d)) k))).
Proof. exact c44. Qed.
Print Assumptions C44_exception_is_one_record.

Definition boom : excobj := mkexc ExcOther (txt "line 1" ++ [13%N; 10%N] ++ txt "line 2" ++ [10%N]).
Example C44_demo_record : exc_record boom (txt "line 1" ++ [10%N] ++ txt "line 2").
Proof. apply exc_record_eq. vm_compute. reflexivity. Qed.
Example C44_demo :
  fst (fb_hist (fun _ => demo) [(0, XWrite (txt "a" ++ [10%N])); (0, XSendExc boom); (0, XRead None)] no_files) =
  [Good (VNat 0); Good VUnit; Good (VTexts [txt "a"; txt "line 1" ++ [10%N] ++ txt "line 2"])].
Proof. vm_compute. reflexivity. Qed.

(** Text written before the exception is shown after it. *)
Theorem C44_order_refuted :
  exists b h r, wf_fbuf b /\ exc_record boom r /\
  h = [(0, XWrite (txt "before")); (0, XSendExc boom); (0, XNewLine); (0, XRead None)] /\
  last (fst (fb_hist (fun _ => b) h no_files)) (Good VUnit) = Good (VTexts [r; txt "before"]).
Proof.
  exists demo. eexists. eexists. split; [split; simpl; [lia|discriminate]|]. split; [apply C44_demo_record|].
  split; [reflexivity|]. vm_compute. reflexivity.
Qed.
Print Assumptions C44_order_refuted.

(** close(exc) records the exception and leaves the unfinished line in the temporary file. *)
Theorem C44_close_with_exception :
  forall b, wf_fbuf b -> forall t k d e, unlocked b k -> is_open b d -> utf8 (ex_text e) ->
  utf8 (unfinished (b_name b) (b_tmp b) (files d)) -> no_cr (unfinished (b_name b) (b_tmp b) (files d)) ->
  exists fs', run t (fb_close b (Some e)) (mkst d k) = (Good tt, mkst (mkfdir fs' (<[b_id b := tt]> (fclosed d))) k) /\
    fs' !! temp_file (b_name b) (b_tmp b) = files d !! temp_file (b_name b) (b_tmp b) /\
    (forall l, records (b_name b) (files d) l -> length l <= b_max b -> forall r, exc_record e r ->
       records (b_name b) fs' (last_items (b_max b) (l ++ [r]))).
Proof. exact c44_close. Qed.
Print Assumptions C44_close_with_exception.

(** ** C45 *)

(** A closed buffer answers every call except clear() like this, and changes nothing. *)
Theorem C45_closed_answers :
  forall b, wf_fbuf b -> forall t k d c, unlocked b k -> is_closed b d -> c <> XClear ->
  exists l, sees (b_name b) (b_tmp b) (b_max b) (files d) l /\
    run t (fb_call b c) (mkst d k) = (closed_file_answer b (length l) c, mkst d k).
Proof. exact c45_answers. Qed.
Print Assumptions C45_closed_answers.

(** It stays closed whatever calls of whatever buffers follow. *)
Theorem C45_closed_forever :
  forall bs h b s, is_closed b (dat s) -> is_closed b (dat (snd (fb_hist bs h s))).
Proof. exact c45_forever. Qed.
Print Assumptions C45_closed_forever.

(** close() turns the unfinished line into a record. *)
Theorem C45_close_flushes :
  forall b t k d, wf_fbuf b -> unlocked b k -> is_open b d ->
  utf8 (unfinished (b_name b) (b_tmp b) (files d)) -> no_cr (unfinished (b_name b) (b_tmp b) (files d)) ->
  exists fs', run t (fb_close b None) (mkst d k) = (Good tt, mkst (mkfdir fs' (<[b_id b := tt]> (fclosed d))) k) /\
    unfinished (b_name b) (b_tmp b) fs' = [] /\
    (forall l, records (b_name b) (files d) l -> length l <= b_max b ->
       records (b_name b) fs'
         (last_items (b_max b) (l ++ match unfinished (b_name b) (b_tmp b) (files d) with [] => [] | v => [v] end))).
Proof. exact c45_close. Qed.
Print Assumptions C45_close_flushes.

Example C45_demo :
  fst (fb_hist (fun i => mkfb i (txt "log") (dec_of_nat i) 3 0 (2 + 2 * i))
         [(0, XWrite (txt "tail")); (0, XClose None); (0, XClosed); (0, XWrite (txt "x")); (0, XRead None);
          (0, XNewLine); (0, XLen); (1, XRead None); (0, XClear); (1, XRead None)] no_files) =
  [Good (VNat 4); Good VUnit; Good (VBool true); Fail OSError; Fail OSError; Good VUnit; Good (VNat 1);
   Good (VTexts [txt "tail"]); Good VUnit; Good (VTexts [])].
Proof. vm_compute. reflexivity. Qed.

(** ** C46 *)

(** Whatever the number of records, a buffer shows the newest ones its maxlen allows. *)
Theorem C46_sees_newest :
  forall b t k d l, wf_fbuf b -> unlocked b k -> is_open b d ->
  records (b_name b) (files d) l -> Forall no_cr l -> no_cr (unfinished (b_name b) (b_tmp b) (files d)) ->
  run t (fb_read b None) (mkst d k) =
  (Good (last_items (b_max b) (l ++ match unfinished (b_name b) (b_tmp b) (files d) with [] => [] | v => [v] end)),
   mkst d k).
Proof. exact c46_sees. Qed.
Print Assumptions C46_sees_newest.

(** Writing through a buffer with maxlen m into a log of any length keeps the records
    beyond m where they are, and drops records in front of the last m; what remains is in
    order. *)
Theorem C46_write_keeps_order :
  forall b t k d l data l1 ls r, wf_fbuf b -> unlocked b k -> is_open b d ->
  records (b_name b) (files d) l -> utf8 data ->
  utf8 (unfinished (b_name b) (b_tmp b) (files d)) -> no_cr (unfinished (b_name b) (b_tmp b) (files d)) ->
  segments data (l1 :: ls) r ->
  let lines := (unfinished (b_name b) (b_tmp b) (files d) ++ l1) :: ls in
  exists n fs', run t (fb_write b data) (mkst d k) = (Good n, mkst (mkfdir fs' (fclosed d)) k) /\
    unfinished (b_name b) (b_tmp b) fs' = r /\
    records (b_name b) fs' (firstn (length l - b_max b) l ++ last_items (b_max b) (l ++ lines)) /\
    subseq (firstn (length l - b_max b) l ++ last_items (b_max b) (l ++ lines)) (l ++ lines).
Proof. exact c46_write. Qed.
Print Assumptions C46_write_keeps_order.

(** A record in the middle is lost. *)
Theorem C46_drops_middle_refuted :
  exists bs, b_name (bs 0) = b_name (bs 1) /\ b_max (bs 0) = 4 /\ b_max (bs 1) = 2 /\
  fst (fb_hist bs [(0, XWrite (txt "1" ++ [10%N] ++ txt "2" ++ [10%N] ++ txt "3" ++ [10%N] ++ txt "4" ++ [10%N]));
                   (1, XWrite (txt "5" ++ [10%N])); (0, XRead None)] no_files) =
  [Good (VNat 0); Good (VNat 0); Good (VTexts [txt "1"; txt "2"; txt "4"; txt "5"])].
Proof.
  exists (fun i => if i =? 0 then mkfb 0 (txt "log") (txt "p") 4 0 2 else mkfb 1 (txt "log") (txt "q") 2 0 4).
  repeat split.
Qed.
Print Assumptions C46_drops_middle_refuted.

(** ** C14, C34: the file class *)

Theorem C14_file_maxlen :
  forall p v t, match fb_init p v t with
                | Good (_, _, _, n) => exists z, as_int v = Some z /\ (1 <= z)%Z /\ n = Z.to_nat z
                | Fail e => e = TypeError
                | Block => False
                end.
Proof. exact c14_file. Qed.
Print Assumptions C14_file_maxlen.
Theorem C14_file_maxlen_constant :
  forall b t s, run t (fb_call b XMaxlen) s = (Good (VNat (b_max b)), s).
Proof. reflexivity. Qed.
Print Assumptions C14_file_maxlen_constant.
Example C14_file_demo :
  fb_init (txt " /var/log/run.txt ") (PyInt 7) (txt "w1") = Good (txt "/var/log", txt "run", txt "w1", 7) /\
  fb_init (txt "run") (PyInt 0) (txt "w1") = Fail TypeError.
Proof. split; vm_compute; reflexivity. Qed.

Theorem C34_file_fileno_seek :
  forall b t s, run t (fb_call b XFileno) s = (Fail OSError, s) /\ run t (fb_call b XSeek) s = (Fail OSError, s).
Proof. intros. split; reflexivity. Qed.
Print Assumptions C34_file_fileno_seek.

(** ** C69 *)

(** Two paths that differ only in the suffix (the part after the last dot of the file
    name) give buffers on the same files. *)
Theorem C69_suffix_is_ignored :
  forall dir base e1 e2 v t, (dir = [] \/ exists d, dir = d ++ [slash]) -> ~ In slash base ->
  (exists c, In c base /\ c <> dot) ->
  ~ space (hd 0%N (dir ++ base)) ->
  (~ In slash e1 /\ ~ In dot e1 /\ Forall (fun c => ~ space c) e1) ->
  (~ In slash e2 /\ ~ In dot e2 /\ Forall (fun c => ~ space c) e2) ->
  fb_init (dir ++ base ++ dot :: e1) v t = fb_init (dir ++ base ++ dot :: e2) v t.
Proof. exact c69. Qed.
Print Assumptions C69_suffix_is_ignored.
Theorem C69_distinct_paths_refuted :
  exists p q, p <> q /\ forall t, t <> [] ->
  fb_init p (PyInt 5) t = fb_init q (PyInt 5) t /\ fb_init p (PyInt 5) t = Good ([dot], txt "run-2024.01", t, 5).
Proof.
  exists (txt "run-2024.01.30"), (txt "run-2024.01.31"). split; [discriminate|]. intros [|c t] H; [congruence|].
  split; reflexivity.
Qed.
Print Assumptions C69_distinct_paths_refuted.

(** ** C70 *)

(** Writing an unfinished line that UTF-8 cannot encode raises UnicodeEncodeError (a
    ValueError) and leaves records and unfinished line as they were. *)
Theorem C70_unencodable_line :
  forall b t k d data, wf_fbuf b -> unlocked b k -> is_open b d -> segments data [] data -> ~ utf8 data ->
  exists fs', run t (fb_write b data) (mkst d k) = (Fail ValueError, mkst (mkfdir fs' (fclosed d)) k) /\
    (forall x, x <> temp_file (b_name b) (b_tmp b) -> fs' !! x = files d !! x) /\
    unfinished (b_name b) (b_tmp b) fs' = unfinished (b_name b) (b_tmp b) (files d).
Proof. exact c70. Qed.
Print Assumptions C70_unencodable_line.

(** But with two completed lines, all earlier records become invisible: they have been
    renumbered and number 0 was never written. *)
Theorem C70_failed_write_hides_records_refuted :
  exists b data, wf_fbuf b /\
  fst (fb_hist (fun _ => b) [(0, XWrite (txt "old" ++ [10%N])); (0, XRead None);
                             (0, XWrite data); (0, XRead None)] no_files) =
  [Good (VNat 0); Good (VTexts [txt "old"]); Fail ValueError; Good (VTexts [])].
Proof.
  exists (mkfb 0 (txt "log") (txt "t") 9 0 2), ([55296%N; 10%N] ++ txt "x" ++ [10%N]).
  split; [split; simpl; [lia|discriminate]|]. vm_compute. reflexivity.
Qed.
Print Assumptions C70_failed_write_hides_records_refuted.
