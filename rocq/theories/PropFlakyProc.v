(** * PropFlakyProc: exceptions inside LineProcMirror and LineProcBuffer (C106)

    An exception may come before any command of a method of a mirror or of the buffer
    (KeyboardInterrupt, MemoryError, a broken connection to the manager process); the calls
    are those of PropFlaky.v.  [sys_left t c d fs P]: the call [c] of thread [t], left by the
    first of [fs] that comes or not, ends, no lock is held, and [P] is true of the system
    after it.  [open_mirror i d v]: mirror [i] is open and holds the text [v];
    [mir_left t i c d fs L]: the call of mirror [i] leaves a held text and a queue that [L]
    allows, and nothing else changes.  [main_is m q v d]: the buffer is open, with the
    records [q] and the unfinished text [v] (FlakyProcSpec.v).  Proofs are in
    FlakyProcMir.v, FlakyProcMain.v and FlakyProcAlways.v. *)
From stdpp Require Import gmap relations.
From Coq Require Import String.
From Coq Require Import List NArith ZArith Bool Arith.
From Verif Require Import PyStr Prog PyIO Base Spec LineBuf Proc ProcSpec ProcRun CountSpec Flaky FlakySpec FlakyProcSpec FlakyProcMir FlakyProcMain FlakyProcAlways
  PropProc PropFlaky.
Import ListNotations.
Local Open Scope nat_scope.

(** ** C106: mirrors *)
Theorem C106_write : forall i d v t fs, open_mirror i d v -> forall data,
  mir_left t i (CWrite data) d fs (write_left (m_aggr (mir_at d i)) v data (queue_of i d)).
Proof. exact c106_write. Qed.
Print Assumptions C106_write.
Theorem C106_new_line : forall i d v t fs, open_mirror i d v ->
  mir_left t i CNewLine d fs (line_left (m_aggr (mir_at d i)) v (queue_of i d)).
Proof. exact c106_new_line. Qed.
Print Assumptions C106_new_line.
Theorem C106_send_data : forall i d v t fs, open_mirror i d v -> forall x,
  mir_left t i (CSendData x) d fs (fun b q' => b = at_end v /\ (q' = queue_of i d \/ q' = queue_of i d ++ [QStr x])).
Proof. exact c106_send_data. Qed.
Print Assumptions C106_send_data.
(** send_eof, send_error, send_warning: the message is sent at most once, and then the
    current line was sent before it. *)
Theorem C106_signal : forall i d v t fs, open_mirror i d v -> forall c x,
  (c = CEof /\ x = QClose) \/
  (exists e, (c = CError e /\ x = QError (gm_init (GMExc e))) \/ (c = CWarning e /\ x = QWarning (gm_init (GMExc e)))) ->
  mir_left t i c d fs (signal_left (m_aggr (mir_at d i)) v (queue_of i d) x).
Proof. exact c106_signal. Qed.
Print Assumptions C106_signal.
(** close(): the mirror is closed only after the end signal is sent. *)
Theorem C106_close : forall i d v t fs, open_mirror i d v -> forall exc,
  mir_left t i (CClose exc) d fs
    (close_left (m_aggr (mir_at d i)) v (queue_of i d) (match exc with None => QClose | Some e => QError (gm_init (GMExc e)) end)).
Proof. exact c106_close. Qed.
Print Assumptions C106_close.
Theorem C106_clear : forall i d v t fs, open_mirror i d v ->
  mir_left t i CClear d fs (fun b q' => clear_left v b /\ q' = queue_of i d).
Proof. exact c106_clear. Qed.
Print Assumptions C106_clear.
(** After stop_all_mirrors() no part of a text or line gets into the queue. *)
Theorem C106_stopped : forall i d v t fs, open_mirror i d v -> forall c, stops i d ->
  (exists data, c = CWrite data) \/ c = CNewLine \/
  (v <> [] /\ (c = CEof \/ (exists exc, c = CClose exc) \/ exists e, c = CError e \/ c = CWarning e)) ->
  mir_left t i c d fs (fun b q' => b = at_end v /\ q' = queue_of i d).
Proof. exact c106_stopped. Qed.
Print Assumptions C106_stopped.

(** ** C106: the buffer *)
(** receive() waits only if there is no message; the first message may be taken. *)
Theorem C106_receive : forall t d fs m q v, main_is m q v d -> fst (sys_run t (ToMain PReceive) d fs) <> Block ->
  sys_left t (ToMain PReceive) d fs (receive_left d).
Proof. exact c106_receive. Qed.
Print Assumptions C106_receive.
Theorem C106_receive_some : forall t d fs m q v, main_is m q v d -> inbox d <> [] ->
  sys_left t (ToMain PReceive) d fs (receive_left d).
Proof. exact c106_receive_some. Qed.
Print Assumptions C106_receive_some.
Theorem C106_wait : forall t d fs m q v fuel, main_is m q v d -> fst (sys_run t (ToMain (PWait fuel)) d fs) <> Block ->
  sys_left t (ToMain (PWait fuel)) d fs (wait_left d).
Proof. exact c106_wait. Qed.
Print Assumptions C106_wait.
Theorem C106_mirror : forall t d fs, sys_left t (ToMain PGetMirror) d fs (fun d' => d' = d \/ d' = set_count (s_n d + 1)%Z d).
Proof. exact c106_mirror. Qed.
Print Assumptions C106_mirror.
Theorem C106_stop_all : forall t d fs, sys_left t (ToMain PStopAll) d fs (fun d' => d' = d \/ d' = set_flag (Some true) d).
Proof. exact c106_stop_all. Qed.
Print Assumptions C106_stop_all.
(** reset_states() with open mirrors changes nothing. *)
Theorem C106_reset : forall t d fs, sys_left t (ToMain PReset) d fs (fun d' => d' = d \/
  ((s_n d <= 0)%Z /\ (d' = set_flag None d \/ d' = set_flag (Some false) d \/ d' = renewed (set_flag (Some false) d)))).
Proof. exact c106_reset. Qed.
Print Assumptions C106_reset.
Theorem C106_force_stop : forall t d fs,
  sys_left t (ToMain PForceStop) d fs (fun d' => d' = d \/ d' = main_has (s_main d) (s_n d) (inbox d ++ [QStop]) d).
Proof. exact c106_force_stop. Qed.
Print Assumptions C106_force_stop.
Theorem C106_read : forall m q v d t fs, main_is m q v d -> forall size,
  sys_left t (ToMain (PBase (Read size))) d fs (fun d' => exists b, read_cut m q v b /\ d' = set_main b d).
Proof. exact c106_read. Qed.
Print Assumptions C106_read.
Theorem C106_clear_buffer : forall m q v d t fs, main_is m q v d ->
  sys_left t (ToMain (PBase Clear)) d fs (fun d' => exists b, clear_cut m q v b /\ d' = set_main b d).
Proof. exact c106_clear_main. Qed.
Print Assumptions C106_clear_buffer.
Theorem C106_end_line : forall m q v d t fs, main_is m q v d ->
  sys_left t (ToMain (PBase NewLine)) d fs
    (fun d' => exists b, (b = FlakySpec.holds m q v (length v) \/ (v <> [] /\ write_cut m q v [10%N] b)) /\ d' = set_main b d).
Proof. exact c106_new_line_main. Qed.
Print Assumptions C106_end_line.
Theorem C106_close_buffer : forall m q v d t fs, main_is m q v d ->
  sys_left t (ToMain (PBase Close)) d fs
    (fun d' => exists b, (clear_cut m q v b \/ b = mklbuf (mkdeque [] m) (mksio [] 0 true)) /\ d' = set_main b d).
Proof. exact c106_close_main. Qed.
Print Assumptions C106_close_buffer.

(** ** C106: at any time *)
(** After any calls, each with exceptions, that do not wait forever for a message. *)
Theorem C106_always : forall m fs, 1 <= m -> forall h, let o := sys_hist h (mkst (lp_fresh m, fs) ∅) in
  Forall (fun r => r <> Block) (fst o) -> lks (snd o) = ∅ /\ proc_sound m (fst (dat (snd o))) /\ proc_usable m (fst (dat (snd o))).
Proof. exact c106_always. Qed.
Print Assumptions C106_always.
(** At any moment of threads and processes that use the buffer and its mirrors. *)
Theorem C106_concurrent : forall m fs css sch ps' s', 1 <= m ->
  sched_run sch (fl_pool (map (map s_call) css), mkst (lp_fresh m, fs) ∅) = Some (ps', s') ->
  proc_sound m (fst (dat s')) /\ proc_usable m (fst (dat s')).
Proof. exact c106_concurrent. Qed.
Print Assumptions C106_concurrent.

(** ** What does not hold *)
Definition cut_at (c : scall) (d : psys) (n : nat) : outcome sres * psys :=
  let o := sys_run 0 c d (ctrl_c n) in (fst o, fst (dat (snd o))).
(** A line that is received when KeyboardInterrupt comes may be lost. *)
Definition got_ab : psys := after [OnMirror 0 (CWrite (txt "ab" ++ lf))] (lp_fresh 3).
Theorem C106_no_loss_refuted : exists n,
  inbox got_ab = [QStr (txt "ab" ++ lf)] /\ fst (cut_at (ToMain PReceive) got_ab n) = Fail KeyboardInterrupt /\
  inbox (snd (cut_at (ToMain PReceive) got_ab n)) = [] /\ s_main (snd (cut_at (ToMain PReceive) got_ab n)) = s_main (lp_fresh 3).
Proof. exists 2. repeat split; vm_compute; reflexivity. Qed.
Print Assumptions C106_no_loss_refuted.
(** close() that is left by KeyboardInterrupt and called again, as in a [finally], sends two
    end signals; wait() then returns while another mirror is open, and its line is not
    received. *)
Definition two_open : psys := after [OnMain PGetMirror; Copy 0; OnMain PGetMirror; Copy 0] (lp_fresh 3).
Definition closed_twice (n : nat) : psys :=
  after [OnMirror 1 (CClose None); OnMirror 2 (CWrite (txt "late" ++ lf)); OnMain (PWait 20)] (snd (cut_at (ToMirror 1 (CClose None)) two_open n)).
Theorem C106_close_again_refuted : exists n,
  s_n two_open = 2%Z /\ fst (cut_at (ToMirror 1 (CClose None)) two_open n) = Fail KeyboardInterrupt /\
  fst (run 0 (s_call (ToMain (PWait 20))) (mkst (after [OnMirror 1 (CClose None); OnMirror 2 (CWrite (txt "late" ++ lf))] (snd (cut_at (ToMirror 1 (CClose None)) two_open n))) ∅)) =
    Good (FromMain RUnit) /\
  ProcSpec.is_closed (mir_at (closed_twice n) 2) = false /\ s_n (closed_twice n) = 0%Z /\
  inbox (closed_twice n) = [QStr (txt "late" ++ lf)] /\ dq (storage (s_main (closed_twice n))) = [].
Proof. exists 18. repeat split; vm_compute; reflexivity. Qed.
Print Assumptions C106_close_again_refuted.
(** clear() of a mirror that is left may leave a text that the next text overwrites in part. *)
Definition has_abc : psys := after [OnMirror 0 (CWrite (txt "abc"))] (lp_fresh 3).
Theorem C106_clear_again_refuted : exists n,
  fst (cut_at (ToMirror 0 CClear) has_abc n) = Fail KeyboardInterrupt /\
  inbox (after [OnMirror 0 (CWrite (txt "x")); OnMirror 0 CNewLine] (snd (cut_at (ToMirror 0 CClear) has_abc n))) =
    [QStr (txt "x" ++ lf ++ txt "c")].
Proof. exists 4. repeat split; vm_compute; reflexivity. Qed.
Print Assumptions C106_clear_again_refuted.

(** ** Concrete cases *)
Example has_ab_open : open_mirror 0 has_ab (txt "ab").
Proof. split; [cbn; auto|]. split; [cbn; auto|]. vm_compute. reflexivity. Qed.
(** write("c\n") of a mirror that holds "ab": what is left of the mirror and its queue when
    the exception comes at the check [n]; all that [write_left] allows occurs. *)
Definition seen_at (n : nat) : sio * list msg :=
  let d := snd (cut_at (ToMirror 0 (CWrite (txt "c" ++ lf))) has_ab n) in (m_buf (mir_at d 0), queue_of 0 d).
Example C106_write_case : let x := txt "abc" ++ lf in
  seen_at 5 = (at_end (txt "ab"), []) /\ seen_at 14 = (at_end x, []) /\ seen_at 20 = (at_end x, [QStr x]) /\
  seen_at 21 = (mksio x 0 false, [QStr x]) /\ seen_at 22 = (mksio [] 0 false, [QStr x]).
Proof. repeat split; vm_compute; reflexivity. Qed.
Example got_ab_main : main_is 3 [] [] got_ab.
Proof. split; [auto|]. split; [vm_compute; reflexivity|cbn; auto]. Qed.
(** wait() over two lines and an end signal that is left in the middle of the second line:
    the first is recorded, the second is in the records and still in the unfinished line. *)
Definition two_lines_sent : psys :=
  after [OnMain PGetMirror; OnMirror 0 (CWrite (txt "ab" ++ lf)); OnMirror 0 (CSendData (txt "c")); OnMirror 0 (CSendData (txt "d" ++ lf)); OnMirror 0 (CClose None)] (lp_fresh 3).
Example C106_wait_case : exists n, let o := cut_at (ToMain (PWait 20)) two_lines_sent n in
  fst o = Fail KeyboardInterrupt /\ s_main (snd o) = FlakySpec.holds 3 [IStr (txt "ab"); IStr (txt "cd")] (txt "c") 1 /\
  inbox (snd o) = [QClose] /\ s_n (snd o) = 1%Z.
Proof. exists 23. repeat split; vm_compute; reflexivity. Qed.
(** A stopped mirror. *)
Example stopped_case : let d := after [OnMain PStopAll] has_ab in open_mirror 0 d (txt "ab") /\ stops 0 d /\
  fst (sys_run 0 (ToMirror 0 (CWrite lf)) d []) = Fail StopIteration.
Proof. split; [split; [cbn; auto|]; split; [cbn; auto|vm_compute; reflexivity]|]. split; [split|]; vm_compute; reflexivity. Qed.
(** Calls one after the other, one of them is left, and all end. *)
Example C106_always_case : let w := ToMirror 0 (CWrite (txt "ab" ++ lf)) in
  fst (sys_hist [(0, ToMain PGetMirror); (1, w); (1, w); (0, ToMain PReceive); (0, ToMain (PBase (Read None)))] (mkst (lp_fresh 3, ctrl_c 9) ∅)) =
  [Good (FromMain (RNat 0)); Fail KeyboardInterrupt; Good (FromMirror (MNat 3)); Good (FromMain (RBool true)); Good (FromMain (RItems [IStr (txt "ab")]))].
Proof. vm_compute. reflexivity. Qed.
(** Two threads, the write of the first is left after its line is sent. *)
Example C106_concurrent_case :
  let c := plan [(0, 20); (1, 100); (0, 100); (1, 100)] (fl_pool (map (map s_call)
     [[ToMirror 0 (CWrite (txt "a" ++ lf))]; [ToMirror 0 (CWrite (txt "b" ++ lf))]]), mkst (lp_fresh 3, ctrl_c 25) ∅) in
  inbox (fst (dat (snd c))) = [QStr (txt "a" ++ lf); QStr (txt "b" ++ lf)] /\
  map (fun p => match p with Ret r => Some r | _ => None end) (fst c) = [Some [Fail KeyboardInterrupt]; Some [Good (FromMirror (MNat 2))]].
Proof. split; vm_compute; reflexivity. Qed.
