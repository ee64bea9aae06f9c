(** * PropFlakyHost: exceptions inside LineHostMirror and LineHostReader (C108)

    An exception may come before any command of a method of a mirror or of the reader
    (KeyboardInterrupt, MemoryError), and any request may fail on the network as well; the
    calls are those of PropFlaky.v.  [open_host M w v]: the mirror [M] is open and holds the
    text [v].  [hmir_left E t M c w fs L]: the call [c] of [M] in thread [t], left by the
    first of [fs] that comes or not, ends, no lock is held, it leaves a held text and has
    made the server handle messages that [L] allows, and nothing else changes
    (FlakyHostSpec.v).  What may be left is what C106 says of a mirror of processes
    (FlakyProcSpec.v), with the messages handled by the server in the place of the queue.
    Proofs are in FlakyHostMir.v. *)
From stdpp Require Import gmap.
From Coq Require Import String.
From Coq Require Import List NArith ZArith Bool Arith.
From Verif Require Import PyStr Prog PyIO Base Spec Json Host HostCli HostCliSpec Flaky FlakySpec FlakyHost FlakyProcSpec FlakyHostSpec FlakyHostMir PropHostCli.
From Verif Require Proc HostCliProofs.
Import ListNotations.
Local Open Scope nat_scope.

(** ** C108: mirrors *)
Theorem C108_write : forall E M w v t fs, open_host M w v -> forall data,
  hmir_left E t M (HWrite data) w fs (write_left (hm_aggr M) v data []).
Proof. exact c108_write. Qed.
Print Assumptions C108_write.
Theorem C108_new_line : forall E M w v t fs, open_host M w v -> forall check,
  hmir_left E t M (HNewLine check) w fs (line_left (hm_aggr M) v []).
Proof. exact c108_new_line. Qed.
Print Assumptions C108_new_line.
Theorem C108_send_data : forall E M w v t fs, open_host M w v -> forall x,
  hmir_left E t M (HSendData x) w fs (fun b ms => b = at_end v /\ (ms = [] \/ ms = [Proc.QStr x])).
Proof. exact c108_send_data. Qed.
Print Assumptions C108_send_data.
(** send_eof, send_error, send_warning: the message is handled at most once, and then the
    current line was handled before it. *)
Theorem C108_signal : forall E M w v t fs, open_host M w v -> forall c x,
  (c = HSendEof /\ x = Proc.QClose) \/
  (exists e, (c = HSendError e /\ x = Proc.QError (gm_init (GMExc e))) \/ (c = HSendWarning e /\ x = Proc.QWarning (gm_init (GMExc e)))) ->
  hmir_left E t M c w fs (signal_left (hm_aggr M) v [] x).
Proof. exact c108_signal. Qed.
Print Assumptions C108_signal.
(** close(): the mirror is closed only after the server has handled the end signal. *)
Theorem C108_close : forall E M w v t fs, open_host M w v -> forall exc,
  hmir_left E t M (HClose exc) w fs
    (close_left (hm_aggr M) v [] (match exc with None => Proc.QClose | Some e => Proc.QError (gm_init (GMExc e)) end)).
Proof. exact c108_close. Qed.
Print Assumptions C108_close.
Theorem C108_clear : forall E M w v t fs, open_host M w v ->
  hmir_left E t M HClear w fs (fun b ms => clear_left v b /\ ms = []).
Proof. exact c108_clear. Qed.
Print Assumptions C108_clear.
Theorem C108_others : forall E M w v t fs, open_host M w v -> forall c,
  c = HCheck \/ c = HFlush \/ c = HRead \/ c = HClosed \/ c = HReadable \/ c = HWritable \/
  c = HFileno \/ c = HSeek \/ c = HIsatty \/ c = HSeekable ->
  hmir_left E t M c w fs (fun b ms => b = at_end v /\ ms = []).
Proof. exact c108_look. Qed.
Print Assumptions C108_others.
(** After stop_all_mirrors() no text or line gets to the server, whatever goes wrong; only the
    error StopIteration is sent without asking. *)
Theorem C108_stopped : forall E M w v t fs, open_host M w v -> forall c, stop_flag E (w_srv w) true ->
  (exists data, c = HWrite data) \/ c = HNewLine true \/
  (v <> [] /\ (c = HSendEof \/ c = HClose None \/ (exists e, c = HSendWarning e) \/
               exists e, is_stop e = false /\ (c = HSendError e \/ c = HClose (Some e)))) ->
  hmir_left E t M c w fs (fun b ms => b = at_end v /\ ms = []).
Proof. exact c108_stopped. Qed.
Print Assumptions C108_stopped.
(** Whatever is left of an open mirror, clear() makes it an empty one. *)
Theorem C108_clear_works : forall E t M w b, has_rlock M -> w_mir w !! hm_id M = Some b -> sclosed b = false ->
  call E t (OnMir M HClear) w = (Good CUnit, mkst (mkworld (w_srv w) (<[hm_id M := at_end []]> (w_mir w)) (w_faults w)) ∅).
Proof. exact c108_clear_works. Qed.
Print Assumptions C108_clear_works.

(** ** C108: the reader *)
(** Its one request is handled once or not at all. *)
Theorem C108_reader : forall E t c w fs, cli_left E t (OnRd c) w fs (sent_or_not E (request_of c) w).
Proof. exact c108_reader. Qed.
Print Assumptions C108_reader.

(** ** Cases *)
Definition stopped_world : world :=
  mkworld (snd (serve E1 (request_of RdStop) (w_srv (world1 [])))) (<[0 := at_end (txt "ab")]> ∅) [Up; Lost].
Example C108_open : open_host M0 (world1 [Up; Lost]) [] /\ open_host M0 stopped_world (txt "ab").
Proof. repeat split; repeat constructor. Qed.
Example C108_is_stopped : stop_flag E1 (w_srv stopped_world) true.
Proof. apply HostCliProofs.stop_flag_iff. vm_compute. reflexivity. Qed.
(** What is left of write("ab\n") if the [n]th command raises KeyboardInterrupt: the text
    held, the position, and what the server has. *)
Definition after_hit (n : nat) (w : world) (c : mcall) : sio * (list item * text) :=
  let r := host_run E1 1 (OnMir M0 c) w (repeat None n ++ [Some KeyboardInterrupt]) ∅ in
  let w' := fst (dat (snd r)) in (mget 0 w', shown w').
Definition boom : item := IMsg (mkgmsg (JStr (txt "error")) [JStr (txt "boom")]).
Example C108_demo :
  after_hit 6 (world1 []) (HWrite ab) = (at_end [], ([IStr (txt "a"); IStr (txt "b"); boom], txt "7")) /\
  after_hit 7 (world1 []) (HWrite ab) = (at_end ab, ([IStr (txt "a"); IStr (txt "b"); boom], txt "7")) /\
  after_hit 11 (world1 []) (HWrite ab) = (at_end ab, ([IStr (txt "b"); boom; IStr (txt "7ab")], [])) /\
  after_hit 12 (world1 []) (HWrite ab) = (mksio ab 0 false, ([IStr (txt "b"); boom; IStr (txt "7ab")], [])) /\
  after_hit 13 (world1 []) (HWrite ab) = (mksio [] 0 false, ([IStr (txt "b"); boom; IStr (txt "7ab")], [])) /\
  after_hit 50 (world1 [Up; Lost]) (HWrite ab) = (at_end ab, ([IStr (txt "b"); boom; IStr (txt "7ab")], [])) /\
  after_hit 50 stopped_world (HWrite ab) = (at_end (txt "ab"), ([IStr (txt "a"); IStr (txt "b"); boom], txt "7")).
Proof. vm_compute. repeat split. Qed.
(** The text is not sent once: an exception after the request, and the next write() sends it
    again; or between seek(0) and truncate(0) (host.py:462-463), and the next write() sends
    the rest of the old text after its own. *)
Definition next_write (n : nat) (data : text) : outcome cres * (list item * text) :=
  let w := fst (dat (snd (host_run E1 1 (OnMir M0 (HWrite ab)) (world1 []) (repeat None n ++ [Some KeyboardInterrupt]) ∅))) in
  let r := call E1 1 (OnMir M0 (HWrite data)) w in (fst r, shown (dat (snd r))).
Theorem C108_once_refuted : exists n,
  next_write n (txt "c" ++ [10%N]) = (Good (CNat 2), ([IStr (txt "7ab"); IStr (txt "ab"); IStr (txt "c")], [])).
Proof. exists 11. vm_compute. reflexivity. Qed.
Print Assumptions C108_once_refuted.
Theorem C108_own_text_refuted : exists n,
  next_write n [10%N] = (Good (CNat 1), ([IStr (txt "7ab"); IStr []; IStr (txt "b")], [])).
Proof. exists 12. vm_compute. reflexivity. Qed.
Print Assumptions C108_own_text_refuted.
