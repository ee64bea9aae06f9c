(** * FlakyProcSpec: vocabulary of the statements about exceptions inside LineProcMirror and LineProcBuffer *)
From stdpp Require Import gmap relations.
From Coq Require Import List NArith ZArith Bool Arith.
From Verif Require Import PyStr Prog PyIO Base Spec LineBuf Proc ProcSpec CountSpec Flaky FlakySpec.
Import ListNotations.
Local Open Scope nat_scope.

(** A call in thread [t] when no lock is held, with the exceptions [fs] to come. *)
Definition sys_run (t : nat) (c : scall) (d : psys) (fs : faults) : outcome sres * st (psys * faults) :=
  run t (flaky_call (s_call c)) (mkst (d, fs) ∅).
(** [sys_left t c d fs P]: the call ends, no lock is held, and [P] is true of what is left. *)
Definition sys_left (t : nat) (c : scall) (d : psys) (fs : faults) (P : psys -> Prop) : Prop :=
  let o := sys_run t c d fs in fst o <> Block /\ lks (snd o) = ∅ /\ P (fst (dat (snd o))).

(** ** A mirror *)
(** A text in a StringIO, the position is at its end. *)
Definition at_end (v : text) : sio := mksio v (length v) false.
(** [d'] is [d], but mirror [i] holds [b] (and may have got its lock), and its queue is [q]. *)
Definition mirror_has (i : nat) (d : psys) (b : sio) (q : list msg) (d' : psys) : Prop :=
  exists r n, let m := mir_at d i in
  d' = mkps (set_nth i (mkmir b r (m_aggr m) (m_timeout m) (m_has m) (m_q m) (m_id m) n) (s_mirs d))
            (set_nth (m_q m) q (s_qs d)) (s_state d) (s_main d) (s_n d) (s_cur d) (s_maxlen d).
(** The queue of mirror [i]; mirror [i] exists, it is open and holds [v]. *)
Definition queue_of (i : nat) (d : psys) : list msg := nth (m_q (mir_at d i)) (s_qs d) [].
Definition open_mirror (i : nat) (d : psys) (v : text) : Prop :=
  i < length (s_mirs d) /\ m_q (mir_at d i) < length (s_qs d) /\ m_buf (mir_at d i) = at_end v.
(** It sees that it has to stop. *)
Definition stops (i : nat) (d : psys) : Prop := m_has (mir_at d i) = true /\ s_state d = Some true.
(** A call of mirror [i] leaves a held text and a queue as [L] says, and nothing else changes. *)
Definition mir_left (t i : nat) (c : mcall) (d : psys) (fs : faults) (L : sio -> list msg -> Prop) : Prop :=
  sys_left t (ToMirror i c) d fs (fun d' => exists b q, L b q /\ mirror_has i d b q d').

Definition breaks (data : text) : Prop := exists ls r, segments data ls r /\ ls <> [].
(** What write(data) may leave: nothing happened; or an aggressive mirror has sent [data];
    or [data] is held; or if it ends a line, the text is sent, and is still held, with the
    position at its end or at its beginning, or no longer. *)
Inductive write_left (aggr : bool) (v data : text) (q : list msg) : sio -> list msg -> Prop :=
| wl_nothing : write_left aggr v data q (at_end v) q
| wl_direct : aggr = true -> write_left aggr v data q (at_end v) (q ++ [QStr data])
| wl_held : aggr = false -> write_left aggr v data q (at_end (v ++ data)) q
| wl_sent b : aggr = false -> breaks data ->
    b = at_end (v ++ data) \/ b = mksio (v ++ data) 0 false \/ b = mksio [] 0 false ->
    write_left aggr v data q b (q ++ [QStr (v ++ data)]).
Definition line_left (aggr : bool) (v : text) (q : list msg) (b : sio) (q' : list msg) : Prop :=
  (b = at_end v /\ q' = q) \/ (v <> [] /\ write_left aggr v [10%N] q b q').
(** The mirror after new_line(). *)
Definition ended (aggr : bool) (v : text) (q : list msg) : text * list msg :=
  match v with
  | [] => ([], q)
  | _ => if aggr then (v, q ++ [QStr [10%N]]) else ([], q ++ [QStr (v ++ [10%N])])
  end.
(** What sending the message [x] after new_line() may leave; and close(). *)
Definition signal_left (aggr : bool) (v : text) (q : list msg) (x : msg) (b : sio) (q' : list msg) : Prop :=
  line_left aggr v q b q' \/
  (b = at_end (fst (ended aggr v q)) /\ q' = snd (ended aggr v q) ++ [x]).
Definition close_left (aggr : bool) (v : text) (q : list msg) (x : msg) (b : sio) (q' : list msg) : Prop :=
  signal_left aggr v q x b q' \/
  (q' = snd (ended aggr v q) ++ [x] /\
   (b = mksio (fst (ended aggr v q)) 0 false \/ b = mksio [] 0 false \/ b = mksio [] 0 true)).
Definition clear_left (v : text) (b : sio) : Prop := b = at_end v \/ b = mksio v 0 false \/ b = mksio [] 0 false.

(** ** The main buffer *)
(** The main buffer is open, and has the records [q] and the unfinished text [v]. *)
Definition main_is (m : nat) (q : list item) (v : text) (d : psys) : Prop :=
  1 <= m /\ s_main d = FlakySpec.holds m q v (length v) /\ length q <= m.
(** [d] with another buffer, count of mirrors and queue of the present mirror. *)
Definition main_has (b : lbuf) (n : Z) (box : list msg) (d : psys) : psys :=
  mkps (s_mirs d) (set_nth (m_q (mir_at d (s_cur d))) box (s_qs d)) (s_state d) b n (s_cur d) (s_maxlen d).
Definition set_main (b : lbuf) (d : psys) : psys :=
  mkps (s_mirs d) (s_qs d) (s_state d) b (s_n d) (s_cur d) (s_maxlen d).
Definition set_count (n : Z) (d : psys) : psys :=
  mkps (s_mirs d) (s_qs d) (s_state d) (s_main d) n (s_cur d) (s_maxlen d).
Definition set_flag (x : option bool) (d : psys) : psys :=
  mkps (s_mirs d) (s_qs d) x (s_main d) (s_n d) (s_cur d) (s_maxlen d).
(** With a new mirror and its queue. *)
Definition renewed (d : psys) : psys :=
  mkps (s_mirs d ++ [mir_new (length (s_mirs d)) (length (s_qs d)) false None true]) (s_qs d ++ [[]])
       (s_state d) (s_main d) (s_n d) (length (s_mirs d)) (s_maxlen d).
(** The buffer after the whole text [s] is written. *)
Definition write_done (m : nat) (q : list item) (v s : text) (b : lbuf) : Prop :=
  exists ls r, segments s ls r /\
  match ls with
  | [] => b = FlakySpec.holds m q (v ++ r) (length (v ++ r))
  | l1 :: ls' => b = FlakySpec.holds m (last_items m (q ++ IStr (v ++ l1) :: map IStr ls')) r (length r)
  end.
(** What receive() of the message [x] may leave of the buffer and the count, when the
    message is taken from the queue; and what it leaves if no exception comes. *)
Definition taken (m : nat) (q : list item) (v : text) (n : Z) (x : msg) (b : lbuf) (n' : Z) : Prop :=
  let here := FlakySpec.holds m q v (length v) in
  let added g := FlakySpec.holds m (last_items m (q ++ [IMsg g])) v (length v) in
  match x with
  | QStr s => write_cut m q v s b /\ n' = n
  | QError g => (b = here /\ n' = n) \/ (b = added g /\ (n' = n \/ n' = (n - 1)%Z))
  | QWarning g => (b = here \/ b = added g) /\ n' = n
  | QClose => b = here /\ (n' = n \/ n' = (n - 1)%Z)
  | QStop => b = here /\ (n' = n \/ n' = 0%Z)
  | QOther => b = here /\ n' = n
  end.
Definition handled (m : nat) (q : list item) (v : text) (n : Z) (x : msg) (b : lbuf) (n' : Z) : Prop :=
  let here := FlakySpec.holds m q v (length v) in
  let added g := FlakySpec.holds m (last_items m (q ++ [IMsg g])) v (length v) in
  match x with
  | QStr s => write_done m q v s b /\ n' = n
  | QError g => b = added g /\ n' = (n - 1)%Z
  | QWarning g => b = added g /\ n' = n
  | QClose => b = here /\ n' = (n - 1)%Z
  | QStop => b = here /\ n' = 0%Z
  | QOther => b = here /\ n' = n
  end.
(** One receive() without exceptions; what a receive() leaves. *)
Inductive received (d : psys) : psys -> Prop :=
| rcv m q v x rest b n : main_is m q v d -> inbox d = x :: rest -> handled m q v (s_n d) x b n ->
    received d (main_has b n rest d).
Inductive receive_left (d : psys) : psys -> Prop :=
| rl_nothing : receive_left d d
| rl_taken m q v x rest b n : main_is m q v d -> inbox d = x :: rest -> taken m q v (s_n d) x b n ->
    receive_left d (main_has b n rest d).
(** What wait() leaves: any number of messages are handled, and then a receive() is left. *)
Definition wait_left (d d' : psys) : Prop := exists d1, rtc received d d1 /\ receive_left d1 d'.

(** ** At any time *)
(** A record: a line or a message. *)
Definition proc_item (i : item) : Prop := match i with IStr x => no_break x | _ => True end.
Definition proc_sound (m : nat) (d : psys) : Prop :=
  sound_of proc_item m (s_main d) /\ s_maxlen d = m /\ s_cur d < length (s_mirs d) /\
  Forall (fun x => m_q x < length (s_qs d)) (s_mirs d).
(** What can still be done when nothing is running: the main buffer can be cleared and read
    if it is open; a mirror can be cleared if it is open, and says so if it is closed. *)
Definition proc_usable (m : nat) (d : psys) : Prop :=
  (if sclosed (last_line (s_main d)) then
     forall t size, fst (run t (s_call (ToMain (PBase (Read size)))) (mkst d ∅)) = Fail OSError
   else forall t,
     run t (s_call (ToMain (PBase Clear))) (mkst d ∅) = (Good (FromMain RUnit), mkst (set_main (dat (fresh m)) d) ∅) /\
     forall size, exists r, run t (s_call (ToMain (PBase (Read size)))) (mkst d ∅) = (Good (FromMain (RItems r)), mkst d ∅) /\ length r <= m) /\
  forall i, i < length (s_mirs d) -> forall t,
    if is_closed (mir_at d i) then forall data, fst (run t (s_call (ToMirror i (CWrite data))) (mkst d ∅)) = Fail OSError
    else exists d', run t (s_call (ToMirror i CClear)) (mkst d ∅) = (Good (FromMirror MUnit), mkst d' ∅) /\
         mirror_has i d (at_end []) (queue_of i d) d'.
(** Calls one after the other, each with exceptions. *)
Fixpoint sys_hist (h : list (nat * scall)) (s : st (psys * faults)) : list (outcome sres) * st (psys * faults) :=
  match h with
  | [] => ([], s)
  | (t, c) :: h' => let '(r, s1) := run t (flaky_call (s_call c)) s in
                    let '(rs, s2) := sys_hist h' s1 in (r :: rs, s2)
  end.
