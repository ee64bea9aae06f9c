(** * ProcSpec: vocabulary of the statements about LineProcMirror / LineProcBuffer

    Histories of calls, reachable states, and what is observed of a state. *)
From stdpp Require Import gmap relations.
From Coq Require Import List NArith ZArith Bool Arith.
From Verif Require Import PyStr Prog PyIO Base Spec LineBuf Proc.
Import ListNotations.
Local Open Scope nat_scope.

(** No lock is held. *)
Notation idle d := (mkst d (stdpp.base.empty : locks)) (only parsing).

(** ** One mirror *)

(** Observations of a mirror: text held back, closed. *)
Definition held (m : mir) : text := sval (m_buf m).
Definition is_closed (m : mir) : bool := sclosed (m_buf m).

(** One event in the life of a mirror: a completed public call by some thread, or a change
    of the queue content and of the shared state made by somebody else. *)
Inductive mstep : menv -> menv -> Prop :=
| ms_call t c r d d' : run t (lm_call c) (idle d) = (r, idle d') -> r <> Block -> mstep d d'
| ms_env d q st : mstep d (mkmenv (e_mir d) q (e_qmax d) st).

Definition mlater : menv -> menv -> Prop := rtc mstep.

(** Reachable: after any such events from a newly constructed mirror
    (mproc.py:394-450; [has]: constructed with a shared state and its lock). *)
Definition mreach (d : menv) : Prop :=
  exists id q aggressive timeout has queue qmax state,
    mlater (mkmenv (mir_new id q aggressive timeout has) queue qmax state) d.

(** The mirror checks the stop flag and the flag is set. *)
Definition stop_seen (d : menv) : bool :=
  m_has (e_mir d) && match e_state d with Some true => true | _ => false end.

(** ** The stdlib queue.put(item, block, timeout) with time: [free] is the time after which
    a slot becomes free (0: now; None: never). *)
Inductive put_result := PutAfter (t : Z) | FullAfter (t : Z) | PutValueError | PutNever.
Definition std_put (block : bool) (timeout : option Z) (free : option Z) : put_result :=
  match free with
  | Some 0%Z => PutAfter 0
  | _ =>
    if negb block then FullAfter 0
    else match timeout with
         | None => match free with Some f => PutAfter f | None => PutNever end
         | Some t => if (t <? 0)%Z then PutValueError
                     else match free with
                          | Some f => if (f <=? t)%Z then PutAfter f else FullAfter t
                          | None => FullAfter t
                          end
         end
  end.

(** The (block, timeout) arguments of the [put] commands that a program executes from
    data [d] when no lock operation blocks. *)
Fixpoint puts {A} (p : prog mcmd A) (d : menv) : list (bool * option Z) :=
  match p with
  | Ret _ | Raise _ => []
  | Act c k h =>
    match c in cmd _ X return (X -> prog mcmd A) -> (X -> menv -> list (bool * option Z)) ->
                              (exn -> menv -> list (bool * option Z)) -> list (bool * option Z) with
    | Acq _ _ | Rel _ => fun _ fk _ => fk tt d
    | Op c0 => fun _ fk fh =>
        match c0 with MPut _ b t => [(b, t)] | _ => [] end ++
        match mexec c0 d with
        | (Good x, d') => fk x d'
        | (Fail e, d') => fh e d'
        | (Block, _) => []
        end
    end k (fun x => puts (k x)) (fun e => puts (h e))
  end.

(** ** The whole system: main buffer, mirrors, queues *)

(** Public calls of the main buffer. *)
Inductive pcall :=
| PBase (c : call)        (* a method of _LineBuffer; write and len are overridden *)
| PGetMirror | PStopAll | PReset | PForceStop | PReceive | PWait (fuel : nat).

Definition pret {X} (f : X -> res) (p : prog pcmd X) : prog pcmd res := bind p (fun x => Ret (f x)).
Definition lp_call (c : pcall) : prog pcmd res :=
  match c with
  | PBase (Write data) => pret RNat (lp_write data)
  | PBase Len => pret RNat lp_len
  | PBase Maxlen => pret RNat lp_maxlen
  | PBase c => on_main (lb_call c)
  | PGetMirror => pret RNat lp_mirror
  | PStopAll => pret to_unit lp_stop_all
  | PReset => pret to_unit lp_reset
  | PForceStop => pret to_unit lp_force_stop
  | PReceive => pret RBool lp_receive
  | PWait fuel => pret to_unit (lp_wait fuel)
  end.

(** Events: a completed call on mirror [i], a completed call on the main buffer, or mirror
    [i] is pickled and the copy becomes a new mirror (of another process). *)
Inductive sevent := OnMirror (i : nat) (c : mcall) | OnMain (c : pcall) | Copy (i : nat).

Definition add_mirror (m : mir) (d : psys) : psys :=
  mkps (s_mirs d ++ [m]) (s_qs d) (s_state d) (s_main d) (s_n d) (s_cur d) (s_maxlen d).

Inductive sstep (t : nat) : sevent -> psys -> psys -> Prop :=
| ss_mirror i c r d d' : i < length (s_mirs d) ->
    run t (sys_m i (lm_call c)) (idle d) = (r, idle d') -> r <> Block ->
    sstep t (OnMirror i c) d d'
| ss_main c r d d' :
    run t (sys_p (lp_call c)) (idle d) = (r, idle d') -> r <> Block ->
    sstep t (OnMain c) d d'
| ss_copy i m d : i < length (s_mirs d) ->
    mir_pickle (length (s_mirs d)) (mir_at d i) = Good m ->
    sstep t (Copy i) d (add_mirror m d).

Inductive shist : list (nat * sevent) -> psys -> psys -> Prop :=
| sh_nil d : shist [] d d
| sh_cons t x xs d d1 d2 : sstep t x d d1 -> shist xs d1 d2 -> shist ((t, x) :: xs) d d2.

(** Reachable states of a [LineProcBuffer(maxlen=m)] and its mirrors. *)
Definition lp_fresh (m : nat) : psys :=
  mkps [mir_new 0 0 false None true] [[]] (Some false) (dat (fresh m)) 0%Z 0 m.
Definition preach (m : nat) (d : psys) : Prop := exists xs, shist xs (lp_fresh m) d.

(** Observations. *)
Notation records d := (dq (storage (s_main d))) (only parsing).
Notation current d := (sval (last_line (s_main d))) (only parsing).
Notation main_closed d := (sclosed (last_line (s_main d))) (only parsing).
(** The queue of the main buffer's present mirror, from which it receives. *)
Definition inbox (d : psys) : list msg := nth (m_q (mir_at d (s_cur d))) (s_qs d) [].

(** ** What receiving a message means, on the ideal log (Spec.v) and the count of mirrors *)
Inductive log_msg : msg -> slog * Z -> slog * Z -> Prop :=
| lm_str data g g' n : log_write data g g' -> log_msg (QStr data) (g, n) (g', n)
| lm_err e dn p n : log_msg (QError e) (mkslog dn p, n) (mkslog (dn ++ [IMsg e]) p, (n - 1)%Z)
| lm_warn e dn p n : log_msg (QWarning e) (mkslog dn p, n) (mkslog (dn ++ [IMsg e]) p, n)
| lm_eof g n : log_msg QClose (g, n) (g, (n - 1)%Z)
| lm_stop g n : log_msg QStop (g, n) (g, 0%Z)
| lm_other g n : log_msg QOther (g, n) (g, n).
Inductive log_msgs : list msg -> slog * Z -> slog * Z -> Prop :=
| lms_nil a : log_msgs [] a a
| lms_cons x xs a b c : log_msg x a b -> log_msgs xs b c -> log_msgs (x :: xs) a c.

(** End signals: a mirror counts as finished. *)
Definition is_end (x : msg) : bool := match x with QError _ | QClose => true | _ => false end.
(** A message after which receive() may tell wait() to stop. *)
Definition is_data (x : msg) : bool := match x with QStr _ | QWarning _ => true | _ => false end.

(** The messages a call of wait() handles: it stops after the end signal that brings the
    count of mirrors to zero or below, or after a stop signal; [None]: it never stops on
    these messages and waits for more. *)
Fixpoint wait_cut (xs : list msg) (n : Z) : option (list msg * list msg) :=
  match xs with
  | [] => None
  | x :: xs' =>
      let more n' := match wait_cut xs' n' with Some (h, r) => Some (x :: h, r) | None => None end in
      if is_data x then more n
      else if is_end x then (if (1 <? n)%Z then more (n - 1)%Z else Some ([x], xs'))
      else Some ([x], xs')
  end.

(** Histories without reset_states(). *)
Definition no_reset (xs : list (nat * sevent)) : Prop := Forall (fun tx => snd tx <> OnMain PReset) xs.

(** Histories made only of writes to mirror 0 and of receive(), and their texts. *)
Definition write_or_receive (x : sevent) : Prop :=
  (exists data, x = OnMirror 0 (CWrite data)) \/ x = OnMain PReceive.
Fixpoint texts_of (xs : list (nat * sevent)) : list (nat * text) :=
  match xs with
  | [] => []
  | (t, OnMirror _ (CWrite data)) :: xs' => (t, data) :: texts_of xs'
  | _ :: xs' => texts_of xs'
  end.

(** What a closed mirror answers. *)
Definition mclosed_answer (c : mcall) : outcome mres :=
  match c with
  | CWrite _ | CRead _ | CFileno | CSeek => Fail OSError
  | CNewLine | CClear => Fail ValueError
  | CClose _ | CFlush | CEof | CError _ | CWarning _ | CSendData _ | CSetAggr _ | CSetTimeout _ => Good MUnit
  | CClosed => Good (MBool true)
  | CReadable | CWritable | CIsatty | CSeekable => Good (MBool false)
  end.

(** Calls that announce an end or a message to the main buffer. *)
Definition end_call (c : mcall) : bool :=
  match c with CClose _ | CEof | CError _ | CWarning _ => true | _ => false end.

(** The message that such a call announces. *)
Definition announced (c : mcall) : msg :=
  match c with
  | CClose (Some e) | CError e => QError (gm_init (GMExc e))
  | CWarning e => QWarning (gm_init (GMExc e))
  | _ => QClose
  end.

(** The call [c] on a mirror in state [d] has something to put into the queue. *)
Definition sends (c : mcall) (d : menv) : Prop :=
  is_closed (e_mir d) = false /\
  match c with
  | CSendData _ => True
  | CWrite data => stop_seen d = false /\ (m_aggr (e_mir d) = true \/ ~ no_break data)
  | CNewLine => stop_seen d = false /\ held (e_mir d) <> []
  | CClose _ | CEof | CError _ | CWarning _ => stop_seen d = false \/ held (e_mir d) = []
  | _ => False
  end.

(** The main buffer went from [d] to [d'] by receiving [xs] (in terms of the ideal log). *)
Definition received (m : nat) (d d' : psys) (xs : list msg) : Prop :=
  exists g, log_msgs xs (mkslog (records d) (current d), s_n d) (g, s_n d') /\
    records d' = last_items m (done g) /\ current d' = pend g /\ main_closed d' = false.

(** Calls that use the internal lock of the mirror (all but these few). *)
Definition uses_lock (c : mcall) : bool :=
  match c with
  | CFileno | CSeek | CIsatty | CSeekable | CSetAggr _ | CSetTimeout _ => false
  | _ => true
  end.

(** [recorded xs items]: every text in [xs] is made of complete lines, and [items] are
    these lines and the messages of the error and warning signals, in sending order. *)
Inductive recorded : list msg -> list item -> Prop :=
| re_nil : recorded [] []
| re_str s ls xs is : segments s ls [] -> recorded xs is -> recorded (QStr s :: xs) (map IStr ls ++ is)
| re_err e xs is : recorded xs is -> recorded (QError e :: xs) (IMsg e :: is)
| re_warn e xs is : recorded xs is -> recorded (QWarning e :: xs) (IMsg e :: is)
| re_other x xs is : In x [QClose; QStop; QOther] -> recorded xs is -> recorded (x :: xs) is.

(** ** Processes that run at the same time *)

Inductive presult := Produced (rs : list (outcome mres)) | Waited (r : outcome unit).

(** A process that makes the calls [cs] on mirror [i], one after the other, whatever their
    results, and the main process calling wait().  [w] = ([i], [cs]). *)
Definition producer (w : nat * list mcall) : prog scmd presult :=
  sys_m (fst w) (bind (thread (map lm_call (snd w))) (fun rs => Ret (Produced rs))).
Definition waiter (fuel : nat) : prog scmd presult :=
  sys_p (bind (attempt (lp_wait fuel)) (fun r => Ret (Waited r))).
(** Thread [k] is the producer [work[k]]; the last one is the main process. *)
Definition processes (work : list (nat * list mcall)) (fuel : nat) : list (prog scmd presult) :=
  map producer work ++ [waiter fuel].

(** The producers have different mirrors, all of the main buffer's present queue. *)
Definition work_ok (d : psys) (work : list (nat * list mcall)) : Prop :=
  List.NoDup (map fst work) /\
  forall w, In w work -> fst w < length (s_mirs d) /\ m_q (mir_at d (fst w)) = m_q (mir_at d (s_cur d)).

(** What a producer does when it is alone: results, mirror and messages sent. *)
Definition alone (d : psys) (w : nat * list mcall) : list (outcome mres) * st menv :=
  runs 0 (map lm_call (snd w)) (idle (mkmenv (mir_at d (fst w)) [] 0 (s_state d))).
Definition emitted (d : psys) (w : nat * list mcall) : list msg := e_q (dat (snd (alone d w))).

(** More iterations than there will ever be messages. *)
Definition fuel_ok (d : psys) (work : list (nat * list mcall)) (fuel : nat) : Prop :=
  length (inbox d) + list_sum (map (fun w => length (emitted d w)) work) < fuel.

(** Exactly one end signal, at the end; only data before. *)
Definition ends_once (xs : list msg) : Prop :=
  exists pre e, xs = pre ++ [e] /\ Forall (fun x => is_data x = true) pre /\ is_end e = true.

(** A text that has no line break, or whose last line is complete. *)
Definition whole_lines (data : text) : Prop :=
  exists ls r, segments data ls r /\ (ls = [] \/ r = []).

(** A process that writes such texts, ends lines explicitly and sends warnings, and the log
    of what it says. *)
Inductive says : list mcall -> slog -> slog -> Prop :=
| sa_nil g : says [] g g
| sa_write data cs g g1 g2 : whole_lines data -> log_write data g g1 -> says cs g1 g2 -> says (CWrite data :: cs) g g2
| sa_newline cs g g1 g2 : log_new_line g g1 -> says cs g1 g2 -> says (CNewLine :: cs) g g2
| sa_warning e cs g dn p g2 : log_new_line g (mkslog dn p) ->
    says cs (mkslog (dn ++ [IMsg (gm_init (GMExc e))]) p) g2 -> says (CWarning e :: cs) g g2.
(** The items of a process that says [cs] and then closes its mirror. *)
Definition said (cs : list mcall) (exc : option excobj) (items : list item) : Prop :=
  exists g dn p, says cs slog0 g /\ log_new_line g (mkslog dn p) /\
    items = dn ++ match exc with Some e => [IMsg (gm_init (GMExc e))] | None => [] end.

(** A mirror at the beginning of its life: open, not stopped, not aggressive, empty. *)
Definition ready (d : psys) (i : nat) : Prop :=
  is_closed (mir_at d i) = false /\ stop_seen (get_menv i d) = false /\
  m_aggr (mir_at d i) = false /\ held (mir_at d i) = [].

(** A process with a mirror of its own that speaks in whole lines and closes the mirror at
    the end, and the items it says. *)
Definition line_process (d : psys) (w : nat * list mcall) (items : list item) : Prop :=
  exists cs exc, snd w = cs ++ [CClose exc] /\ ready d (fst w) /\ said cs exc items.

(** ** Threads of the main process that use the main buffer at the same time *)
Definition lp_pool (css : list (list pcall)) : list (prog scmd (list (outcome res))) :=
  map (fun cs => sys_p (thread (map lp_call cs))) css.
(** The same calls one after the other. *)
Fixpoint lp_hist (h : list (nat * pcall)) (s : st psys) : st psys :=
  match h with
  | [] => s
  | (t, c) :: h' => lp_hist h' (snd (run t (sys_p (lp_call c)) s))
  end.

(** Threads of one process that use the same mirror at the same time, and the same calls
    one after the other. *)
Definition mir_pool (css : list (list mcall)) : list (prog mcmd (list (outcome mres))) :=
  map (fun cs => thread (map lm_call cs)) css.
Fixpoint mir_hist (h : list (nat * mcall)) (s : st menv) : list (outcome mres) * st menv :=
  match h with
  | [] => ([], s)
  | (t, c) :: h' => let '(r, s1) := run t (lm_call c) s in
                    let '(rs, s2) := mir_hist h' s1 in (r :: rs, s2)
  end.

(** The lock of the mirror has been created; put() on its queue does not wait. *)
Definition has_lock (d : menv) : Prop := exists n, m_ref (e_mir d) = Some n.
Definition never_waits (d : menv) : Prop := e_qmax d = 0 \/ m_timeout (e_mir d) <> None.
(** The calls that have their whole effect in one section of the lock. *)
Definition one_section (c : mcall) : bool :=
  match c with
  | CWrite _ | CRead _ | CNewLine | CClear | CFlush | CClosed | CReadable | CWritable => true
  | _ => false
  end.

(** Calls that may send an end signal, and the number of end signals in a queue. *)
Definition may_end (c : mcall) : bool :=
  match c with CClose _ | CEof | CError _ => true | _ => false end.
Definition n_ends (q : list msg) : nat := length (List.filter is_end q).
Definition n_may_end (css : list (list mcall)) : nat := list_sum (map (fun cs => length (List.filter may_end cs)) css).

(** Calls that do not change the settings [aggressive] and [timeout]. *)
Definition fixed_settings (c : mcall) : bool := match c with CSetAggr _ | CSetTimeout _ => false | _ => true end.
