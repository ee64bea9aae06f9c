(** * Proc: model of LineProcMirror and LineProcBuffer, /repo/syncstream/mproc.py:385-941

    Two command languages: [mcmd], what the methods of a mirror do (mirror object, queue,
    shared state), and [pcmd], what the methods of the main buffer do.  [psys] is the whole
    system: mirror objects, queues, the shared state and the main buffer.
    Not modelled here: the context-manager methods (Ctx.v); the manager process and the
    transport of messages between processes (a manager queue is an atomic FIFO, a manager
    dict/lock is an atomic object); failures of the manager connection. *)
From Coq Require Import List NArith ZArith Bool Arith.
From Verif Require Import PyStr Prog PyIO Base LineBuf.
Import ListNotations.
Local Open Scope prog_scope.
Local Open Scope nat_scope.

(** Messages in the queue: the dicts {"type": .., "data": ..} of mproc.py:601, 616, 633,
    660, 888; [QOther]: any other type (no method of the package sends it). *)
Inductive msg :=
| QStr (data : text)
| QError (g : gmsg)
| QWarning (g : gmsg)
| QClose
| QStop
| QOther.

(** ** The mirror object, mproc.py:432-450.
    [m_buf] = __buffer; [m_ref] = __buffer_lock_ (None or the number of the RLock object);
    [m_aggr] = aggressive; [m_timeout] = __timeout (in ms; __block is "timeout is None",
    mproc.py:438 and 586, hence derived; Timeout.v has both, for threads that change them); [m_has] = __state_lock is not
    None; [m_q] = __queue (number of the queue object).  [m_id], [m_cnt] only serve to give
    a different number to every RLock object created. *)
Record mir := mkmir {
  m_buf : sio; m_ref : option nat; m_aggr : bool; m_timeout : option Z; m_has : bool;
  m_q : nat; m_id : nat; m_cnt : nat }.

Definition mir_new (id q : nat) (aggressive : bool) (timeout : option Z) (has : bool) : mir :=
  mkmir sio_new None aggressive timeout has q id 0.

(** Number of the [n]-th RLock object of mirror [id] (Cantor pairing). *)
Definition lock_no (id n : nat) : nat := (id + n) * S (id + n) / 2 + n.
(** Lock identifiers: RLocks are odd (see Prog.v) and above the other locks. *)
Definition mlock (n : nat) : nat := 2 * n + 7.
(** [self.__state_lock], a manager Lock (mproc.py:786); [self.__config_lock] (797). *)
Definition STL : nat := 4.
Definition CFG : nat := 2.

(** ** Commands of a mirror *)
Inductive mcmd : Type -> Type :=
| MRef : mcmd (option nat)             (* read self.__buffer_lock_ *)
| MNew : mcmd unit                     (* self.__buffer_lock_ = threading.RLock() *)
| MClosed : mcmd bool                  (* self.__buffer.closed *)
| MTell : mcmd nat                     (* self.__buffer.tell() *)
| MGetvalue : mcmd text                (* self.__buffer.getvalue() *)
| MWrite (s : text) : mcmd nat         (* self.__buffer.write(s) *)
| MSeek0 : mcmd unit                   (* self.__buffer.seek(0, os.SEEK_SET) *)
| MTruncate0 : mcmd unit               (* self.__buffer.truncate(0) *)
| MClose : mcmd unit                   (* self.__buffer.close() *)
| MFlush : mcmd unit                   (* self.__buffer.flush() *)
| MRead (size : Z) : mcmd text         (* self.__buffer.read(size) *)
| MAggr : mcmd bool                    (* self.aggressive *)
| MSetAggr (b : bool) : mcmd unit      (* self.aggressive = b *)
| MTimeout : mcmd (option Z)           (* self.__timeout *)
| MSetTimeout (t : option Z) : mcmd unit
| MHas : mcmd bool                     (* self.__state_lock is not None *)
| MStTruth : mcmd bool                 (* bool(self.__state): not empty *)
| MStGet : mcmd bool                   (* self.__state.get("closed", False) *)
| MPut (m : msg) (block : bool) (timeout : option Z) : mcmd unit. (* self.__queue.put *)

(** What a mirror sees: itself, its queue (with its maxsize, 0 = unlimited), the shared
    state dict ([None]: no key "closed", i.e. empty). *)
Record menv := mkmenv { e_mir : mir; e_q : list msg; e_qmax : nat; e_state : option bool }.

Definition on_buf {X} (f : sio -> outcome X * sio) (d : menv) : outcome X * menv :=
  let m := e_mir d in
  let '(r, b) := f (m_buf m) in
  (r, mkmenv (mkmir b (m_ref m) (m_aggr m) (m_timeout m) (m_has m) (m_q m) (m_id m) (m_cnt m))
             (e_q d) (e_qmax d) (e_state d)).

Definition q_full (qmax : nat) (q : list msg) : bool := (0 <? qmax) && (qmax <=? length q).

Definition mexec {X} (c : mcmd X) : menv -> outcome X * menv :=
  match c in mcmd X return menv -> outcome X * menv with
  | MRef => fun d => (Good (m_ref (e_mir d)), d)
  | MNew => fun d => let m := e_mir d in
      (Good tt, mkmenv (mkmir (m_buf m) (Some (lock_no (m_id m) (m_cnt m))) (m_aggr m) (m_timeout m)
                              (m_has m) (m_q m) (m_id m) (S (m_cnt m)))
                       (e_q d) (e_qmax d) (e_state d))
  | MClosed => on_buf sio_closed
  | MTell => on_buf sio_tell
  | MGetvalue => on_buf sio_getvalue
  | MWrite s => on_buf (sio_write s)
  | MSeek0 => on_buf sio_seek0
  | MTruncate0 => on_buf sio_truncate0
  | MClose => on_buf sio_close
  | MFlush => on_buf sio_flush
  | MRead z => on_buf (sio_read z)
  | MAggr => fun d => (Good (m_aggr (e_mir d)), d)
  | MSetAggr b => fun d => let m := e_mir d in
      (Good tt, mkmenv (mkmir (m_buf m) (m_ref m) b (m_timeout m) (m_has m) (m_q m) (m_id m) (m_cnt m))
                       (e_q d) (e_qmax d) (e_state d))
  | MTimeout => fun d => (Good (m_timeout (e_mir d)), d)
  | MSetTimeout t => fun d => let m := e_mir d in
      (Good tt, mkmenv (mkmir (m_buf m) (m_ref m) (m_aggr m) t (m_has m) (m_q m) (m_id m) (m_cnt m))
                       (e_q d) (e_qmax d) (e_state d))
  | MHas => fun d => (Good (m_has (e_mir d)), d)
  | MStTruth => fun d => (Good (match e_state d with None => false | Some _ => true end), d)
  | MStGet => fun d => (Good (match e_state d with None => false | Some b => b end), d)
  | MPut m block _ => fun d =>
      (* queue.put: on a full queue wait (block) or raise queue.Full at once (not block;
         the timeout is ignored then).  block together with a timeout never occurs. *)
      if q_full (e_qmax d) (e_q d)
      then (if block then (Block, d) else (Fail QueueFull, d))
      else (Good tt, mkmenv (e_mir d) (e_q d ++ [m]) (e_qmax d) (e_state d))
  end.

Global Instance msem : Sem mcmd menv := {| cexec := @mexec |}.

Notation mop := (@op mcmd _).

(** ** Methods of LineProcMirror *)

(** The property [__buffer_lock], mproc.py:474-483. *)
Definition lm_lock : prog mcmd nat :=
  r <- mop MRef ;;                                             (* 481 *)
  match r with None => mop MNew | Some _ => Ret tt end ;;      (* 482 *)
  r2 <- mop MRef ;;                                            (* 483 *)
  match r2 with
  | Some n => Ret (mlock n)
  | None => Raise AttributeError      (* [with None]: not reachable, MNew sets it *)
  end.
(** [with self.__buffer_lock: body] *)
Definition with_m {A} (body : prog mcmd A) : prog mcmd A :=
  l <- lm_lock ;; with_lock l Ex body.

(** mproc.py:485-489 *)
Definition lm_closed : prog mcmd bool := with_m (mop MClosed).
(** mproc.py:525-532, 534-541 *)
Definition lm_readable : prog mcmd bool := with_m (c <- mop MClosed ;; Ret (negb c)).
Definition lm_writable : prog mcmd bool := with_m (c <- mop MClosed ;; Ret (negb c)).
(** mproc.py:512-519, 521-523, 543-545, 547-552 *)
Definition lm_fileno : prog mcmd unit := Raise OSError.
Definition lm_isatty : prog mcmd bool := Ret false.
Definition lm_seekable : prog mcmd bool := Ret false.
Definition lm_seek : prog mcmd unit := Raise OSError.

(** mproc.py:554-567 *)
Definition lm_clear : prog mcmd unit := with_m (mop MSeek0 ;; mop MTruncate0).

(** [self.__queue.put(m, block=self.__block, timeout=self.__timeout)] *)
Definition lm_put (m : msg) : prog mcmd unit :=
  t <- mop MTimeout ;;
  mop (MPut m (match t with None => true | Some _ => false end) t).

(** mproc.py:638-661 *)
Definition lm_send_data (data : text) : prog mcmd unit :=
  c <- with_m (mop MClosed) ;;
  if c then Ret tt else lm_put (QStr data).

(** mproc.py:690-725, [__write].  No command raises queue.Empty, so the [try] has no effect. *)
Definition lm_write_body (data : text) : prog mcmd nat :=
  has <- mop MHas ;;                                                     (* 696 *)
  (if has then
     with_lock STL Ex                                                    (* 697 *)
       (t <- mop MStTruth ;;
        c <- (if t then mop MStGet else Ret false) ;;                    (* 698-700 *)
        if c then Raise StopIteration else Ret tt)                       (* 701-704 *)
   else Ret tt) ;;
  let message_lines := splitlines data in                                (* 707 *)
  ag <- mop MAggr ;;
  if ag then                                                             (* 708 *)
    lm_send_data data ;; Ret (length data)                               (* 709-710 *)
  else
    let n_lines := length message_lines in                               (* 711 *)
    if (1 <? n_lines) || ((n_lines =? 1) && text_eqb (hd [] message_lines) [])
       || is_end_line_break data then                                    (* 712-716 *)
      res <- mop (MWrite data) ;;                                        (* 717 *)
      v <- mop MGetvalue ;;
      lm_send_data v ;;                                                  (* 718 *)
      mop MSeek0 ;;                                                      (* 719 *)
      mop MTruncate0 ;;                                                  (* 720 *)
      Ret res                                                            (* 721 *)
    else if n_lines =? 1 then mop (MWrite data)                          (* 722-723 *)
    else Ret 0.                                                          (* 725 *)

(** mproc.py:727-751 *)
Definition lm_write (data : text) : prog mcmd nat :=
  w <- lm_writable ;;
  if negb w then Raise OSError else with_m (lm_write_body data).

(** mproc.py:569-575 *)
Definition lm_new_line : prog mcmd unit :=
  with_m (n <- mop MTell ;;
          if 0 <? n then lm_write_body [LF] ;; Ret tt else Ret tt).

(** mproc.py:588-602, 604-619, 621-636 *)
Definition lm_send_signal (m : msg) : prog mcmd unit :=
  c <- with_m (mop MClosed) ;;
  if c then Ret tt else lm_new_line ;; lm_put m.
Definition lm_send_eof : prog mcmd unit := lm_send_signal QClose.
Definition lm_send_error (e : excobj) : prog mcmd unit :=
  lm_send_signal (QError (gm_init (GMExc e))).
Definition lm_send_warning (e : excobj) : prog mcmd unit :=
  lm_send_signal (QWarning (gm_init (GMExc e))).

(** mproc.py:491-510 *)
Definition lm_close (exc : option excobj) : prog mcmd unit :=
  c <- with_m (mop MClosed) ;;
  if c then Ret tt
  else (match exc with None => lm_send_eof | Some e => lm_send_error e end) ;;
       lm_clear ;;
       with_m (mop MClose).

(** mproc.py:663-666 *)
Definition lm_flush : prog mcmd unit := with_m (mop MFlush).

(** mproc.py:668-688 *)
Definition lm_read (size : option Z) : prog mcmd text :=
  r <- lm_readable ;;
  if negb r then Raise OSError
  else with_m (match size with None => mop MGetvalue | Some z => mop (MRead z) end).

(** Public calls of a mirror. *)
Inductive mcall :=
| CWrite (data : text) | CRead (size : option Z) | CNewLine | CClear | CClose (exc : option excobj)
| CFlush | CEof | CError (e : excobj) | CWarning (e : excobj) | CSendData (data : text)
| CClosed | CReadable | CWritable | CFileno | CSeek | CIsatty | CSeekable
| CSetAggr (b : bool) | CSetTimeout (t : option Z).

Inductive mres := MUnit | MNat (n : nat) | MBool (b : bool) | MText (t : text).

Definition mret {X} (f : X -> mres) (p : prog mcmd X) : prog mcmd mres := x <- p ;; Ret (f x).
Definition munit : unit -> mres := fun _ => MUnit.

Definition lm_call (c : mcall) : prog mcmd mres :=
  match c with
  | CWrite data => mret MNat (lm_write data)
  | CRead size => mret MText (lm_read size)
  | CNewLine => mret munit lm_new_line
  | CClear => mret munit lm_clear
  | CClose exc => mret munit (lm_close exc)
  | CFlush => mret munit lm_flush
  | CEof => mret munit lm_send_eof
  | CError e => mret munit (lm_send_error e)
  | CWarning e => mret munit (lm_send_warning e)
  | CSendData data => mret munit (lm_send_data data)
  | CClosed => mret MBool lm_closed
  | CReadable => mret MBool lm_readable
  | CWritable => mret MBool lm_writable
  | CFileno => mret munit lm_fileno
  | CSeek => mret munit lm_seek
  | CIsatty => mret MBool lm_isatty
  | CSeekable => mret MBool lm_seekable
  | CSetAggr b => mret munit (mop (MSetAggr b))
  | CSetTimeout t => mret munit (mop (MSetTimeout t))
  end.

(** Pickling a mirror (to send it to a process), the default for the attributes of
    mproc.py:432-450 in this order: a closed StringIO and an RLock cannot be pickled; the
    copy [id] has the same attributes otherwise. *)
Definition mir_pickle (id : nat) (m : mir) : outcome mir :=
  if sclosed (m_buf m) then Fail ValueError
  else match m_ref m with
  | Some _ => Fail TypeError
  | None => Good (mkmir (m_buf m) None (m_aggr m) (m_timeout m) (m_has m) (m_q m) id 0)
  end.

(** ** The whole system *)
Record psys := mkps {
  s_mirs : list mir;            (* mirror objects (in any process) *)
  s_qs : list (list msg);       (* manager queues, all unlimited (mproc.py:791, 851) *)
  s_state : option bool;        (* manager dict (785): value of "closed", None if cleared *)
  s_main : lbuf;                (* storage and last_line of the main buffer *)
  s_n : Z;                      (* n_mirrors *)
  s_cur : nat;                  (* position of self.__mirror in s_mirs *)
  s_maxlen : nat }.             (* self.__maxlen (796) *)

Definition mir0 : mir := mir_new 0 0 false None true.
Definition mir_at (d : psys) (i : nat) : mir := nth i (s_mirs d) mir0.

(** Replace position [i] (nothing happens beyond the end). *)
Fixpoint set_nth {A} (i : nat) (x : A) (l : list A) : list A :=
  match l, i with
  | [], _ => []
  | _ :: l', O => x :: l'
  | y :: l', S i' => y :: set_nth i' x l'
  end.

(** Mirror [i]'s view of the system. *)
Definition get_menv (i : nat) (d : psys) : menv :=
  mkmenv (mir_at d i) (nth (m_q (mir_at d i)) (s_qs d) []) 0 (s_state d).
Definition put_menv (i : nat) (e : menv) (d : psys) : psys :=
  mkps (set_nth i (e_mir e) (s_mirs d)) (set_nth (m_q (mir_at d i)) (e_q e) (s_qs d))
       (e_state e) (s_main d) (s_n d) (s_cur d) (s_maxlen d).

(** Commands of the main buffer. *)
Inductive pcmd : Type -> Type :=
| PB {X} (c : bcmd X) : pcmd X          (* on self.storage / self.last_line *)
| PN : pcmd Z                           (* self.n_mirrors *)
| PSetN (z : Z) : pcmd unit             (* self.n_mirrors = z *)
| PMaxlen : pcmd nat                    (* self.__maxlen *)
| PGet : pcmd msg                       (* queue.get() of self.__mirror's queue *)
| PPut (m : msg) : pcmd unit            (* queue.put(m) of self.__mirror's queue *)
| PStSet (b : bool) : pcmd unit         (* self.__state["closed"] = b *)
| PStClear : pcmd unit                  (* self.__state.clear() *)
| PNewMirror : pcmd unit                (* self.__mirror = LineProcMirror(.., manager.Queue(), ..) *)
| PMirror : pcmd nat.                   (* self.__mirror (its position) *)

Definition cur_q (d : psys) : nat := m_q (mir_at d (s_cur d)).

Definition pexec {X} (c : pcmd X) : psys -> outcome X * psys :=
  match c in pcmd X return psys -> outcome X * psys with
  | PB c => fun d => let '(r, b) := bexec c (s_main d) in
      (r, mkps (s_mirs d) (s_qs d) (s_state d) b (s_n d) (s_cur d) (s_maxlen d))
  | PN => fun d => (Good (s_n d), d)
  | PSetN z => fun d =>
      (Good tt, mkps (s_mirs d) (s_qs d) (s_state d) (s_main d) z (s_cur d) (s_maxlen d))
  | PMaxlen => fun d => (Good (s_maxlen d), d)
  | PGet => fun d =>
      match nth (cur_q d) (s_qs d) [] with
      | [] => (Block, d)
      | m :: q => (Good m, mkps (s_mirs d) (set_nth (cur_q d) q (s_qs d)) (s_state d) (s_main d)
                                (s_n d) (s_cur d) (s_maxlen d))
      end
  | PPut m => fun d =>
      (Good tt, mkps (s_mirs d) (set_nth (cur_q d) (nth (cur_q d) (s_qs d) [] ++ [m]) (s_qs d))
                     (s_state d) (s_main d) (s_n d) (s_cur d) (s_maxlen d))
  | PStSet b => fun d =>
      (Good tt, mkps (s_mirs d) (s_qs d) (Some b) (s_main d) (s_n d) (s_cur d) (s_maxlen d))
  | PStClear => fun d =>
      (Good tt, mkps (s_mirs d) (s_qs d) None (s_main d) (s_n d) (s_cur d) (s_maxlen d))
  | PNewMirror => fun d =>
      let i := length (s_mirs d) in
      (Good tt, mkps (s_mirs d ++ [mir_new i (length (s_qs d)) false None true]) (s_qs d ++ [[]])
                     (s_state d) (s_main d) (s_n d) i (s_maxlen d))
  | PMirror => fun d => (Good (s_cur d), d)
  end.

(** Commands of the system: mirror [i] or the main buffer. *)
Inductive scmd : Type -> Type :=
| SM (i : nat) {X} (c : mcmd X) : scmd X
| SP {X} (c : pcmd X) : scmd X.

Definition sexec {X} (c : scmd X) : psys -> outcome X * psys :=
  match c in scmd X return psys -> outcome X * psys with
  | SM i c => fun d => let '(r, e) := mexec c (get_menv i d) in (r, put_menv i e d)
  | SP c => pexec c
  end.
Global Instance psem : Sem pcmd psys := {| cexec := @pexec |}.
Global Instance ssem : Sem scmd psys := {| cexec := @sexec |}.

Definition e_pb : forall X, bcmd X -> pcmd X := fun X c => PB c.
Definition on_main {A} (p : prog bcmd A) : prog pcmd A := lift e_pb p.
Notation pop := (@op pcmd _).

(** ** Methods of LineProcBuffer; the others are those of [_LineBuffer] through [on_main]. *)

(** mproc.py:799-802 *)
Definition lp_maxlen : prog pcmd nat := pop PMaxlen.

(** mproc.py:94-101 with the property [maxlen] of LineProcBuffer *)
Definition lp_len : prog pcmd nat :=
  max_len <- lp_maxlen ;;
  val_n_lines <- pop (PB DLen) ;;
  val_n_lines <- with_lock LL Ex
    (b <- pop (PB FTruth) ;; Ret (if b then val_n_lines + 1 else val_n_lines)) ;;
  Ret (if max_len =? 0 then val_n_lines else Nat.min max_len val_n_lines).

(** mproc.py:804-814; [self.n_mirrors += 1] reads and then stores. *)
Definition lp_mirror : prog pcmd nat :=
  n <- pop PN ;; pop (PSetN (n + 1)%Z) ;; pop PMirror.

(** mproc.py:816-828 *)
Definition lp_stop_all : prog pcmd unit := with_lock STL Ex (pop (PStSet true)).

(** mproc.py:830-854 *)
Definition lp_reset : prog pcmd unit :=
  n <- pop PN ;;
  if (0 <? n)%Z then Raise TypeError
  else with_lock STL Ex (pop PStClear ;; pop (PStSet false)) ;;
       pop PNewMirror.

(** mproc.py:856-869 *)
Definition lp_check_close : prog pcmd bool :=
  n <- pop PN ;; pop (PSetN (n - 1)%Z) ;;
  n' <- pop PN ;; Ret (0 <? n')%Z.

(** mproc.py:871-889 *)
Definition lp_force_stop : prog pcmd unit := pop (PPut QStop).

(** mproc.py:891-922 *)
Definition lp_receive : prog pcmd bool :=
  with_lock CFG Ex
    (data <- pop PGet ;;
     match data with
     | QStr s => on_main (lb_write s) ;; Ret true
     | QError obj => pop (PB (DAppend (IMsg obj))) ;; lp_check_close
     | QWarning obj => pop (PB (DAppend (IMsg obj))) ;; Ret true
     | QClose => lp_check_close
     | QStop => pop (PSetN 0%Z) ;; Ret false
     | QOther => Ret false
     end).

(** mproc.py:924-927.  [fuel]: bound on the number of iterations; the results below hold
    for every fuel that is large enough (OutOfFuel is never reached). *)
Fixpoint lp_wait (fuel : nat) : prog pcmd unit :=
  match fuel with
  | O => Raise OutOfFuel
  | S f => b <- lp_receive ;; if b then lp_wait f else Ret tt
  end.

(** mproc.py:929-941 *)
Definition lp_write (data : text) : prog pcmd nat := Raise NotImplementedError.

(** Constructor, mproc.py:775-797 (maxlen already validated by the base class; int(maxlen)). *)
Definition lp_init (maxlen : pyval) : outcome (st psys) :=
  match lb_init maxlen with
  | Good s => Good (mkst (mkps [mir_new 0 0 false None true] [[]] (Some false) (dat s) 0%Z 0
                               (dmax (storage (dat s)))) (lks s))
  | Fail e => Fail e
  | Block => Block
  end.

(** Programs of the whole system. *)
Definition sys_m {A} (i : nat) (p : prog mcmd A) : prog scmd A := lift (fun X c => SM i c) p.
Definition sys_p {A} (p : prog pcmd A) : prog scmd A := lift (fun X c => SP c) p.
