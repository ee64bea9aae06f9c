(** * LineBuf: model of [_LineBuffer] and [LineBuffer], /repo/syncstream/mproc.py:58-382

    The base-class methods as programs of atomic commands on the two shared objects
    [self.storage] (a deque) and [self.last_line] (a StringIO) and on the lock
    [self.__last_line_lock].  One command = one call of a C-implemented method, which
    CPython executes without interruption.
    Not modelled here: the attribute [_data_type] (a typing hint, mproc.py:66, never
    read); the context-manager methods of LineBuffer (mproc.py:363-382, see Ctx.v). *)
From Coq Require Import List NArith ZArith Bool Arith.
From Verif Require Import PyStr Prog PyIO Base.
Import ListNotations.
Local Open Scope prog_scope.
Local Open Scope nat_scope.

(** The shared data of a [_LineBuffer]: mproc.py:82-83. *)
Record lbuf := mklbuf { storage : deque item; last_line : sio }.

(** Primitive commands. *)
Inductive bcmd : Type -> Type :=
| FClosed : bcmd bool                  (* self.last_line.closed *)
| FTell : bcmd nat                     (* self.last_line.tell() *)
| FTruth : bcmd bool                   (* bool(self.last_line) *)
| FGetvalue : bcmd text                (* self.last_line.getvalue() *)
| FWrite (s : text) : bcmd nat         (* self.last_line.write(s) *)
| FSeek0 : bcmd unit                   (* self.last_line.seek(0, os.SEEK_SET) *)
| FTruncate0 : bcmd unit               (* self.last_line.truncate(0) *)
| FClose : bcmd unit                   (* self.last_line.close() *)
| FFlush : bcmd unit                   (* self.last_line.flush() *)
| DMaxlen : bcmd nat                   (* self.storage.maxlen *)
| DLen : bcmd nat                      (* len(self.storage) *)
| DItems : bcmd (list item)            (* tuple(self.storage), or unpacked in a tuple display *)
| DPopleft : bcmd item                 (* self.storage.popleft() *)
| DAppend (i : item) : bcmd unit       (* self.storage.append(i) *)
| DAppendleft (i : item) : bcmd unit   (* self.storage.appendleft(i) *)
| DExtend (l : list item) : bcmd unit  (* self.storage.extend(l) *)
| DRotate (n : nat) : bcmd unit        (* self.storage.rotate(n) *)
| DClear : bcmd unit.                  (* self.storage.clear() *)

Definition on_file {X} (f : sio -> outcome X * sio) (d : lbuf) : outcome X * lbuf :=
  let '(r, l) := f (last_line d) in (r, mklbuf (storage d) l).
Definition on_dq {X} (f : deque item -> outcome X * deque item) (d : lbuf)
  : outcome X * lbuf :=
  let '(r, q) := f (storage d) in (r, mklbuf q (last_line d)).

Definition bexec {X} (c : bcmd X) : lbuf -> outcome X * lbuf :=
  match c in bcmd X return lbuf -> outcome X * lbuf with
  | FClosed => on_file sio_closed
  | FTell => on_file sio_tell
  | FTruth => on_file sio_truth
  | FGetvalue => on_file sio_getvalue
  | FWrite s => on_file (sio_write s)
  | FSeek0 => on_file sio_seek0
  | FTruncate0 => on_file sio_truncate0
  | FClose => on_file sio_close
  | FFlush => on_file sio_flush
  | DMaxlen => on_dq (fun q => (Good (dmax q), q))
  | DLen => on_dq (fun q => (Good (length (dq q)), q))
  | DItems => on_dq (fun q => (Good (dq q), q))
  | DPopleft => on_dq dq_popleft
  | DAppend i => on_dq (fun q => (Good tt, dq_append i q))
  | DAppendleft i => on_dq (fun q => (Good tt, dq_appendleft i q))
  | DExtend l => on_dq (fun q => (Good tt, dq_extend l q))
  | DRotate n => on_dq (fun q => (Good tt, dq_rotate n q))
  | DClear => on_dq (fun q => (Good tt, dq_clear q))
  end.

(** Lock identifiers.  [LL] is [self.__last_line_lock], a [threading.Lock]
    (not re-entrant), mproc.py:84. *)
Definition LL : nat := 0.

Global Instance bsem : Sem bcmd lbuf := {| cexec := @bexec |}.

(** ** Constructor, mproc.py:66-84.  The argument is a Python value. *)
Inductive pyval := PyInt (z : Z) | PyBool (b : bool) | PyOther.
(** [isinstance(v, int)]: also true for bool. *)
Definition as_int (v : pyval) : option Z :=
  match v with PyInt z => Some z | PyBool b => Some (if b then 1 else 0)%Z | PyOther => None end.

Definition lb_init (maxlen : pyval) : outcome (st lbuf) :=
  match as_int maxlen with
  | None => Fail TypeError                                           (* 78-81 *)
  | Some z => if (z <? 1)%Z then Fail TypeError
              else Good (mkst (mklbuf (dq_new (Z.to_nat z)) sio_new) stdpp.base.empty)
  end.

(** ** Methods *)
Notation bop := (@op bcmd _).

(** mproc.py:86-92 *)
Definition lb_maxlen : prog bcmd nat := bop DMaxlen.

(** mproc.py:94-101 *)
Definition lb_len : prog bcmd nat :=
  max_len <- lb_maxlen ;;
  val_n_lines <- bop DLen ;;
  val_n_lines <- with_lock LL Ex
    (b <- bop FTruth ;; Ret (if b then val_n_lines + 1 else val_n_lines)) ;;
  Ret (if max_len =? 0 then val_n_lines else Nat.min max_len val_n_lines).

(** mproc.py:103-107 *)
Definition lb_closed : prog bcmd bool := with_lock LL Ex (bop FClosed).

(** mproc.py:162-172 *)
Definition lb_clear : prog bcmd unit :=
  with_lock LL Ex (bop FSeek0 ;; bop FTruncate0) ;;
  bop DClear.

(** mproc.py:109-118 *)
Definition lb_close : prog bcmd unit :=
  c <- with_lock LL Ex (bop FClosed) ;;
  if c then Ret tt
  else lb_clear ;; with_lock LL Ex (bop FClose).

(** mproc.py:120-127, 155-160: always raise OSError; 129-131, 151-153: always False. *)
Definition lb_fileno : prog bcmd unit := Raise OSError.
Definition lb_seek : prog bcmd unit := Raise OSError.
Definition lb_isatty : prog bcmd bool := Ret false.
Definition lb_seekable : prog bcmd bool := Ret false.

(** mproc.py:133-140 *)
Definition lb_readable : prog bcmd bool :=
  with_lock LL Ex (c <- bop FClosed ;; Ret (negb c)).
(** mproc.py:142-149 *)
Definition lb_writable : prog bcmd bool :=
  with_lock LL Ex (c <- bop FClosed ;; Ret (negb c)).

(** mproc.py:194-208, the default [parse_lines]. *)
Definition lb_parse_lines (lines : list item) : prog bcmd unit := bop (DExtend lines).

(** [__write], [write] and [new_line] call the overridable method [parse_lines], so they
    are written for any command language [C] that contains the buffer commands ([e]) and
    any program [parse]. *)
Section Overridable.
  Context {C : Type -> Type} (e : forall X, bcmd X -> C X)
          (parse : list item -> prog C unit).
  Local Notation eop c := (op (e _ c)).

  (** mproc.py:292-317, [__write]. *)
  Definition lb_write_body_gen (data : text) : prog C nat :=
    let message_lines := splitlines data in                              (* 297 *)
    let n_lines := length message_lines in                               (* 298 *)
    if (n_lines =? 1) && text_eqb (hd [] message_lines) [] then           (* 299 *)
      v <- eop FGetvalue ;;
      parse [IStr v] ;;                                                  (* 300 *)
      eop FSeek0 ;;                                                      (* 301 *)
      eop FTruncate0 ;;                                                  (* 302 *)
      Ret 1                                                              (* 303 *)
    else
      let '(message_lines, n_lines) :=
        if is_end_line_break data then (message_lines ++ [[]], n_lines + 1)  (* 304-306 *)
        else (message_lines, n_lines) in
      if 1 <? n_lines then                                               (* 307 *)
        v <- eop FGetvalue ;;
        let message_lines := (v ++ hd [] message_lines) :: tl message_lines in  (* 308 *)
        let last_line := last message_lines [] in                        (* 309: pop() *)
        let message_lines := removelast message_lines in
        parse (map IStr message_lines) ;;                                (* 310 *)
        eop FSeek0 ;;                                                    (* 311 *)
        eop FTruncate0 ;;                                                (* 312 *)
        eop (FWrite last_line)                                           (* 313 *)
      else if n_lines =? 1 then                                          (* 314 *)
        eop (FWrite (hd [] message_lines))                               (* 315 *)
      else Ret 0.                                                        (* 317 *)

  (** mproc.py:319-340; [self.writable()] (142-149) is inlined: the method cannot be
      affected by [parse_lines]. *)
  Definition lb_write_gen (data : text) : prog C nat :=
    w <- with_lock LL Ex (c <- eop FClosed ;; Ret (negb c)) ;;
    if negb w then Raise OSError                                         (* 336-337 *)
    else with_lock LL Ex (lb_write_body_gen data).                       (* 339-340 *)

  (** mproc.py:174-187; the caller already holds the lock, so [__write] is called. *)
  Definition lb_new_line_gen : prog C unit :=
    with_lock LL Ex
      (n <- eop FTell ;;
       if 0 <? n then lb_write_body_gen [LF] ;; Ret tt else Ret tt).
End Overridable.

(** With the buffer commands alone, and with the default [parse_lines]. *)
Definition lb_write_body (parse : list item -> prog bcmd unit) (data : text) : prog bcmd nat :=
  lb_write_body_gen (fun _ c => c) parse data.
Definition lb_write_with (parse : list item -> prog bcmd unit) (data : text) : prog bcmd nat :=
  lb_write_gen (fun _ c => c) parse data.
Definition lb_write (data : text) : prog bcmd nat := lb_write_with lb_parse_lines data.
Definition lb_new_line_with (parse : list item -> prog bcmd unit) : prog bcmd unit :=
  lb_new_line_gen (fun _ c => c) parse.
Definition lb_new_line : prog bcmd unit := lb_new_line_with lb_parse_lines.

(** mproc.py:189-192 *)
Definition lb_flush : prog bcmd unit := with_lock LL Ex (bop FFlush).

(** mproc.py:210-229 *)
Definition lb_read_all : prog bcmd (list item) :=
  pos <- bop FTell ;;
  let has_last_line := 0 <? pos in                                     (* 215 *)
  n_lines <- bop DLen ;;                                                (* 216 *)
  if has_last_line then
    len_max <- bop DMaxlen ;;                                           (* 218 *)
    if (negb (len_max =? 0)) && (n_lines =? len_max) then              (* 219 *)
      value <- bop DPopleft ;;                                          (* 220 *)
      its <- bop DItems ;;
      v <- bop FGetvalue ;;                                             (* 221 *)
      bop (DAppendleft value) ;;                                        (* 222 *)
      Ret (its ++ [IStr v])
    else if 0 <? n_lines then                                          (* 223 *)
      its <- bop DItems ;;
      v <- bop FGetvalue ;;
      Ret (its ++ [IStr v])                                            (* 224 *)
    else
      v <- bop FGetvalue ;;
      Ret [IStr v]                                                     (* 226 *)
  else
    bop DItems.                                                         (* 229 *)

(** mproc.py:250-253, the loop of [__read_n]: [n] times pop left and append right. *)
Fixpoint lb_read_loop (n : nat) (results : list item) : prog bcmd (list item) :=
  match n with
  | O => Ret results
  | S n' => value <- bop DPopleft ;;
            bop (DAppend value) ;;
            lb_read_loop n' (results ++ [value])
  end.

(** mproc.py:231-258, for [size >= 1].  [preserved_value is None] is modelled by an
    option (no stored item is the Python value None). *)
Definition lb_read_n (size : nat) : prog bcmd (list item) :=
  pos <- bop FTell ;;
  let has_last_line := 0 <? pos in                                     (* 236 *)
  n_lines <- bop DLen ;;                                                (* 237 *)
  len_max <- bop DMaxlen ;;                                             (* 238 *)
  preserved_value <-
    (if has_last_line && negb (len_max =? 0) && (n_lines =? len_max)   (* 239 *)
     then v <- bop DPopleft ;; Ret (Some v)                             (* 240 *)
     else Ret None) ;;                                                 (* 242 *)
  let n_read := Nat.min                                                (* 243-246 *)
    (if has_last_line then size - 1 else size)
    (match preserved_value with None => n_lines | Some _ => n_lines - 1 end) in
  (if 0 <? n_read then bop (DRotate n_read) else Ret tt) ;;             (* 248-249 *)
  results <- lb_read_loop n_read [] ;;                                 (* 247, 250-253 *)
  if has_last_line then                                                (* 254 *)
    v <- bop FGetvalue ;;                                               (* 255 *)
    (match preserved_value with                                        (* 256-257 *)
     | Some x => bop (DAppendleft x)
     | None => Ret tt
     end) ;;
    Ret (results ++ [IStr v])
  else Ret results.

(** mproc.py:260-290; [size] is [None] or a Python int. *)
Definition lb_read (size : option Z) : prog bcmd (list item) :=
  r <- lb_readable ;;
  if negb r then Raise OSError                                         (* 281-282 *)
  else with_lock LL Ex
         match size with
         | None => lb_read_all                                         (* 285-286 *)
         | Some z => if (0 <? z)%Z then lb_read_n (Z.to_nat z)         (* 287-288 *)
                     else Ret []                                       (* 290 *)
         end.

(** ** The public interface as a type of calls *)
Inductive call :=
| Write (data : text) | Read (size : option Z) | NewLine | Clear | Close | Flush
| Len | Closed | Readable | Writable | Maxlen | Fileno | Seek | Isatty | Seekable.

Inductive res := RUnit | RNat (n : nat) | RBool (b : bool) | RItems (l : list item).

Definition ret_as {X} (f : X -> res) (p : prog bcmd X) : prog bcmd res :=
  x <- p ;; Ret (f x).
Definition to_unit : unit -> res := fun _ => RUnit.

Definition lb_call (c : call) : prog bcmd res :=
  match c with
  | Write data => ret_as RNat (lb_write data)
  | Read size => ret_as RItems (lb_read size)
  | NewLine => ret_as to_unit lb_new_line
  | Clear => ret_as to_unit lb_clear
  | Close => ret_as to_unit lb_close
  | Flush => ret_as to_unit lb_flush
  | Len => ret_as RNat lb_len
  | Closed => ret_as RBool lb_closed
  | Readable => ret_as RBool lb_readable
  | Writable => ret_as RBool lb_writable
  | Maxlen => ret_as RNat lb_maxlen
  | Fileno => ret_as to_unit lb_fileno
  | Seek => ret_as to_unit lb_seek
  | Isatty => ret_as RBool lb_isatty
  | Seekable => ret_as RBool lb_seekable
  end.

(** A fresh buffer of the given size. *)
Definition fresh (maxlen : nat) : st lbuf :=
  mkst (mklbuf (dq_new maxlen) sio_new) stdpp.base.empty.

(** Histories: each call made by some thread, one after the other. *)
Definition hist : Type := list (nat * call).
Fixpoint run_hist (h : hist) (s : st lbuf) : list (outcome res) * st lbuf :=
  match h with
  | [] => ([], s)
  | (t, c) :: h' => let '(r, s1) := run t (lb_call c) s in
                    let '(rs, s2) := run_hist h' s1 in (r :: rs, s2)
  end.

(** States reachable by sequential histories. *)
Definition reachable (m : nat) (s : st lbuf) : Prop :=
  exists h, s = snd (run_hist h (fresh m)).

