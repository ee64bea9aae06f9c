(** * PyIO: io.StringIO and collections.deque

    Standard-library objects used by /repo/syncstream/mproc.py (lines 82-83, 432) and
    host.py (line 92); modelled from the Python documentation and the CPython 3.11
    sources, checked on the installed stdlib. *)
From Coq Require Import List NArith ZArith Bool Arith Lia.
From Verif Require Import PyStr Prog.
Import ListNotations.

(** ** io.StringIO() (newline="\n": no newline translation) *)
Record sio := mksio { sval : text; spos : nat; sclosed : bool }.

Definition sio_new : sio := mksio [] 0 false.

(** Every operation of a closed StringIO except [closed], [close], [flush] raises
    ValueError. *)
Definition sio_guard {X} (f : sio) (r : outcome X * sio) : outcome X * sio :=
  if sclosed f then (Fail ValueError, f) else r.

(** [f.write(s)]: overwrite at the current position, padding with NUL when the position
    is beyond the end; nothing happens for the empty text; returns [len(s)]. *)
Definition sio_write (s : text) (f : sio) : outcome nat * sio :=
  sio_guard f
    (Good (length s),
     match s with
     | [] => f
     | _ => let pad := firstn (spos f) (sval f ++ repeat 0%N (spos f - length (sval f))) in
            mksio (pad ++ s ++ skipn (spos f + length s) (sval f))
                  (spos f + length s) false
     end).

Definition sio_getvalue (f : sio) : outcome text * sio := sio_guard f (Good (sval f), f).
Definition sio_tell (f : sio) : outcome nat * sio := sio_guard f (Good (spos f), f).
(** [f.seek(0, os.SEEK_SET)] *)
Definition sio_seek0 (f : sio) : outcome unit * sio :=
  sio_guard f (Good tt, mksio (sval f) 0 false).
(** [f.truncate(0)]: the position does not move. *)
Definition sio_truncate0 (f : sio) : outcome unit * sio :=
  sio_guard f (Good tt, mksio [] (spos f) false).
(** [f.read(size)]: from the current position; a negative size reads to the end. *)
Definition sio_read (size : Z) (f : sio) : outcome text * sio :=
  sio_guard f
    (let rest := skipn (spos f) (sval f) in
     let got := if (size <? 0)%Z then rest else firstn (Z.to_nat size) rest in
     (Good got, mksio (sval f) (spos f + length got) false)).
Definition sio_closed (f : sio) : outcome bool * sio := (Good (sclosed f), f).
Definition sio_close (f : sio) : outcome unit * sio :=
  (Good tt, mksio (sval f) (spos f) true).
(** [f.flush()]: no effect, also on a closed StringIO (CPython 3.11). *)
Definition sio_flush (f : sio) : outcome unit * sio := (Good tt, f).
(** [bool(f)]: StringIO defines neither __bool__ nor __len__, so it is always true. *)
Definition sio_truth (f : sio) : outcome bool * sio := (Good true, f).

(** ** collections.deque(maxlen=n), n an int >= 1; left end first *)
Record deque (A : Type) := mkdeque { dq : list A; dmax : nat }.
Arguments mkdeque {A} _ _. Arguments dq {A} _. Arguments dmax {A} _.

Section Deque.
  Context {A : Type}.
  Definition dq_new (n : nat) : deque A := mkdeque [] n.

  (** Drop items from the left / right until at most [dmax] remain (at most one). *)
  Definition trim_left (n : nat) (l : list A) : list A :=
    if n <? length l then tl l else l.
  Definition trim_right (n : nat) (l : list A) : list A :=
    if n <? length l then removelast l else l.

  Definition dq_append (x : A) (d : deque A) : deque A :=
    mkdeque (trim_left (dmax d) (dq d ++ [x])) (dmax d).
  Definition dq_appendleft (x : A) (d : deque A) : deque A :=
    mkdeque (trim_right (dmax d) (x :: dq d)) (dmax d).
  (** [extend]: append the items one by one. *)
  Definition dq_extend (xs : list A) (d : deque A) : deque A :=
    fold_left (fun d x => dq_append x d) xs d.
  Definition dq_popleft (d : deque A) : outcome A * deque A :=
    match dq d with
    | [] => (Fail IndexError, d)
    | x :: l => (Good x, mkdeque l (dmax d))
    end.
  (** [rotate(n)] for [n >= 0]: the last [n mod len] items move to the front. *)
  Definition dq_rotate (n : nat) (d : deque A) : deque A :=
    match dq d with
    | [] => d
    | _ => let k := length (dq d) - n mod length (dq d) in
           mkdeque (skipn k (dq d) ++ firstn k (dq d)) (dmax d)
    end.
  Definition dq_clear (d : deque A) : deque A := mkdeque [] (dmax d).
End Deque.
