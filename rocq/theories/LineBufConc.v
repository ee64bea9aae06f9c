(** * LineBufConc: concurrent use of a LineBuffer, definitions for C16-C19

    Threads are lists of calls of the public methods of one [LineBuffer]
    (/repo/syncstream/mproc.py:58-382); they are interleaved at every single operation on
    the StringIO, the deque and the lock. *)
From stdpp Require Import gmap.
From Coq Require Import List Bool Arith.
From Verif Require Import PyStr Prog PyIO Base LineBuf.
Import ListNotations.

(** The pool: thread [i] makes the calls [css !! i] one after the other. *)
Definition lb_pool (css : list (list call)) : list (prog bcmd (list (outcome res))) :=
  map (fun cs => thread (map lb_call cs)) css.

(** The methods that touch the buffer under the lock only. *)
Definition locked_call (c : call) : bool :=
  match c with
  | Write _ | Read _ | NewLine | Flush | Readable | Writable | Closed => true
  | _ => false
  end.

(** A state that a sequential history from a fresh buffer can reach and that is not closed. *)
Definition open_state (m : nat) (s : st lbuf) : Prop :=
  reachable m s /\ sclosed (last_line (dat s)) = false.
