(** * Ctx: sys.stdout and sys.stderr under the context managers of the package

    LineBuffer (mproc.py:363-382), LineProcMirror (mproc.py:452-473), LineFileBuffer
    (file.py:119-144), LineHostMirror (host.py:117-137), redirect_stdout and redirect_stderr
    (base.py:124-165, which delegate to contextlib).  Streams and objects are numbered;
    [None] is Python's None.  Not modelled: exceptions that arrive in the middle of
    __enter__ or __exit__ from outside (KeyboardInterrupt), code that assigns
    sys.stdout itself. *)
From Coq Require Import List Bool Arith.
Import ListNotations.
Local Open Scope nat_scope.

Record sys := mksys {
  out : option nat;                            (* sys.stdout *)
  err : option nat;                            (* sys.stderr *)
  saved : nat -> option nat * option nat;      (* self.__stdout, self.__stderr of a buffer *)
  olds : nat -> list (option nat)              (* self._old_targets of a contextlib redirection *)
}.
Definition upd {X} (f : nat -> X) (k : nat) (x : X) : nat -> X := fun j => if j =? k then x else f j.

(** A buffer or mirror [o]; redirect_stdout and redirect_stderr objects [o] with a target. *)
Inductive manager := Buf (o : nat) | ROut (o target : nat) | RErr (o target : nat).

(** mproc.py:363-369, 452-458; file.py:119-125; host.py:117-123; contextlib.py
    (_RedirectStream.__enter__): [self._old_targets.append(getattr(sys, self._stream));
    setattr(sys, self._stream, self._new_target)] *)
Definition enter (m : manager) (s : sys) : sys :=
  match m with
  | Buf o => mksys (Some o) (Some o) (upd (saved s) o (out s, err s)) (olds s)
  | ROut o target => mksys (Some target) (err s) (saved s) (upd (olds s) o (out s :: olds s o))
  | RErr o target => mksys (out s) (Some target) (saved s) (upd (olds s) o (err s :: olds s o))
  end.
(** mproc.py:371-382, 460-473; file.py:127-144; host.py:125-137; contextlib.py
    (_RedirectStream.__exit__): [setattr(sys, self._stream, self._old_targets.pop())]
    (IndexError on an empty list: not entered).  None of them suppresses an exception.  The
    mirrors and the file buffer then call close() or new_line() or send_error(), which may
    raise: see [With] below. *)
Definition leave (m : manager) (s : sys) : sys :=
  match m with
  | Buf o => mksys (fst (saved s o)) (snd (saved s o)) (upd (saved s) o (None, None)) (olds s)
  | ROut o _ =>
      match olds s o with
      | t :: ts => mksys t (err s) (saved s) (upd (olds s) o ts)
      | [] => s
      end
  | RErr o _ =>
      match olds s o with
      | t :: ts => mksys (out s) t (saved s) (upd (olds s) o ts)
      | [] => s
      end
  end.

(** ** Python code: [with] statements (also functions decorated with a context manager) *)
Inductive block :=
| Nop
| Look                                  (* observe sys.stdout and sys.stderr *)
| Throw                                 (* raise an exception *)
| Seq (b1 b2 : block)
| Try (b : block)                       (* try: b / except: pass *)
| With (m : manager) (exit_raises : bool) (b : block).
(** The observations, whether an exception is raised, the new state.  [exit_raises]: the
    work of __exit__ after the streams are restored raises an exception. *)
Fixpoint exec (b : block) (s : sys) : list (option nat * option nat) * bool * sys :=
  match b with
  | Nop => ([], false, s)
  | Look => ([(out s, err s)], false, s)
  | Throw => ([], true, s)
  | Seq b1 b2 =>
      let '(l1, r1, s1) := exec b1 s in
      if r1 then (l1, true, s1)
      else let '(l2, r2, s2) := exec b2 s1 in (l1 ++ l2, r2, s2)
  | Try b => let '(l, _, s1) := exec b s in (l, false, s1)
  | With m exit_raises b =>
      let '(l, r, s1) := exec b (enter m s) in (l, r || exit_raises, leave m s1)
  end.

(** ** Several threads: sys.stdout is shared, the calls are executed in some order *)
Inductive ctx_event := Enter (m : manager) | Leave (m : manager).
Definition ctx_step (s : sys) (e : ctx_event) : sys :=
  match e with Enter m => enter m s | Leave m => leave m s end.
Definition ctx_run (h : list ctx_event) (s : sys) : sys := fold_left ctx_step h s.
