(** * Prog: methods as programs of atomic commands

    Each Python method of /repo is modelled as a value of type [prog C A]: a tree of
    atomic commands.  [C] is the type of the primitive operations on shared objects
    (one call of a C-implemented method, one file-system call, one queue operation ...);
    lock operations are common to all languages.  The same tree is given three
    semantics: sequential ([run]), interleaved ([sched_run]) and crash ([prefix_run]).

    Python exceptions are values: a command may fail, and each command node carries a
    normal continuation and an exceptional one, so [try]/[finally]/[with] are functions
    on trees ([try_finally], [with_lock]) and mutations made before an exception stay. *)
From Coq Require Import List Bool Arith Lia.
From stdpp Require Import gmap.
Import ListNotations.

(** Exception classes raised by the package or by the primitives it calls. *)
Inductive exn : Type :=
| OSError | ValueError | TypeError | IndexError | KeyError | AttributeError
| NotImplementedError | RuntimeError | StopIteration | ConnectionError | QueueFull
| FileNotFoundError | IsADirectoryError | ModuleNotFoundError | ModuleReplaceError
| ImportError | BadRequest (** werkzeug *) | HTTPError (** urllib3 *)
| KeyboardInterrupt (** only from outside, see Flaky.v *)
| OutOfFuel (** not a Python exception: a model loop ran out of fuel *).

(** [Block]: the command cannot complete now (lock held by another thread, empty queue). *)
Inductive outcome (A : Type) : Type :=
| Good (a : A)
| Fail (e : exn)
| Block.
Arguments Good {A} a. Arguments Fail {A} e. Arguments Block {A}.

(** Lock modes: exclusive (threading.Lock, RLock, write_lock) and shared (read_lock). *)
Inductive lmode := Ex | Sh.

Inductive cmd (C : Type -> Type) : Type -> Type :=
| Acq (l : nat) (m : lmode) : cmd C unit
| Rel (l : nat) : cmd C unit
| Op {X} (c : C X) : cmd C X.
Arguments Acq {C} l m. Arguments Rel {C} l. Arguments Op {C X} c.

Inductive prog (C : Type -> Type) (A : Type) : Type :=
| Ret (a : A)
| Raise (e : exn)
| Act {X : Type} (c : cmd C X) (k : X -> prog C A) (h : exn -> prog C A).
Arguments Ret {C A} a. Arguments Raise {C A} e. Arguments Act {C A X} c k h.

Section Combinators.
  Context {C : Type -> Type}.

  Fixpoint bind {A B} (p : prog C A) (f : A -> prog C B) : prog C B :=
    match p with
    | Ret a => f a
    | Raise e => Raise e
    | Act c k h => Act c (fun x => bind (k x) f) (fun e => bind (h e) f)
    end.

  (** A single primitive operation. *)
  Definition op {X} (c : C X) : prog C X := Act (Op c) Ret Raise.
  Definition acquire (l : nat) (m : lmode) : prog C unit := Act (Acq l m) Ret Raise.
  Definition release (l : nat) : prog C unit := Act (Rel l) Ret Raise.

  (** [try: p finally: fin]. *)
  Fixpoint try_finally {A} (p : prog C A) (fin : prog C unit) : prog C A :=
    match p with
    | Ret a => bind fin (fun _ => Ret a)
    | Raise e => bind fin (fun _ => Raise e)
    | Act c k h => Act c (fun x => try_finally (k x) fin) (fun e => try_finally (h e) fin)
    end.

  (** [with lock: body]. *)
  Definition with_lock {A} (l : nat) (m : lmode) (body : prog C A) : prog C A :=
    Act (Acq l m) (fun _ => try_finally body (release l)) Raise.

  (** Observe an exception as a value (a caller's [try: ... except Exception]). *)
  Fixpoint attempt {A} (p : prog C A) : prog C (outcome A) :=
    match p with
    | Ret a => Ret (Good a)
    | Raise e => Ret (Fail e)
    | Act c k h => Act c (fun x => attempt (k x)) (fun e => attempt (h e))
    end.

  (** A thread: a sequence of calls, each call's result or exception being recorded.
      [rs]: the results so far, latest first. *)
  Fixpoint thread_from {A} (rs : list (outcome A)) (calls : list (prog C A))
    : prog C (list (outcome A)) :=
    match calls with
    | [] => Ret (rev rs)
    | c :: cs => bind (attempt c) (fun r => thread_from (r :: rs) cs)
    end.
  Definition thread {A} (calls : list (prog C A)) : prog C (list (outcome A)) :=
    thread_from [] calls.
End Combinators.

(** The same program in a larger command language. *)
Section Lift.
  Context {C C' : Type -> Type} (e : forall X, C X -> C' X).
  Definition lift_cmd {X} (c : cmd C X) : cmd C' X :=
    match c in cmd _ X return cmd C' X with
    | Acq l m => Acq l m
    | Rel l => Rel l
    | Op c => Op (e _ c)
    end.
  Fixpoint lift {A} (p : prog C A) : prog C' A :=
    match p with
    | Ret a => Ret a
    | Raise e => Raise e
    | Act c k h => Act (lift_cmd c) (fun x => lift (k x)) (fun e => lift (h e))
    end.
End Lift.

Declare Scope prog_scope.
Notation "x <- p ;; q" := (bind p (fun x => q))
  (at level 100, p at next level, q at level 200, right associativity) : prog_scope.
Notation "p ;; q" := (bind p (fun _ => q))
  (at level 100, q at level 200, right associativity) : prog_scope.
Bind Scope prog_scope with prog.

(** ** Lock table: a lock that nobody holds is absent from the map. *)
Inductive lockst :=
| Excl (owner : nat) (count : nat)   (* held exclusively, recursion count *)
| Shared (owners : list nat).        (* held by readers *)

Notation locks := (gmap nat lockst).

(** One acquisition attempt by thread [t]; [reent] tells whether the lock is an RLock. *)
Definition lock_acq (reent : bool) (t l : nat) (m : lmode) (k : locks)
  : outcome unit * locks :=
  match k !! l, m with
  | None, Ex => (Good tt, <[l := Excl t 1]> k)
  | None, Sh => (Good tt, <[l := Shared [t]]> k)
  | Some (Excl o n), Ex =>
      if reent && (o =? t)%nat then (Good tt, <[l := Excl o (S n)]> k) else (Block, k)
  | Some (Excl o n), Sh => (Block, k)
  | Some (Shared os), Sh => (Good tt, <[l := Shared (t :: os)]> k)
  | Some (Shared os), Ex => (Block, k)
  end.

(** Remove one occurrence. *)
Fixpoint remove1 (t : nat) (l : list nat) : list nat :=
  match l with
  | [] => []
  | x :: l' => if (x =? t)%nat then l' else x :: remove1 t l'
  end.

Definition lock_rel (t l : nat) (k : locks) : outcome unit * locks :=
  match k !! l with
  | None => (Fail RuntimeError, k)
  | Some (Excl o (S (S n))) => (Good tt, <[l := Excl o (S n)]> k)
  | Some (Excl o _) => (Good tt, delete l k)
  | Some (Shared os) =>
      match remove1 t os with
      | [] => (Good tt, delete l k)
      | os' => (Good tt, <[l := Shared os']> k)
      end
  end.

(** A command language: primitive commands with a deterministic atomic effect on data. *)
Class Sem (C : Type -> Type) (D : Type) := {
  cexec : forall {X}, C X -> D -> outcome X * D;
}.

(** Convention of the model: locks with an odd identifier are RLocks (re-entrant). *)
Definition reent (l : nat) : bool := Nat.odd l.

Record st (D : Type) := mkst { dat : D; lks : locks }.
Arguments mkst {D} _ _. Arguments dat {D} _. Arguments lks {D} _.

Section Semantics.
  Context {C : Type -> Type} {D : Type} `{!Sem C D}.

  (** One atomic command of thread [t]. *)
  Definition exec (t : nat) {X} (c : cmd C X) : st D -> outcome X * st D :=
    match c in cmd _ X return st D -> outcome X * st D with
    | Acq l m => fun s => let '(r, k) := lock_acq (reent l) t l m (lks s) in
                          (r, mkst (dat s) k)
    | Rel l => fun s => let '(r, k) := lock_rel t l (lks s) in (r, mkst (dat s) k)
    | Op c => fun s => let '(r, d) := cexec c (dat s) in (r, mkst d (lks s))
    end.

  (** Sequential execution of a whole program by thread [t]. *)
  Fixpoint run {A} (t : nat) (p : prog C A) (s : st D) : outcome A * st D :=
    match p with
    | Ret a => (Good a, s)
    | Raise e => (Fail e, s)
    | Act c k h =>
        match exec t c s with
        | (Good x, s') => run t (k x) s'
        | (Fail e, s') => run t (h e) s'
        | (Block, s') => (Block, s')
        end
    end.

  (** Run a list of calls one after the other; an exception is recorded and the next
      call is made; a blocked call stops the run. *)
  Fixpoint runs {A} (t : nat) (calls : list (prog C A)) (s : st D)
    : list (outcome A) * st D :=
    match calls with
    | [] => ([], s)
    | c :: cs => let '(r, s1) := run t c s in
                 let '(rs, s2) := runs t cs s1 in (r :: rs, s2)
    end.

  (** One step of one thread. [None]: finished or blocked. *)
  Definition pstep {A} (t : nat) (p : prog C A) (s : st D) : option (prog C A * st D) :=
    match p with
    | Ret _ | Raise _ => None
    | Act c k h =>
        match exec t c s with
        | (Good x, s') => Some (k x, s')
        | (Fail e, s') => Some (h e, s')
        | (Block, _) => None
        end
    end.

  (** Pools of threads; thread identifiers are positions. *)
  Definition config (A : Type) : Type := list (prog C A) * st D.

  Definition cstep {A} (i : nat) (c : config A) : option (config A) :=
    match fst c !! i with
    | None => None
    | Some p => match pstep i p (snd c) with
                | None => None
                | Some (p', s') => Some (<[i := p']> (fst c), s')
                end
    end.

  (** Execute a schedule (a list of thread numbers); [None] if some chosen thread cannot
      move.  Quantifying over all schedules = quantifying over all interleavings. *)
  Fixpoint sched_run {A} (sch : list nat) (c : config A) : option (config A) :=
    match sch with
    | [] => Some c
    | i :: sch' => match cstep i c with
                   | None => None
                   | Some c' => sched_run sch' c'
                   end
    end.

  (** Execute the first [n] commands of a program (a crash after [n] commands);
      a blocked or finished program stays where it is. *)
  Fixpoint prefix_run {A} (t : nat) (n : nat) (p : prog C A) (s : st D) : st D :=
    match n with
    | O => s
    | S n' => match pstep t p s with
              | None => s
              | Some (p', s') => prefix_run t n' p' s'
              end
    end.

  Definition finished {A} (p : prog C A) : bool :=
    match p with Act _ _ _ => false | _ => true end.
End Semantics.
