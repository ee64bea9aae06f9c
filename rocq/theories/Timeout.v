(** * Timeout: the two attributes behind the timeout of a mirror, mproc.py:437-438, 577-586, 600-660

    Proc.v has one attribute [m_timeout] and derives __block from it.  In the code there are
    two, the setter stores one after the other and queue.put() is given both; nothing locks
    them.  Here every load and every store is a command of its own.  Of the methods that send
    only the arguments of queue.put() are here: what is sent, and the queue, are those of
    Proc.v.  Simplification: float() of the argument succeeded (it is computed before the
    first store, so when it raises nothing is stored). *)
From stdpp Require Import gmap.
From Coq Require Import List ZArith Bool Arith.
From Verif Require Import Prog.
Import ListNotations.
Local Open Scope nat_scope.
Local Open Scope prog_scope.

Record tattrs := mktat { t_timeout : option Z; t_block : bool }.    (* __timeout (ms), __block *)
Definition is_none (o : option Z) : bool := match o with None => true | Some _ => false end.

Inductive tcmd : Type -> Type :=
| TLoadT : tcmd (option Z)
| TLoadB : tcmd bool
| TStoreT (o : option Z) : tcmd unit
| TStoreB (b : bool) : tcmd unit.
Definition texec {X} (c : tcmd X) : tattrs -> outcome X * tattrs :=
  match c in tcmd X return tattrs -> outcome X * tattrs with
  | TLoadT => fun d => (Good (t_timeout d), d)
  | TLoadB => fun d => (Good (t_block d), d)
  | TStoreT o => fun d => (Good tt, mktat o (t_block d))
  | TStoreB b => fun d => (Good tt, mktat (t_timeout d) b)
  end.
Global Instance tsem : Sem tcmd tattrs := {| cexec := @texec |}.

(** mproc.py:437-438 *)
Definition t_new (timeout : option Z) : tattrs := mktat timeout (is_none timeout).
(** mproc.py:582-586 *)
Definition t_set (timeout : option Z) : prog tcmd unit :=
  op (TStoreT timeout) ;; op (TStoreB (is_none timeout)).
(** mproc.py:577-580 *)
Definition t_get : prog tcmd (option Z) := op TLoadT.
(** mproc.py:600-602, 615-619, 632-636, 659-661: block=self.__block, timeout=self.__timeout *)
Definition t_put : prog tcmd (bool * option Z) :=
  b <- op TLoadB ;; o <- op TLoadT ;; Ret (b, o).

Inductive tcall := TSet (o : option Z) | TGet | TPut.
Inductive tres := RNothing | RTimeout (o : option Z) | RArgs (b : bool) (o : option Z).
Definition t_call (c : tcall) : prog tcmd tres :=
  match c with
  | TSet o => t_set o ;; Ret RNothing
  | TGet => o <- t_get ;; Ret (RTimeout o)
  | TPut => x <- t_put ;; Ret (RArgs (fst x) (snd x))
  end.
(** Threads with one mirror. *)
Definition t_pool (css : list (list tcall)) : list (prog tcmd (list (outcome tres))) :=
  map (fun cs => thread (map t_call cs)) css.
Definition t_start (o : option Z) : st tattrs := mkst (t_new o) ∅.
