(** * LazyImp: threads that call lazy_import (/repo/syncstream/utils.py:387-552)

    Lazy.v has lazy_import as one step.  Here it is a program of commands: every look at
    sys.modules and every change of it is a command of its own, and threads may take turns
    between them (there is no lock in utils.py).  Of the world of Lazy.v, the modules are
    not used while they are imported: this file has no attribute accesses by the threads.
    (If find_spec finds a module that another thread has just registered, the two modules
    share their __spec__, and with it the loader_state of importlib.  No theorem says what
    happens when such modules are loaded.) *)
From stdpp Require Import gmap strings.
From Coq Require Import String.
From Coq Require Import List Bool Arith.
From Verif Require Import Prog Lazy.
Import ListNotations.
Local Open Scope nat_scope.
Local Open Scope prog_scope.

(** [made]: the modules that calls have created, in this order, with the thread that did.
    Not a Python object; for the statements only. *)
Record iworld := mkiw { iw : world; made : list (nat * nat) }.

Inductive icmd : Type -> Type :=
| IEntry (n : string) : icmd (option entry)                     (* sys.modules.get(n), utils.py:525 and 486 *)
| IFind (E : penv) (n : string) : icmd found                    (* importlib.util.find_spec, utils.py:409 and 537-539 *)
| IGather (rel : relarg) (miss : bool) : icmd (res (list nat))  (* utils.py:414-450.  The modules are given by the
                                                                   names they are registered under when they are needed *)
| IFilter (ds : list nat) : icmd (list nat)                     (* utils.py:369-371 *)
| IRegister (t : nat) (n : string) (m : modobj) : icmd nat      (* a new module object, which only this thread has so
                                                                   far, and sys.modules[n] = module: utils.py:495-496, 549-550 *)
| IExec (i : nat) (ds : list nat) : icmd unit.                  (* utils.py:373-382: the class and __dep_modules__, at once *)

Definition to_lazy (ds : list nat) (m : modobj) : modobj := mkmod (m_name m) CLazy (m_attrs m) ds (m_spec m).
Definition iexec {X} (c : icmd X) : iworld -> outcome X * iworld :=
  match c in icmd X return iworld -> outcome X * iworld with
  | IEntry n => fun w => (Good (mods (iw w) !! n), w)
  | IFind E n => fun w => (Good (find_spec E n (iw w)), w)
  | IGather rel miss => fun w => (Good (gather rel miss (iw w)), w)
  | IFilter ds => fun w => (Good (List.filter (fun i => is_lazy i (iw w)) ds), w)
  | IRegister t n m => fun w => let '(i, w') := register n m (iw w) in (Good i, mkiw w' (made w ++ [(t, i)]))
  | IExec i ds => fun w => (Good tt, mkiw (set_mod i (to_lazy ds) (iw w)) (made w))
  end.
#[global] Instance isem : Sem icmd iworld := {| cexec := @iexec |}.

Section Import.
  Variables (E : penv) (t : nat).

  (** utils.py:391-412 *)
  Fixpoint i_missing (deps : list string) : prog icmd (res bool) :=
    match deps with
    | [] => Ret (Ok false)
    | d :: deps' =>
        f <- op (IFind E d) ;;
        match f with
        | NotFound => Ret (Ok true)
        | Found _ => i_missing deps'
        | FindRaises e => Ret (Err e)
        end
    end.

  (** utils.py:480-497 *)
  Definition i_placeholder (n : string) (required : bool) : prog icmd (res nat) :=
    if required then Ret (Err ModuleNotFound)
    else
      e <- op (IEntry n) ;;
      match e with
      | None | Some ENone => i <- op (IRegister t n (mkmod n CPlaceholder ∅ [] false)) ;; Ret (Ok i)
      | Some _ => Ret (Err ModuleReplace)
      end.

  (** utils.py:536-552 *)
  Definition i_create (args : iargs) (miss : bool) (deps : list nat) : prog icmd (res nat) :=
    let n := full_name args in
    f <- match i_package args with Some ""%string => Ret (FindRaises ImportErr) | _ => op (IFind E n) end ;;
    match f with
    | FindRaises e => Ret (Err e)
    | NotFound => i_placeholder n (i_required args)
    | Found l =>
        if miss then i_placeholder n (i_required args)
        else match l with
             | LdNone | LdBad => Ret (Err TypeErr)
             | LdGood =>
                 ds <- op (IFilter deps) ;;
                 i <- op (IRegister t n (mkmod n CModule ∅ [] true)) ;;
                 op (IExec i ds) ;;
                 Ret (Ok i)
             end
    end.

  (** utils.py:499-552; an exception is the result [Err] *)
  Definition i_import (args : iargs) : prog icmd (res nat) :=
    e <- op (IEntry (full_name args)) ;;
    match e with
    | Some (EMod i) => Ret (Ok i)
    | _ =>
        r <- i_missing (i_deps args) ;;
        match r with
        | Err x => Ret (Err x)
        | Ok miss =>
            g <- op (IGather (i_rel args) miss) ;;
            match g with
            | Err x => Ret (Err x)
            | Ok deps => i_create args miss deps
            end
        end
    end.
End Import.

(** Thread [t] makes the calls [css !! t], one after the other. *)
Definition i_pool (E : penv) (css : list (list iargs)) : list (prog icmd (list (outcome (res nat)))) :=
  imap (fun t cs => thread (map (i_import E t) cs)) css.
Definition i_start (w : world) : st iworld := mkst (mkiw w []) ∅.
