(** * Kill: executions in which processes are killed

    A process is one entry of a pool.  It can be killed between any two of its commands
    (Process.kill(), Process.terminate(), the operating system); it is then never continued.
    Simplification: the processes have one thread each; commands are not cut in pieces (a
    text reaches a file character by character, see FileBuf.v). *)
From stdpp Require Import gmap.
From Coq Require Import List Bool Arith.
From Verif Require Import Prog.
Import ListNotations.
Local Open Scope nat_scope.

(** The lock [ls] when its holder [t] is gone and the operating system has released it. *)
Definition dropped (t : nat) (ls : lockst) : option lockst :=
  match ls with
  | Excl o n => if o =? t then None else Some ls
  | Shared os => match List.filter (fun o => negb (o =? t)) os with
                 | [] => None
                 | os' => Some (Shared os')
                 end
  end.

Inductive event := Step (t : nat) | Kill (t : nat).

Section Kill.
  Context {C : Type -> Type} {D : Type} `{!Sem C D}.
  (** [stays l]: the lock [l] stays locked when its holder is killed (a lock in the manager
      process); other locks are released by the operating system (locked files). *)
  Variable stays : nat -> bool.

  Definition locks_after (t : nat) (k : locks) : locks :=
    map_imap (fun l ls => if stays l then Some ls else dropped t ls) k.

  (** A configuration and the processes that were killed. *)
  Definition kconfig (A : Type) : Type := config (C:=C) (D:=D) A * list nat.
  Definition is_dead (dead : list nat) (t : nat) : bool := existsb (Nat.eqb t) dead.

  Definition kstep {A} (e : event) (x : kconfig A) : option (kconfig A) :=
    let '((ps, s), dead) := x in
    match e with
    | Step t => if is_dead dead t then None
                else match cstep t (ps, s) with Some c => Some (c, dead) | None => None end
    | Kill t => match ps !! t with
                | Some p => if finished p || is_dead dead t then None
                            else Some ((ps, mkst (dat s) (locks_after t (lks s))), t :: dead)
                | None => None
                end
    end.
  Fixpoint krun {A} (es : list event) (x : kconfig A) : option (kconfig A) :=
    match es with
    | [] => Some x
    | e :: es' => match kstep e x with Some x' => krun es' x' | None => None end
    end.
End Kill.
