(** * Flaky: exceptions from outside in the middle of a call

    Any command of a method may raise an exception that the model of the command does not
    have: an error of the operating system, a broken connection, KeyboardInterrupt,
    MemoryError.  [flaky p] is the program [p] with a check before every command but the
    release of a lock; a check raises what the next entry of a list says.  An exception
    that comes after the effect of a command is one before the next command, or at the end
    of the call ([flaky_call]).
    Simplification: releasing a lock does not fail. *)
From stdpp Require Import gmap.
From Coq Require Import List Bool Arith Lia.
From Verif Require Import Prog.
Import ListNotations.

Inductive fl (C : Type -> Type) : Type -> Type :=
| Do {X} (c : C X) : fl C X
| Chk : fl C unit.
Arguments Do {C X} c. Arguments Chk {C}.

(** The exceptions to come, one entry per check; none when the list is at its end. *)
Notation faults := (list (option exn)).
Definition flexec {C D} `{!Sem C D} {X} (c : fl C X) : D * faults -> outcome X * (D * faults) :=
  match c in fl _ X return D * faults -> outcome X * (D * faults) with
  | Do c => fun w => let '(r, d) := cexec c (fst w) in (r, (d, snd w))
  | Chk => fun w => match snd w with
                    | [] => (Good tt, w)
                    | None :: fs => (Good tt, (fst w, fs))
                    | Some e :: fs => (Fail e, (fst w, fs))
                    end
  end.
Global Instance flsem C D `{!Sem C D} : Sem (fl C) (D * faults) := {| cexec := @flexec C D _ |}.

Definition may_fail {C X} (c : cmd C X) : bool := match c with Rel _ => false | _ => true end.
Fixpoint flaky {C A} (p : prog C A) : prog (fl C) A :=
  match p with
  | Ret a => Ret a
  | Raise e => Raise e
  | Act c k h =>
      let q := Act (lift_cmd (@Do C) c) (fun x => flaky (k x)) (fun e => flaky (h e)) in
      if may_fail c then Act (Op Chk) (fun _ => q) (fun e => flaky (h e)) else q
  end.
Definition flaky_call {C A} (p : prog C A) : prog (fl C) A := bind (flaky p) (fun a => bind (op Chk) (fun _ => Ret a)).
