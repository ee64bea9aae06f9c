(** * Override: user subclasses of LineBuffer that override [parse_lines]
    (mproc.py:194-208 documents the method as the extension point of the class).

    The user's class has its own attributes, of any type [U], with any commands [E] on
    them.  The command [UCalled lines] is ghost code: it marks one invocation of the
    overridden method with its argument.  [user_parse ov] is the method the class calls:
    the mark followed by the user's code [ov]. *)
From Coq Require Import List NArith ZArith Bool Arith.
From Verif Require Import PyStr Prog PyIO Base LineBuf.
Import ListNotations.

Inductive ucmd (E : Type -> Type) : Type -> Type :=
| UB {X} (c : bcmd X) : ucmd E X                 (* commands of the buffer itself *)
| UE {X} (c : E X) : ucmd E X                    (* commands of the user's class *)
| UCalled (lines : list item) : ucmd E unit.     (* ghost: parse_lines(lines) is called *)
Arguments UB {E X} c. Arguments UE {E X} c. Arguments UCalled {E} lines.

Record udata (U : Type) := mkudata { ub : lbuf; uu : U; ucalls : list (list item) }.
Arguments mkudata {U} _ _ _. Arguments ub {U} _. Arguments uu {U} _. Arguments ucalls {U} _.

Section U.
  Context {E : Type -> Type} {U : Type} `{!Sem E U}.

  Definition uexec {X} (c : ucmd E X) : udata U -> outcome X * udata U :=
    match c in ucmd _ X return udata U -> outcome X * udata U with
    | UB c => fun d => let '(r, b) := bexec c (ub d) in (r, mkudata b (uu d) (ucalls d))
    | UE c => fun d => let '(r, u) := cexec c (uu d) in (r, mkudata (ub d) u (ucalls d))
    | UCalled lines => fun d => (Good tt, mkudata (ub d) (uu d) (ucalls d ++ [lines]))
    end.
  Global Instance usem : Sem (ucmd E) (udata U) := {| cexec := @uexec |}.

  Definition user_parse (ov : list item -> prog (ucmd E) unit) (lines : list item)
    : prog (ucmd E) unit := bind (op (UCalled lines)) (fun _ => ov lines).

  (** [write] and [new_line] of the subclass (mproc.py:319-340, 174-187). *)
  Definition user_write (ov : list item -> prog (ucmd E) unit) (data : text)
    : prog (ucmd E) nat := @lb_write_gen (ucmd E) (fun _ => UB) (user_parse ov) data.
  Definition user_new_line (ov : list item -> prog (ucmd E) unit) : prog (ucmd E) unit :=
    @lb_new_line_gen (ucmd E) (fun _ => UB) (user_parse ov).
  (** A sequence of writes by several threads, one after the other. *)
  Fixpoint user_writes (ov : list item -> prog (ucmd E) unit) (texts : list (nat * text)) (s : st (udata U)) : st (udata U) :=
    match texts with
    | [] => s
    | (t, x) :: ts => user_writes ov ts (snd (run t (user_write ov x) s))
    end.
End U.

(** The methods that take the buffer's lock as their first command
    ([__len__] also takes it, after two reads). *)
Definition locking (c : call) : bool :=
  match c with
  | Write _ | Read _ | NewLine | Clear | Close | Flush | Closed | Readable | Writable => true
  | _ => false
  end.


