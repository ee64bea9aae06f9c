(** * LineBufSpec: how the log operations of Spec.v are written as calls of LineBuffer,
    and what a closed buffer answers.  Used in the statements of PropLineBuf.v. *)
From Coq Require Import List NArith ZArith Bool Arith.
From Verif Require Import PyStr Prog PyIO Base Spec LineBuf.
Import ListNotations.

Definition call_of (o : sop) : call :=
  match o with SWrite d => Write d | SNewLine => NewLine | SClear => Clear end.
Definition hist_of (os : list (nat * sop)) : hist := map (fun to => (fst to, call_of (snd to))) os.

(** The answer of a closed buffer to each call. *)
Definition closed_answer (m : nat) (c : call) : outcome res :=
  match c with
  | Write _ | Read _ => Fail OSError
  | NewLine | Clear => Fail ValueError
  | Close | Flush => Good RUnit
  | Len => Good (RNat (Nat.min m 1))
  | Closed => Good (RBool true)
  | Readable | Writable => Good (RBool false)
  | Maxlen => Good (RNat m)
  | Fileno | Seek => Fail OSError
  | Isatty | Seekable => Good (RBool false)
  end.

