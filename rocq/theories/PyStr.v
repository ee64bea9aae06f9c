(** * PyStr: Python text values used by sync-stream

    A Python [str] is a sequence of Unicode code points; it is modelled by a list of
    [N].  This file models the [str] primitives the package calls: [str.splitlines],
    [str.join], [+], [str.strip], decimal formatting ["{:d}".format(n)].
    They are standard-library primitives, not code of /repo; each comment names the
    call sites in /repo. *)
From Coq Require Import List NArith Bool Arith Lia String Ascii.
Import ListNotations.
Local Open Scope N_scope.

Definition text := list N.

(** A Gallina string literal as a text (ASCII only); used to write concrete texts. *)
Definition txt (s : string) : text := map N_of_ascii (list_ascii_of_string s).

Definition text_eq_dec : forall a b : text, {a = b} + {a <> b} := list_eq_dec N.eq_dec.
Definition text_eqb (a b : text) : bool := if text_eq_dec a b then true else false.

Definition LF : N := 10.
Definition CR : N := 13.

(** The code points at which [str.splitlines] cuts
    (call sites: base.py:56, mproc.py:297 and 707, file.py:443, host.py:450).
    Checked against the stdlib: exactly these ten code points. *)
Definition is_break (c : N) : bool :=
  existsb (N.eqb c) [10; 11; 12; 13; 28; 29; 30; 133; 8232; 8233].

(** [str.splitlines()] (keepends = False), after CPython's [stringlib splitlines]: scan
    to the next line break, emit the line, skip the break ("\r\n" counts as one), and
    emit a last line only if some text is left.  [cur] holds the current line reversed. *)
Fixpoint splitlines_from (cur : text) (s : text) : list text :=
  match s with
  | [] => match cur with [] => [] | _ => [rev cur] end
  | c :: s' =>
      if is_break c then
        rev cur ::
          (if c =? CR then
             match s' with
             | d :: s'' => if d =? LF then splitlines_from [] s'' else splitlines_from [] s'
             | [] => splitlines_from [] s'
             end
           else splitlines_from [] s')
      else splitlines_from (c :: cur) s'
  end.
Definition splitlines (s : text) : list text := splitlines_from [] s.

(** ["sep".join(parts)] (call site: base.py:199, with sep = "\n"). *)
Fixpoint join (sep : text) (parts : list text) : text :=
  match parts with
  | [] => []
  | [p] => p
  | p :: ps => p ++ sep ++ join sep ps
  end.

(** [str.isspace] per code point: what [str.strip()] removes
    (call sites: file.py:84, host.py:624, 676, 703, 712). Checked against the stdlib. *)
Definition is_space (c : N) : bool :=
  existsb (N.eqb c)
    [9; 10; 11; 12; 13; 28; 29; 30; 31; 32; 133; 160; 5760; 8192; 8193; 8194; 8195; 8196;
     8197; 8198; 8199; 8200; 8201; 8202; 8232; 8233; 8239; 8287; 12288].

Fixpoint lstrip_by (f : N -> bool) (s : text) : text :=
  match s with
  | c :: s' => if f c then lstrip_by f s' else s
  | [] => []
  end.
Definition rstrip_by (f : N -> bool) (s : text) : text := rev (lstrip_by f (rev s)).
Definition strip (s : text) : text := rstrip_by is_space (lstrip_by is_space s).

(** [str.replace(c, d)] for single characters (call site: host.py:557). *)
Definition replace_char (c d : N) (s : text) : text :=
  map (fun x => if x =? c then d else x) s.

(** Decimal digits of a natural number, ["{0:d}".format(n)]
    (call sites: file.py:164, 308, 315, 316, 323, 418, 432; host.py:1187). *)
Fixpoint dec_digits (fuel : nat) (n : N) (acc : text) : text :=
  match fuel with
  | O => acc
  | S f => let acc' := (48 + n mod 10) :: acc in
           if n / 10 =? 0 then acc' else dec_digits f (n / 10) acc'
  end.
Definition dec_of_N (n : N) : text := dec_digits (S (N.to_nat (N.log2 n))) n [].
Definition dec_of_nat (n : nat) : text := dec_of_N (N.of_nat n).

(** The last [n] items of a list, Python's [l[-n:]] for [n >= 1] and [n <= 0 -> []]. *)
Definition lastn {A} (n : nat) (l : list A) : list A := skipn (List.length l - n) l.

Definition starts_with (p s : text) : bool := text_eqb p (firstn (List.length p) s).
Definition ends_with (p s : text) : bool :=
  Nat.leb (List.length p) (List.length s) && text_eqb p (lastn (List.length p) s).
