(** * MsgSpec: vocabulary of C59 *)
From Coq Require Import String.
From Coq Require Import List NArith.
From Verif Require Import PyStr Base Spec.
Import ListNotations.

(** The lines of a text: the finished ones and, unless it is empty, the unfinished one. *)
Definition lines_of (s : text) (ls : list text) : Prop :=
  exists whole r, segments s whole r /\ (r = [] /\ ls = whole \/ r <> [] /\ ls = whole ++ [r]).
(** [s] consists of [ls], separated (not terminated) by LF. *)
Inductive lf_joined : list text -> text -> Prop :=
| lj_none : lf_joined [] []
| lj_one l : lf_joined [l] l
| lj_more l l' ls s : lf_joined (l' :: ls) s -> lf_joined (l :: l' :: ls) (l ++ [10%N] ++ s).
(** The lines that GroupedMessage(data) should have. *)
Inductive msg_lines : gmarg -> list text -> Prop :=
| ml_none : msg_lines GMNone []
| ml_str s : msg_lines (GMStr s) [s]
| ml_seq vals : msg_lines (GMSeq vals) vals
| ml_exc e ls : lines_of (ex_text e) ls -> msg_lines (GMExc e) ls.
Inductive msg_kind : gmarg -> text -> Prop :=
| mk_none : msg_kind GMNone (txt "str")
| mk_str s : msg_kind (GMStr s) (txt "str")
| mk_seq vals : msg_kind (GMSeq vals) (txt "str")
| mk_warning e : ex_cls e = ExcWarning -> msg_kind (GMExc e) (txt "warning")
| mk_error e : ex_cls e <> ExcWarning -> msg_kind (GMExc e) (txt "error").
