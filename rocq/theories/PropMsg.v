(** * PropMsg: the text of a GroupedMessage (C59).  Proofs are in MsgProofs.v. *)
From Coq Require Import String.
From Coq Require Import List NArith ZArith.
From Verif Require Import PyStr Prog Base Spec MsgSpec MsgProofs.
Import ListNotations.

(** [str(GroupedMessage(data))] never fails and is the lines of [data], separated by LF. *)
Theorem C59_text : forall data, exists ls s, msg_lines data ls /\ gm_data (gm_init data) = map JStr ls /\
  gm_str (gm_init data) = Good s /\ lf_joined ls s.
Proof. exact str_ok. Qed.
Print Assumptions C59_text.
Theorem C59_kind : forall data k, msg_kind data k -> gm_type (gm_init data) = JStr k.
Proof. exact kind_ok. Qed.
Print Assumptions C59_kind.
(** An exception: no line contains a line break, and splitting the text gives the lines back
    exactly if the last one is not empty. *)
Theorem C59_exception : forall e ls s, lines_of (ex_text e) ls -> gm_str (gm_init (GMExc e)) = Good s ->
  Forall no_break ls /\ (lines_of s ls <-> ls = [] \/ last ls [] <> []).
Proof. exact exc_split_again. Qed.
Print Assumptions C59_exception.
(** For a message that came from elsewhere (C47): TypeError exactly if an item is no text. *)
Theorem C59_type_error : forall m, gm_str m = Fail TypeError <-> exists v, In v (gm_data m) /\ forall s, v <> JStr s.
Proof. exact str_type_error. Qed.
Print Assumptions C59_type_error.
Definition tb : excobj := mkexc ExcOther (txt "Traceback" ++ [13; 10]%N ++ txt "Error: x" ++ [8232]%N ++ txt "y" ++ [10]%N).
Definition tb_empty : excobj := mkexc ExcWarning (txt "W: " ++ [10; 11]%N).
Example C59_demo :
  lines_of (ex_text tb) [txt "Traceback"; txt "Error: x"; txt "y"] /\
  gm_str (gm_init (GMExc tb)) = Good (txt "Traceback" ++ [10]%N ++ txt "Error: x" ++ [10]%N ++ txt "y") /\
  lines_of (ex_text tb_empty) [txt "W: "; []] /\
  gm_str (gm_init (GMExc tb_empty)) = Good (txt "W: " ++ [10]%N) /\ ~ lines_of (txt "W: " ++ [10]%N) [txt "W: "; []] /\
  gm_str (mkgmsg (JStr (txt "error")) [JStr (txt "a"); JNum 1%Z]) = Fail TypeError.
Proof.
  repeat split; try reflexivity; try (apply lines_of_iff; vm_compute; reflexivity).
  intros H. apply lines_of_iff in H. vm_compute in H. discriminate.
Qed.
