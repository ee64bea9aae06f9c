(** * CountSpec: threads and processes that use a main buffer and its mirrors in any way (C81) *)
From Coq Require Import List NArith ZArith Bool Arith.
From Verif Require Import PyStr Prog PyIO Base Spec LineBuf Proc ProcSpec.
Import ListNotations.

(** A call on the main buffer or on mirror [i]. *)
Inductive scall := ToMain (c : pcall) | ToMirror (i : nat) (c : mcall).
Inductive sres := FromMain (r : res) | FromMirror (r : mres).
Definition s_call (c : scall) : prog scmd sres :=
  match c with
  | ToMain c => sys_p (bind (lp_call c) (fun r => Ret (FromMain r)))
  | ToMirror i c => sys_m i (bind (lm_call c) (fun r => Ret (FromMirror r)))
  end.
Definition sys_pool (css : list (list scall)) : list (prog scmd (list (outcome sres))) :=
  map (fun cs => thread (map s_call cs)) css.

(** Reads of the property [mirror], and messages that may be received. *)
Definition gives (c : scall) : nat := match c with ToMain PGetMirror => 1 | _ => 0 end.
Definition takes (c : scall) : nat := match c with ToMain PReceive => 1 | ToMain (PWait fuel) => fuel | _ => 0 end.
Definition total (f : scall -> nat) (css : list (list scall)) : nat := list_sum (map f (concat css)).

(** ** Stopping (C82) *)
(** Calls that do not reset the states of the main buffer; calls that do not send text
    without looking at the stop flag. *)
Definition keeps_state (c : scall) : bool := match c with ToMain PReset => false | _ => true end.
Definition checks_flag (c : scall) : bool := match c with ToMirror _ (CSendData _) => false | _ => true end.
(** Texts waiting in the queues. *)
Definition is_text (x : msg) : bool := match x with QStr _ => true | _ => false end.
Definition n_texts (d : psys) : nat := list_sum (map (fun q => length (List.filter is_text q)) (s_qs d)).
