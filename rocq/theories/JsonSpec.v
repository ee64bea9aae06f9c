(** * JsonSpec: vocabulary of the statements about JSON texts *)
From Coq Require Import String.
From Coq Require Import List NArith ZArith Bool Arith.
From Verif Require Import PyStr Prog Base Json JsonText Host HostCli.
Import ListNotations.
Local Open Scope N_scope.
Local Open Scope bool_scope.

(** Code points. *)
Definition vtext (s : text) : Prop := Forall (fun c => c < 1114112) s.

(** Values that exist in Python: code points up to 0x10FFFF; the keys of a dict are
    different, also after the trip. *)
Fixpoint vjson (v : json) : Prop :=
  match v with
  | JStr s => vtext s
  | JArr l => (fix go l := match l with [] => True | x :: l' => vjson x /\ go l' end) l
  | JObj fs => (fix go (fs : list (text * json)) := match fs with [] => True | x :: l' => vtext (fst x) /\ vjson (snd x) /\ go l' end) fs
               /\ NoDup (map (fun kv => wire_text (fst kv)) fs)
  | _ => True
  end.
(** JSON blanks. *)
Definition blanks (w : text) : Prop := Forall (fun c => json_space c = true) w.
(** No high surrogate directly before a low one. *)
Definition no_pair (s : text) : Prop := forall a c d b, s = a ++ c :: d :: b -> is_hi c && is_lo d = false.
(** No surrogates at all: an ordinary text. *)
Definition plain (s : text) : Prop := Forall (fun c => c < 55296 \/ 57343 < c) s.
(** No text inside the value has such a pair. *)
Fixpoint jclean (v : json) : Prop :=
  match v with
  | JStr s => no_pair s
  | JArr l => (fix go l := match l with [] => True | x :: l' => jclean x /\ go l' end) l
  | JObj fs => (fix go (fs : list (text * json)) := match fs with [] => True | x :: l' => no_pair (fst x) /\ jclean (snd x) /\ go l' end) fs
  | _ => True
  end.

(** All texts inside the value are sequences of code points. *)
Fixpoint codes (v : json) : Prop :=
  match v with
  | JStr s => vtext s
  | JArr l => (fix go l := match l with [] => True | x :: l' => codes x /\ go l' end) l
  | JObj fs => (fix go (fs : list (text * json)) := match fs with [] => True | x :: l' => vtext (fst x) /\ codes (snd x) /\ go l' end) fs
  | _ => True
  end.

(** ** The bodies that the clients send (host.py:283, 311-313, 341-343, 379, 1154) *)
Inductive sent : json -> Prop :=
| sent_text data : sent (JObj [(txt "type", JStr (txt "str")); (txt "data", JObj [(txt "value", JStr data)])])
| sent_close : sent (JObj [(txt "type", JStr (txt "close"))])
| sent_exc kind e : sent (JObj [(txt "type", JStr kind); (txt "data", serialize (gm_init (GMExc e)))])
| sent_state name v : sent (JObj [(txt "state", JStr name); (txt "value", JStr v)]).

(** Every request that a program can make, whatever the results of its commands. *)
Fixpoint all_reqs (P : request -> Prop) {A} (p : prog ccmd A) : Prop :=
  match p with
  | Ret _ | Raise _ => True
  | Act c k h =>
      match c with Op (CReq r) => P r | _ => True end /\
      (forall x, all_reqs P (k x)) /\ (forall e, all_reqs P (h e))
  end.
Definition sends_sent (r : request) : Prop :=
  match r with
  | PostMsg b | PostState b => exists v, b = BJson v /\ sent v
  | _ => True
  end.

(** ** Requests whose JSON bodies are values that exist in Python *)
Definition vbody (b : body) : Prop := match b with BJson v => vjson v | _ => True end.
Definition vreq (r : request) : Prop := match r with PostMsg b | PostState b => vbody b | _ => True end.
Definition vcall (c : hcall) : Prop := match c with HReq r => vreq r | _ => True end.
