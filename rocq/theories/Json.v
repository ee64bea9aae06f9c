(** * Json: json.dumps and json.loads as used by host.py

    The client sends [json.dumps(body).encode()] (host.py:283, 311-313, 341-343, 379, 1154)
    and reads [json.load(req)]; Flask does the same on the server side.  A text is written
    with ASCII escapes only (ensure_ascii), one escape for each UTF-16 unit; the decoder
    joins a high surrogate followed by a low one.  So a str with a lone high surrogate next
    to a lone low one does not come back. *)
From Coq Require Import List NArith ZArith Bool Arith.
From Verif Require Import PyStr Prog Base.
Import ListNotations.
Local Open Scope bool_scope.

Definition is_hi (c : N) : bool := ((55296 <=? c) && (c <=? 56319))%N.
Definition is_lo (c : N) : bool := ((56320 <=? c) && (c <=? 57343))%N.
Definition join_pair (c d : N) : N := (65536 + (c - 55296) * 1024 + (d - 56320))%N.

(** A text after a trip through JSON. *)
Fixpoint wire_text (s : text) : text :=
  match s with
  | c :: ((d :: r) as s') => if is_hi c && is_lo d then join_pair c d :: wire_text r else c :: wire_text s'
  | _ => s
  end.
(** A value after a trip through JSON.  Simplification: keys of an object that become
    equal are not identified. *)
Fixpoint wire (v : json) : json :=
  match v with
  | JStr s => JStr (wire_text s)
  | JArr l => JArr (map wire l)
  | JObj fs => JObj (map (fun kv => (wire_text (fst kv), wire (snd kv))) fs)
  | v => v
  end.
