(** * FileConcSpec: what calls of one process add to a shared log

    Used in the statements of PropFileConc.v. *)
From stdpp Require Import gmap.
From Coq Require Import String.
From Coq Require Import List NArith ZArith Bool Arith.
From Verif Require Import PyStr Prog PyIO Base Spec LineBuf FileBuf FileSpec FileStmt.
Import ListNotations.
Local Open Scope nat_scope.

(** [adds c v batch v']: the call [c] of a process whose unfinished line is [v] adds the
    records [batch] to the log in one piece and leaves the unfinished line [v']. *)
Inductive adds : fcall -> text -> list text -> text -> Prop :=
| add_part data r v : utf8 data -> segments data [] r -> adds (XWrite data) v [] (v ++ r)
| add_lines data l ls r v : utf8 data -> segments data (l :: ls) r ->
    adds (XWrite data) v ((v ++ l) :: ls) r
| add_new_line v : adds XNewLine v (match v with [] => [] | _ => [v] end) []
| add_exception e t v : utf8 (ex_text e) -> exc_record e t -> adds (XSendExc e) v [t] v
| add_nothing c v :
    match c with XWrite _ | XNewLine | XSendExc _ | XClear | XClose _ => False | _ => True end ->
    adds c v [] v.

(** The calls of one process, one after the other. *)
Inductive adds_all : list fcall -> text -> list (list text) -> text -> Prop :=
| adds_nil v : adds_all [] v [] v
| adds_cons c cs v b v1 bs v2 : adds c v b v1 -> adds_all cs v1 bs v2 ->
    adds_all (c :: cs) v (b :: bs) v2.

(** ** All calls *)

(** What one call does to the shared log: it adds records, or removes all of them. *)
Inductive effect := Adds (batch : list text) | Wipes.
(** The log after such steps; it keeps the last [m] records. *)
Fixpoint log_after (m : nat) (l : list text) (es : list effect) : list text :=
  match es with
  | [] => l
  | Adds batch :: es' => log_after m (last_items m (l ++ batch)) es'
  | Wipes :: es' => log_after m [] es'
  end.

(** [does c (v, o) e (v', o')]: a process whose unfinished line is [v] and whose buffer is
    open ([o = true]) or closed makes the call [c]; this has the effect [e] on the log. *)
Inductive does : fcall -> text * bool -> effect -> text * bool -> Prop :=
| do_adds c v b v' : adds c v b v' -> does c (v, true) (Adds b) (v', true)
| do_clear v o : does XClear (v, o) Wipes ([], o)
| do_close v : does (XClose None) (v, true) (Adds (match v with [] => [] | _ => [v] end)) ([], false)
| do_close_exc e t v : utf8 (ex_text e) -> exc_record e t ->
    does (XClose (Some e)) (v, true) (Adds [t]) (v, false)
| do_closed c v : c <> XClear -> does c (v, false) (Adds []) (v, false).
Inductive does_all : list fcall -> text * bool -> list effect -> text * bool -> Prop :=
| does_nil p : does_all [] p [] p
| does_cons c cs p e p1 es p2 : does c p e p1 -> does_all cs p1 es p2 ->
    does_all (c :: cs) p (e :: es) p2.

(** The buffer of a process: open or closed. *)
Definition open_flag (b : fbuf) (d : fdir) (o : bool) : Prop := if o then is_open b d else is_closed b d.

(** Text that UTF-8 can encode; for clear(), a path that means itself as a glob pattern. *)
Definition encodes (name : text) (c : fcall) : Prop :=
  match c with
  | XWrite data => utf8 data
  | XSendExc e | XClose (Some e) => utf8 (ex_text e)
  | XClear => plain name
  | _ => True
  end.

(** Calls that only write (text that UTF-8 can encode) or look. *)
Definition logging (c : fcall) : Prop :=
  match c with
  | XWrite data => utf8 data
  | XSendExc e => utf8 (ex_text e)
  | XClear | XClose _ => False
  | _ => True
  end.
