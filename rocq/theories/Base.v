(** * Base: model of /repo/syncstream/base.py *)
From Coq Require Import List NArith ZArith Bool String.
From Verif Require Import PyStr Prog.
Import ListNotations.
Local Open Scope bool_scope.

(** ** Plain Python data (JSON-compatible values): the values exchanged with the host
    service (host.py:283, 311-313, 341-343, 379, 1154) and stored in GroupedMessage. *)
Inductive json : Type :=
| JNull
| JBool (b : bool)
| JNum (z : Z)                       (* int; floats are not used by the package *)
| JStr (s : text)
| JArr (l : list json)               (* list or tuple *)
| JObj (fields : list (text * json)).  (* dict with str keys *)

(** [d.get(key)] / [d[key]] on a dict given as an association list. *)
Fixpoint jget (key : text) (fields : list (text * json)) : option json :=
  match fields with
  | [] => None
  | (k, v) :: fs => if text_eqb k key then Some v else jget key fs
  end.

(** Python truth value. *)
Definition truthy (v : json) : bool :=
  match v with
  | JNull => false
  | JBool b => b
  | JNum z => negb (z =? 0)%Z
  | JStr s => match s with [] => false | _ => true end
  | JArr l => match l with [] => false | _ => true end
  | JObj l => match l with [] => false | _ => true end
  end.

(** [v == "..."] *)
Definition is_str (v : json) (s : text) : bool :=
  match v with JStr x => text_eqb x s | _ => false end.

(** ** is_end_line_break, base.py:45-57 *)
Definition is_end_line_break (val_str : text) : bool :=
  match val_str with
  | [] => false                                               (* base.py:54-55 *)
  | c0 :: _ =>
      let res := splitlines [last val_str c0] in              (* base.py:56: val_str[-1] *)
      match res with                                          (* base.py:57 *)
      | [r] => match r with [] => true | _ => false end
      | _ => false
      end
  end.

(** ** Exception objects handed to the package.  [ex_text] is
    ["".join(traceback.format_exception(...))] (base.py:187-188), an arbitrary text. *)
Inductive excls := ExcWarning | ExcStopIteration | ExcOther.
Record excobj := mkexc { ex_cls : excls; ex_text : text }.

(** ** GroupedMessage, base.py:168-218.  [gm_type] and [gm_data] are the attributes
    [type] and [data]; after [deserialize] they can be arbitrary JSON values. *)
Record gmsg := mkgmsg { gm_type : json; gm_data : list json }.

(** Arguments accepted by [GroupedMessage(data)]; for a sequence, the elements' [str()]
    values are given (base.py:191). *)
Inductive gmarg := GMNone | GMStr (s : text) | GMExc (e : excobj) | GMSeq (vals : list text).

Definition s_str := txt "str".
Definition s_warning := txt "warning".
Definition s_error := txt "error".
Definition s_close := txt "close".
Definition s_stop := txt "stop".

(** base.py:173-191 *)
Definition gm_init (data : gmarg) : gmsg :=
  match data with
  | GMNone => mkgmsg (JStr s_str) []                                    (* 178-179 *)
  | GMStr s => mkgmsg (JStr s_str) [JStr s]                             (* 180-181 *)
  | GMExc e =>                                                          (* 182-189 *)
      mkgmsg (match ex_cls e with ExcWarning => JStr s_warning | _ => JStr s_error end)
             (map JStr (splitlines (ex_text e)))
  | GMSeq vals => mkgmsg (JStr s_str) (map JStr vals)                   (* 190-191 *)
  end.

(** All elements as texts, if they are texts. *)
Fixpoint all_strs (l : list json) : option (list text) :=
  match l with
  | [] => Some []
  | JStr s :: l' => match all_strs l' with Some r => Some (s :: r) | None => None end
  | _ => None
  end.

(** [str(msg)], base.py:198-199: ["\n".join(self.data)] (TypeError on a non-str item). *)
Definition gm_str (m : gmsg) : outcome text :=
  match all_strs (gm_data m) with
  | Some l => Good (join [LF] l)
  | None => Fail TypeError
  end.

Definition k_is := txt "/is_syncsdata".
Definition k_kind := txt "/type".
Definition k_type := txt "type".
Definition k_data := txt "data".
Definition v_gm := txt "GroupedMessage".

(** base.py:201-208 *)
Definition serialize (m : gmsg) : json :=
  JObj [(k_is, JBool true); (k_kind, JStr v_gm); (k_type, gm_type m); (k_data, JArr (gm_data m))].

(** base.py:96-112; the returned value is used as a truth value. *)
Definition is_serialized (obj : json) : bool :=
  match obj with
  | JObj fs =>
      match jget k_is fs with Some v => truthy v | None => false end
      && match jget k_kind fs with Some v => is_str v v_gm | None => false end
  | _ => false
  end.

(** [tuple(v)] of a JSON value (base.py:217). *)
Definition py_tuple (v : json) : outcome (list json) :=
  match v with
  | JArr l => Good l
  | JStr s => Good (map (fun c => JStr [c]) s)
  | JObj fs => Good (map (fun kv => JStr (fst kv)) fs)
  | _ => Fail TypeError
  end.

(** ** Record items held in a buffer: text, a message, or (host buffer only) a raw value
    that [deserialize] passed through unchanged. *)
Inductive item := IStr (s : text) | IMsg (m : gmsg) | IRaw (v : json).

(** base.py:210-218; the result is a message or the unchanged argument. *)
Definition deserialize (jdata : json) : outcome item :=
  if negb (is_serialized jdata) then
    Good (match jdata with JStr s => IStr s | v => IRaw v end)          (* 213-214 *)
  else match jdata with
       | JObj fs =>
           match jget k_type fs with                                    (* 216 *)
           | None => Fail KeyError
           | Some ty =>
               match jget k_data fs with                                (* 217 *)
               | None => Fail KeyError
               | Some da => match py_tuple da with
                            | Good l => Good (IMsg (mkgmsg ty l))
                            | Fail e => Fail e
                            | Block => Block
                            end
               end
           end
       | _ => Fail TypeError
       end.
