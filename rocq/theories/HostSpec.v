(** * HostSpec: vocabulary of the statements about the host service

    What the service is meant to do, in terms of the log of Spec.v; no helper of the
    proofs is used. *)
From stdpp Require Import gmap.
From Coq Require Import String.
From Coq Require Import List NArith ZArith Bool Arith.
From Verif Require Import PyStr Prog PyIO Base Spec LineBuf Host.
Import ListNotations.
Local Open Scope nat_scope.

(** A server object created with [maxlen = m], after any history of calls and requests. *)
Definition served (E : henv) (m : nat) (s : st hdata) : Prop :=
  exists h : list (nat * hcall), s = snd (h_hist E h (hfresh m)).
Definition is_closed (s : st hdata) : bool := sclosed (last_line (h_buf (dat s))).

(** The open buffer [b] holds the last [m] records of the log [g], and its unfinished line. *)
Definition holds (m : nat) (g : slog) (b : lbuf) : Prop :=
  storage b = mkdeque (last_items m (done g)) m /\
  last_line b = mksio (pend g) (length (pend g)) false.

(** Recording a message: finish the current line, then add the item. *)
Inductive log_note (i : item) : slog -> slog -> Prop :=
| log_note_intro g g1 : log_new_line g g1 -> log_note i g (mkslog (done g1 ++ [i]) (pend g1)).

(** The object [args] has the value [v] under [key]. *)
Inductive field (key : text) : list (text * json) -> json -> Prop :=
| field_here v fs : field key ((key, v) :: fs) v
| field_there k v' fs v : k <> key -> field key fs v -> field key ((k, v') :: fs) v.
(** The body [args] has the type [w] (blanks around it do not count). *)
Definition type_word (E : henv) (args : list (text * json)) (w : text) : Prop :=
  exists v, field (txt "type") args v /\ trims_to (py_str E v) w.

(** A value that says it is a serialized message: it is an object whose "/is_syncsdata" is a
    true value and whose "/type" is "GroupedMessage". *)
Inductive false_value : json -> Prop :=
| fv_null : false_value JNull
| fv_false : false_value (JBool false)
| fv_zero : false_value (JNum 0)
| fv_str : false_value (JStr [])
| fv_arr : false_value (JArr [])
| fv_obj : false_value (JObj []).
Definition marked (v : json) : Prop :=
  exists fs x, v = JObj fs /\ field (txt "/is_syncsdata") fs x /\ ~ false_value x /\
    field (txt "/type") fs (JStr (txt "GroupedMessage")).
(** The items of tuple(v): of a list, of a text (its characters), of an object (its keys). *)
Inductive tuple_items : json -> list json -> Prop :=
| io_arr l : tuple_items (JArr l) l
| io_str s : tuple_items (JStr s) (map (fun c => JStr [c]) s)
| io_obj fs : tuple_items (JObj fs) (map (fun kv => JStr (fst kv)) fs).

(** The request [r] is answered by [a] in every thread; then the buffer holds [g'], and the
    states are the same as before. *)
Definition answered (E : henv) (m : nat) (s : st hdata) (r : request) (a : nat * json) (g' : slog) : Prop :=
  exists s', (forall t, run t (handle E r) s = (Good a, s')) /\
    holds m g' (h_buf (dat s')) /\ h_state (dat s') = h_state (dat s).
(** The request [r] is rejected with the exception [e] and changes nothing. *)
Definition rejected (E : henv) (s : st hdata) (r : request) (e : exn) : Prop :=
  forall t, run t (handle E r) s = (Fail e, s).

(** Texts that Python's int() reads as the number [z]: digits, single underscores between
    digits, a sign, blanks around (with the digits 0-9 only). *)
Definition digit (c : N) (k : Z) : Prop := (48 <= c <= 57)%N /\ k = (Z.of_N c - 48)%Z.
Inductive numeral : text -> Z -> Prop :=
| num_digit c k : digit c k -> numeral [c] k
| num_more s z c k : numeral s z -> digit c k -> numeral (s ++ [c]) (10 * z + k)
| num_under s z c k : numeral s z -> digit c k -> numeral (s ++ [95%N; c]) (10 * z + k).
Definition blank (c : N) : Prop := space c /\ ~ (28 <= c <= 31)%N.
Inductive int_text : text -> Z -> Prop :=
| it_plain l s r z : Forall blank l -> numeral s z -> Forall blank r -> int_text (l ++ s ++ r) z
| it_plus l s r z : Forall blank l -> numeral s z -> Forall blank r -> int_text (l ++ 43%N :: s ++ r) z
| it_minus l s r z : Forall blank l -> numeral s z -> Forall blank r -> int_text (l ++ 45%N :: s ++ r) (- z).

(** The query argument "n" of a reading request asks for this size. *)
Inductive asks : option text -> option Z -> Prop :=
| asks_all : asks None None
| asks_n s z : int_text s z -> asks (Some s) (Some z).

(** The JSON form of a record. *)
Definition item_json (i : item) : json :=
  match i with IStr s => JStr s | IMsg m => serialize m | IRaw v => v end.
Definition is_raw (i : item) : Prop := exists v, i = IRaw v.

(** ** Histories of well-formed messages *)
Inductive hmsg :=
| HText (v : json)                (* {"type": "str", "data": {"value": v}} *)
| HNote (error : bool) (m : gmsg) (* {"type": "error" or "warning", "data": m serialized} *)
| HEof                            (* {"type": "close"} *)
| HEmpty.                         (* DELETE *)
Definition post (w : text) (data : list (text * json)) : request :=
  PostMsg (BJson (JObj ((txt "type", JStr w) :: data))).
Definition req_of (o : hmsg) : request :=
  match o with
  | HText v => post (txt "str") [(txt "data", JObj [(txt "value", v)])]
  | HNote error m => post (if error then txt "error" else txt "warning") [(txt "data", serialize m)]
  | HEof => post (txt "close") []
  | HEmpty => DelMsg
  end.
Inductive hmsg_step (E : henv) : hmsg -> slog -> slog -> Prop :=
| hs_text v g g' : v <> JNull -> log_write (py_str E v) g g' -> hmsg_step E (HText v) g g'
| hs_note error m g g' : log_note (IMsg m) g g' -> hmsg_step E (HNote error m) g g'
| hs_eof g g' : log_new_line g g' -> hmsg_step E HEof g g'
| hs_empty g : hmsg_step E HEmpty g slog0.
Inductive hmsg_steps (E : henv) : list hmsg -> slog -> slog -> Prop :=
| hss_nil g : hmsg_steps E [] g g
| hss_cons o os g g1 g2 : hmsg_step E o g g1 -> hmsg_steps E os g1 g2 -> hmsg_steps E (o :: os) g g2.
Definition hist_of_msgs (ops : list (nat * hmsg)) : list (nat * hcall) :=
  map (fun o => (fst o, HReq (req_of (snd o)))) ops.

(** ** The stop flag *)

(** "true" in any case, with blanks around it. *)
Definition same_letter (c l : N) : Prop := c = l \/ (c + 32 = l)%N.
Definition true_word (s : text) : Prop :=
  exists a w b, s = a ++ w ++ b /\ Forall space (a ++ b) /\
    Forall2 same_letter w (txt "true").
(** The request body asks to set the state [name]. *)
Definition state_word (E : henv) (args : list (text * json)) (name : text) : Prop :=
  exists v, field (txt "state") args v /\ trims_to (py_str E v) name.
Definition asks_stop (E : henv) (args : list (text * json)) : Prop :=
  exists v, field (txt "value") args v /\ true_word (py_str E v).
(** How a call changes the flag: set by stop_all_mirrors() and by a request that asks for
    it, reset by reset_states() and by DELETE on the state service, else kept. *)
Inductive flag_step (E : henv) : hcall -> bool -> bool -> Prop :=
| fs_stop b : flag_step E HStopAll b true
| fs_reset b : flag_step E HReset b false
| fs_delete b : flag_step E (HReq DelState) b false
| fs_set args b : state_word E args (txt "closed") -> asks_stop E args ->
    flag_step E (HReq (PostState (BJson (JObj args)))) b true
| fs_unset args b : state_word E args (txt "closed") -> ~ asks_stop E args ->
    flag_step E (HReq (PostState (BJson (JObj args)))) b false
| fs_other_state args b : ~ state_word E args (txt "closed") ->
    flag_step E (HReq (PostState (BJson (JObj args)))) b b
| fs_keep c b :
    match c with
    | HStopAll | HReset | HReq DelState | HReq (PostState (BJson (JObj _))) => False
    | _ => True
    end -> flag_step E c b b.
Inductive flag_steps (E : henv) : list hcall -> bool -> bool -> Prop :=
| fss_nil b : flag_steps E [] b b
| fss_cons c cs b b1 b2 : flag_step E c b b1 -> flag_steps E cs b1 b2 -> flag_steps E (c :: cs) b b2.

(** The calls that forget all states. *)
Definition resets (c : hcall) : Prop := c = HReset \/ c = HReq DelState.
(** What GET on the state service answers for the state [name]. *)
Definition state_answer (v : json) : nat * json :=
  (200, JObj [(txt "message", JStr (txt "success")); (txt "data", v)]).
