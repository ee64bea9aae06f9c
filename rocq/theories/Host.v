(** * Host: model of LineHostBuffer and its service, /repo/syncstream/host.py:497-767

    Every request is a program of atomic commands on the shared data of the server: the
    [_LineBuffer] (commands of LineBuf.v) and the dict [__state].  Flask runs the view
    functions in different threads.
    Not modelled: Flask itself (routing, decoding of the request, encoding of the answer);
    a request is given by what the view function reads from [flask.request], the answer by
    what it returns or raises. *)
From stdpp Require Import gmap.
From Coq Require Import String.
From Coq Require Import List NArith ZArith Bool Arith.
From Verif Require Import PyStr Prog PyIO Base LineBuf.
Import ListNotations.
Local Open Scope prog_scope.
Local Open Scope nat_scope.

(** ** Python functions used *)

(** [d[key] = v] on a dict. *)
Fixpoint jput (key : text) (v : json) (fields : list (text * json)) : list (text * json) :=
  match fields with
  | [] => [(key, v)]
  | (k, w) :: fs => if text_eqb k key then (k, v) :: fs else (k, w) :: jput key v fs
  end.

Definition dec_of_Z (z : Z) : text :=
  if (z <? 0)%Z then 45%N :: dec_of_N (Z.to_N (- z)) else dec_of_N (Z.to_N z).

(** What the application around the service decides.  [rep]: the inner part of [repr] of
    a list or dict (only used in [str(v)] of such a value); [on_err]: the status and body
    of the answer to a request whose view function raised ([None]: a body that is not
    JSON, as Flask's own error pages). *)
Record henv := mkhenv { rep : json -> text; on_err : exn -> nat * option json }.
Definition wf_henv (E : henv) : Prop := forall e, 400 <= fst (on_err E e).

(** [str(v)] (host.py:624, 631, 676, 703, 712). *)
Definition py_str (E : henv) (v : json) : text :=
  match v with
  | JNull => txt "None"
  | JBool true => txt "True"
  | JBool false => txt "False"
  | JNum z => dec_of_Z z
  | JStr s => s
  | JArr _ => txt "[" ++ rep E v ++ txt "]"
  | JObj _ => txt "{" ++ rep E v ++ txt "}"
  end.

(** [int(s)] of a str (host.py:656): blanks around it are ignored (other blanks than
    [str.strip()] knows: not 28-31), a sign, decimal digits, single underscores between
    digits.  Simplification: only the digits 0-9 (Python also accepts other decimal digits
    of Unicode); no limit on the number of digits. *)
Definition int_space (c : N) : bool := is_space c && negb ((28 <=? c) && (c <=? 31))%N.
Fixpoint digits_val (acc : Z) (after_digit : bool) (s : text) : option Z :=
  match s with
  | [] => if after_digit then Some acc else None
  | c :: s' =>
      if ((48 <=? c) && (c <=? 57))%N then digits_val (acc * 10 + (Z.of_N c - 48))%Z true s'
      else if N.eqb c 95 && after_digit then digits_val acc false s'
      else None
  end.
Definition py_int (s : text) : option Z :=
  match rstrip_by int_space (lstrip_by int_space s) with
  | 43%N :: s' => digits_val 0 false s'
  | 45%N :: s' => option_map Z.opp (digits_val 0 false s')
  | s' => digits_val 0 false s'
  end.

(** [s.casefold()] (host.py:712).  Simplification: only A-Z are changed.  The result is
    only stripped and compared with "true", and no other character than these folds to
    characters of "true" and blanks only (checked for all code points). *)
Definition casefold (s : text) : text :=
  map (fun c => if ((65 <=? c) && (c <=? 90))%N then (c + 32)%N else c) s.

Definition k_value := txt "value".
Definition k_message := txt "message".
Definition k_state := txt "state".
Definition k_closed := txt "closed".
Definition k_maxlen := txt "maxlen".
Definition k_curlen := txt "curlen".
Definition s_success := txt "success".

(** ** Shared data and commands *)

(** host.py:559-561 (the locks are numbers below). *)
Record hdata := mkhdata { h_buf : lbuf; h_state : list (text * json) }.

Inductive hcmd : Type -> Type :=
| HB {X} (c : bcmd X) : hcmd X
| HStGet (name : text) : hcmd json               (* state.get(name, None) *)
| HStSet (name : text) (v : json) : hcmd unit    (* state[name] = v *)
| HStClear : hcmd unit.                          (* state.clear() *)

Definition hexec {X} (c : hcmd X) : hdata -> outcome X * hdata :=
  match c in hcmd X return hdata -> outcome X * hdata with
  | HB c => fun d => let '(r, b) := bexec c (h_buf d) in (r, mkhdata b (h_state d))
  | HStGet name => fun d =>
      (Good match jget name (h_state d) with Some v => v | None => JNull end, d)
  | HStSet name v => fun d => (Good tt, mkhdata (h_buf d) (jput name v (h_state d)))
  | HStClear => fun d => (Good tt, mkhdata (h_buf d) [])
  end.
Global Instance hsem : Sem hcmd hdata := {| cexec := @hexec |}.
Notation hop := (@op hcmd _).
Notation hlift := (lift (fun _ c => HB c)).

(** [config_lock] and [state_lock], host.py:559-560 ([threading.Lock]); [LL = 0]. *)
Definition SL : nat := 2.
Definition CL : nat := 4.

(** ** Constructor, host.py:530-561 *)
Definition slash_c : N := 47%N.
Definition infer_endpoint (route : text) : text :=
  replace_char slash_c 46%N (lstrip_by (N.eqb slash_c) route).          (* 557 *)
(** The value of [maxlen] as it is stored in [__state]. *)
Definition pyval_json (v : pyval) : json :=
  match v with PyInt z => JNum z | PyBool b => JBool b | PyOther => JNull end.
Record hobj := mkhobj { ho_route : text; ho_endpoint : text }.
(** [api_route]: [None] stands for an argument that is not a str. *)
Definition hb_init (api_route : option text) (endpoint : option text) (maxlen : pyval)
  : outcome (hobj * hdata) :=
  match lb_init maxlen with                                             (* 550 *)
  | Good s =>
      match api_route with
      | None | Some [] => Fail TypeError                                (* 551-554 *)
      | Some route =>
          Good (mkhobj route match endpoint with Some e => e | None => infer_endpoint route end,
                mkhdata (dat s) [(k_closed, JBool false); (k_maxlen, pyval_json maxlen)])
      end
  | Fail e => Fail e
  | Block => Block
  end.
(** The two rules registered by [serve]: (route, endpoint), host.py:721-730. *)
Definition hb_rules (o : hobj) : list (text * text) :=
  [(ho_route o, ho_endpoint o); (ho_route o ++ txt "-state", ho_endpoint o ++ txt "-state")].

Section Service.
  Variable E : henv.

  Definition of_out {X} (o : outcome X) : prog hcmd X :=
    match o with Good x => Ret x | Fail e => Raise e | Block => Raise OutOfFuel end.

  (** ** read_serialized, host.py:563-588.  [GroupedMessage.serialize(val)] of a value that
      is not a message (an item stored by the service for a malformed request) raises
      AttributeError. *)
  Fixpoint serialize_items (l : list item) : outcome (list json) :=
    match l with
    | [] => Good []
    | i :: l' =>
        match i with
        | IRaw _ => Fail AttributeError
        | _ => match serialize_items l' with
               | Good r => Good (match i with IStr s => JStr s | IMsg m => serialize m | IRaw v => v end :: r)
               | o => o
               end
        end
    end.
  Definition h_read_serialized (size : option Z) : prog hcmd (list json) :=
    its <- hlift (lb_read size) ;; of_out (serialize_items its).

  (** ** The view functions.  [BNotJson]: [request.is_json] is false; [BInvalid]: the body is
      not valid JSON, [request.get_json()] raises BadRequest. *)
  Inductive body := BNotJson | BInvalid | BJson (v : json).
  Definition success (code : nat) : nat * json := (code, JObj [(k_message, JStr s_success)]).

  (** host.py:611-644 *)
  Definition h_post (b : body) : prog hcmd (nat * json) :=
    match b with
    | BNotJson => Raise TypeError                                       (* 613-617 *)
    | BInvalid => Raise BadRequest                                      (* 618 *)
    | BJson (JObj args) =>
        let dtype := strip match jget k_type args with                  (* 624 *)
                           | Some v => py_str E v | None => [] end in
        with_lock CL Ex                                                 (* 625 *)
          ((if text_eqb dtype s_str then                                (* 626-631 *)
              match jget k_data args with
              | Some (JObj data) =>
                  match jget k_value data with
                  | None | Some JNull => Ret tt
                  | Some v => hlift (lb_write (py_str E v)) ;; Ret tt
                  end
              | _ => Ret tt
              end
            else if text_eqb dtype s_error || text_eqb dtype s_warning then  (* 632-637 *)
              match jget k_data args with
              | Some (JObj data) =>
                  hlift lb_new_line ;;
                  i <- of_out (deserialize (JObj data)) ;;
                  hop (HB (DAppend i))
              | _ => Ret tt
              end
            else if text_eqb dtype s_close then hlift lb_new_line       (* 638-639 *)
            else Raise TypeError) ;;                                    (* 640-643 *)
           Ret (success 201))                                           (* 644 *)
    | BJson _ => Raise TypeError                                        (* 619-623 *)
    end.

  (** host.py:646-662; [n]: the query argument "n". *)
  Definition h_get (n : option text) : prog hcmd (nat * json) :=
    match match n with
          | None => Some None
          | Some s => match py_int s with Some z => Some (Some z) | None => None end
          end with
    | None => Raise ValueError                                          (* 653-659 *)
    | Some number =>
        data <- with_lock CL Ex (h_read_serialized number) ;;           (* 660-661 *)
        Ret (200, JObj [(k_message, JStr s_success); (k_data, JArr data)])  (* 662 *)
    end.

  (** host.py:664-668 *)
  Definition h_delete : prog hcmd (nat * json) :=
    with_lock CL Ex (hlift lb_clear) ;; Ret (success 200).

  (** host.py:673-688; [state]: the query argument "state". *)
  Definition s_get (state : option text) : prog hcmd (nat * json) :=
    match strip match state with Some s => s | None => [] end with
    | [] => Raise TypeError                                             (* 677-681 *)
    | name =>
        res <- with_lock CL Ex
                 (if text_eqb name k_curlen
                  then n <- hlift lb_len ;; Ret (JNum (Z.of_nat n))     (* 683-684 *)
                  else with_lock SL Ex (hop (HStGet name))) ;;          (* 685-687 *)
        Ret (200, JObj [(k_message, JStr s_success); (k_data, res)])    (* 688 *)
    end.

  (** host.py:690-714 *)
  Definition s_post (b : body) : prog hcmd (nat * json) :=
    match b with
    | BNotJson => Raise TypeError
    | BInvalid => Raise BadRequest
    | BJson (JObj args) =>
        match strip match jget k_state args with Some v => py_str E v | None => [] end with
        | [] => Raise TypeError                                         (* 704-708 *)
        | name =>
            with_lock CL Ex (with_lock SL Ex                            (* 709-710 *)
              (if text_eqb name k_closed then
                 let value := strip (casefold (py_str E                 (* 712 *)
                   match jget k_value args with Some v => v | None => JNull end)) in
                 hop (HStSet name (JBool (text_eqb value (txt "true"))))  (* 713 *)
               else Ret tt)) ;;
            Ret (success 201)
        end
    | BJson _ => Raise TypeError
    end.

  (** host.py:760-767 *)
  Definition h_reset_states : prog hcmd unit :=
    with_lock SL Ex (hop HStClear ;; hop (HStSet k_closed (JBool false))).
  (** host.py:716-719 *)
  Definition s_delete : prog hcmd (nat * json) := h_reset_states ;; Ret (success 200).
  (** host.py:747-758 *)
  Definition h_stop_all : prog hcmd unit :=
    with_lock SL Ex (hop (HStSet k_closed (JBool true))).
  (** host.py:732-744 *)
  Definition h_write (data : text) : prog hcmd nat := Raise NotImplementedError.

  (** ** Requests, and the calls of the object in the server process *)
  Inductive request :=
  | PostMsg (b : body) | GetMsg (n : option text) | DelMsg
  | GetState (name : option text) | PostState (b : body) | DelState.
  Definition handle (r : request) : prog hcmd (nat * json) :=
    match r with
    | PostMsg b => h_post b
    | GetMsg n => h_get n
    | DelMsg => h_delete
    | GetState name => s_get name
    | PostState b => s_post b
    | DelState => s_delete
    end.

  Inductive hcall :=
  | HReq (r : request)                          (* a request served by this process *)
  | HBase (c : call)                            (* a method of the base class; write() is overridden *)
  | HReadSer (size : option Z)
  | HStopAll | HReset.
  Inductive hres := HAnswer (a : nat * json) | HRes (r : res) | HJsons (l : list json).
  Definition h_call (c : hcall) : prog hcmd hres :=
    match c with
    | HReq r => a <- handle r ;; Ret (HAnswer a)
    | HBase (Write data) => n <- h_write data ;; Ret (HRes (RNat n))
    | HBase c => x <- hlift (lb_call c) ;; Ret (HRes x)
    | HReadSer size => l <- h_read_serialized size ;; Ret (HJsons l)
    | HStopAll => h_stop_all ;; Ret (HRes RUnit)
    | HReset => h_reset_states ;; Ret (HRes RUnit)
    end.
  Fixpoint h_hist (h : list (nat * hcall)) (s : st hdata) : list (outcome hres) * st hdata :=
    match h with
    | [] => ([], s)
    | (t, c) :: h' => let '(r, s1) := run t (h_call c) s in
                      let '(rs, s2) := h_hist h' s1 in (r :: rs, s2)
    end.

  (** What goes back to the client: the returned status and JSON, or the error page. *)
  Definition answer (o : outcome (nat * json)) : nat * option json :=
    match o with
    | Good (code, v) => (code, Some v)
    | Fail e => on_err E e
    | Block => on_err E OutOfFuel
    end.
End Service.

(** A new LineHostBuffer. *)
Definition hfresh (m : nat) : st hdata :=
  mkst (mkhdata (dat (fresh m)) [(k_closed, JBool false); (k_maxlen, JNum (Z.of_nat m))]) ∅.
