(** * HostCli: model of LineHostMirror and LineHostReader, /repo/syncstream/host.py:58-494
    and 770-1209

    Clients of one service.  A request is one command: the server handles it completely
    (that handling several requests at the same time is the same as handling them one
    after the other is C56).  What can go wrong on the way is given by a list of faults,
    one for each request made.
    Not modelled: the address, headers, timeouts, retries and redirections of urllib3; the
    lazily created pool of connections of a mirror (host.py:149-162); the lazily created
    lock (host.py:164-173) is taken as given (see HostLazy.v and C36_host_alone); the context-manager methods of LineHostMirror
    (host.py:117-137, see Ctx.v). *)
From stdpp Require Import gmap.
From Coq Require Import String.
From Coq Require Import List NArith ZArith Bool Arith.
From Verif Require Import PyStr Prog ProgFacts PyIO Base LineBuf Atomic Json Host.
Import ListNotations.
Local Open Scope prog_scope.
Local Open Scope nat_scope.

(** ** The world of the clients *)
Inductive fault :=
| Up                                       (* the request is served *)
| Refused (code : nat) (b : option json)   (* answered by something else; nothing happens *)
| Down                                     (* no connection; nothing happens *)
| Lost.                                    (* served, but the answer does not arrive *)

(** [w_mir]: [self.__buffer] of each mirror (host.py:92; absent: as created). *)
Record world := mkworld { w_srv : hdata; w_mir : gmap nat sio; w_faults : list fault }.
Definition mget (j : nat) (w : world) : sio :=
  match w_mir w !! j with Some f => f | None => sio_new end.

Inductive ccmd : Type -> Type :=
| MClosed (j : nat) : ccmd bool
| MTell (j : nat) : ccmd nat
| MGetvalue (j : nat) : ccmd text
| MPut (j : nat) (s : text) : ccmd nat        (* self.__buffer.write(s) *)
| MSeek0 (j : nat) : ccmd unit
| MTruncate0 (j : nat) : ccmd unit
| MClose (j : nat) : ccmd unit
| MFlush (j : nat) : ccmd unit
| CReq (r : request) : ccmd (nat * option json).

Section Client.
  Variable E : henv.

  Definition on_mir {X} (j : nat) (f : sio -> outcome X * sio) (w : world) : outcome X * world :=
    let '(r, b) := f (mget j w) in (r, mkworld (w_srv w) (<[j := b]> (w_mir w)) (w_faults w)).

  (** The request as the server sees it and the answer as the client sees it. *)
  Definition wire_body (b : body) : body := match b with BJson v => BJson (wire v) | b => b end.
  Definition wire_req (r : request) : request :=
    match r with PostMsg b => PostMsg (wire_body b) | PostState b => PostState (wire_body b) | r => r end.
  Definition wire_answer (a : nat * option json) : nat * option json := (fst a, option_map wire (snd a)).
  Definition serve (r : request) (d : hdata) : (nat * option json) * hdata :=
    let '(o, d') := srun (handle E (wire_req r)) d in (wire_answer (answer E o), d').

  Definition creq (r : request) (w : world) : outcome (nat * option json) * world :=
    match w_faults w with
    | Refused code b :: fs => (Good (code, b), mkworld (w_srv w) (w_mir w) fs)
    | Down :: fs => (Fail HTTPError, mkworld (w_srv w) (w_mir w) fs)
    | Lost :: fs => (Fail HTTPError, mkworld (snd (serve r (w_srv w))) (w_mir w) fs)
    | Up :: fs => let '(a, d) := serve r (w_srv w) in (Good a, mkworld d (w_mir w) fs)
    | [] => let '(a, d) := serve r (w_srv w) in (Good a, mkworld d (w_mir w) [])
    end.
  Definition cliexec {X} (c : ccmd X) : world -> outcome X * world :=
    match c in ccmd X return world -> outcome X * world with
    | MClosed j => on_mir j sio_closed
    | MTell j => on_mir j sio_tell
    | MGetvalue j => on_mir j sio_getvalue
    | MPut j s => on_mir j (sio_write s)
    | MSeek0 j => on_mir j sio_seek0
    | MTruncate0 j => on_mir j sio_truncate0
    | MClose j => on_mir j sio_close
    | MFlush j => on_mir j sio_flush
    | CReq r => creq r
    end.
End Client.

Notation cop := (@op ccmd _).

(** [json.load(req)] and [.get] / indexing on the result. *)
Definition json_load (b : option json) : prog ccmd json :=
  match b with Some v => Ret v | None => Raise ValueError end.
Definition the_dict (v : json) : prog ccmd (list (text * json)) :=
  match v with JObj fs => Ret fs | _ => Raise AttributeError end.
(** The [else] branch of every request (e.g. host.py:287-294): an answer with status 400
    or more. *)
Definition raise_answer {A} (b : option json) : prog ccmd A :=
  info <- json_load b ;; _ <- the_dict info ;; Raise ConnectionError.
(** [with http.request(...) as req: if req.status < 400: ... else: raise ...] *)
Definition request_then {A} (r : request) (f : option json -> prog ccmd A) : prog ccmd A :=
  a <- cop (CReq r) ;; if fst a <? 400 then f (snd a) else raise_answer (snd a).

(** ** LineHostMirror *)

(** [hm_lock] is [self.__buffer_lock], an RLock: an odd number. *)
Record hmir := mkhm { hm_id : nat; hm_aggr : bool; hm_lock : nat }.

(** host.py:67-97 *)
Definition hm_init (id : nat) (address : option text) (aggressive : bool) (lock : nat) : outcome hmir :=
  match address with
  | None | Some [] => Fail TypeError
  | Some _ => Good (mkhm id aggressive lock)
  end.

Section Mirror.
  Variable M : hmir.
  Notation J := (hm_id M).
  Notation locked p := (with_lock (hm_lock M) Ex p).

  (** host.py:175-179 *)
  Definition hm_closed : prog ccmd bool := locked (cop (MClosed J)).
  (** host.py:202-209, 211-213, 233-235, 237-242 *)
  Definition hm_fileno : prog ccmd unit := Raise OSError.
  Definition hm_isatty : prog ccmd bool := Ret false.
  Definition hm_seekable : prog ccmd bool := Ret false.
  Definition hm_seek : prog ccmd unit := Raise OSError.
  (** host.py:215-222, 224-231 *)
  Definition hm_readable : prog ccmd bool := locked (c <- cop (MClosed J) ;; Ret (negb c)).
  Definition hm_writable : prog ccmd bool := locked (c <- cop (MClosed J) ;; Ret (negb c)).
  (** host.py:244-256 *)
  Definition hm_clear : prog ccmd unit := locked (cop (MSeek0 J) ;; cop (MTruncate0 J)).
  (** host.py:426-429 *)
  Definition hm_flush : prog ccmd unit := locked (cop (MFlush J)).
  (** host.py:431-441 *)
  Definition hm_read : prog ccmd text :=
    r <- hm_readable ;;
    if negb r then Raise OSError else locked (cop (MGetvalue J)).

  (** The bodies of the requests. *)
  Definition body_str (data : text) : json :=
    JObj [(k_type, JStr s_str); (k_data, JObj [(k_value, JStr data)])].                (* 379 *)
  Definition body_close : json := JObj [(k_type, JStr s_close)].                       (* 283 *)
  Definition body_exc (kind : text) (e : excobj) : json :=
    JObj [(k_type, JStr kind); (k_data, serialize (gm_init (GMExc e)))].               (* 311-313, 341-343 *)

  (** host.py:356-390 *)
  Definition hm_send_data (data : text) : prog ccmd unit :=
    c <- locked (cop (MClosed J)) ;;
    if c then Ret tt
    else request_then (PostMsg (BJson (body_str data))) (fun _ => Ret tt).

  (** host.py:392-424 *)
  Definition hm_check_states : prog ccmd unit :=
    c <- locked (cop (MClosed J)) ;;
    if c then Ret tt
    else
      is_closed <- request_then (GetState (Some k_closed))
        (fun b => res <- json_load b ;; fs <- the_dict res ;;
                  Ret match jget k_data fs with Some v => v | None => JNull end) ;;
      match is_closed with JBool true => Raise StopIteration | _ => Ret tt end.

  (** host.py:443-468 *)
  Definition hm_write_body (check : bool) (data : text) : prog ccmd nat :=
    (if check then hm_check_states else Ret tt) ;;                      (* 448-449 *)
    let message_lines := splitlines data in                             (* 450 *)
    if hm_aggr M then                                                   (* 451-453 *)
      hm_send_data data ;; Ret (length data)
    else
      let n_lines := length message_lines in
      if (1 <? n_lines) || ((n_lines =? 1) && text_eqb (hd [] message_lines) [])
         || is_end_line_break data                                      (* 455-459 *)
      then
        res <- cop (MPut J data) ;;                                     (* 460 *)
        v <- cop (MGetvalue J) ;;
        hm_send_data v ;;                                               (* 461 *)
        cop (MSeek0 J) ;; cop (MTruncate0 J) ;;                         (* 462-463 *)
        Ret res
      else if n_lines =? 1 then cop (MPut J data)                       (* 465-466 *)
      else Ret 0.                                                       (* 467-468 *)

  (** host.py:470-494 *)
  Definition hm_write (data : text) : prog ccmd nat :=
    w <- hm_writable ;;
    if negb w then Raise OSError else locked (hm_write_body true data).

  (** host.py:258-264 *)
  Definition hm_new_line (check : bool) : prog ccmd unit :=
    locked (n <- cop (MTell J) ;;
            if 0 <? n then hm_write_body check [LF] ;; Ret tt else Ret tt).

  (** host.py:266-294 *)
  Definition hm_send_eof : prog ccmd unit :=
    c <- locked (cop (MClosed J)) ;;
    if c then Ret tt
    else hm_new_line true ;;
         request_then (PostMsg (BJson body_close)) (fun _ => Ret tt).
  (** host.py:296-324 *)
  Definition is_stop (e : excobj) : bool := match ex_cls e with ExcStopIteration => true | _ => false end.
  Definition hm_send_error (e : excobj) : prog ccmd unit :=
    c <- locked (cop (MClosed J)) ;;
    if c then Ret tt
    else hm_new_line (negb (is_stop e)) ;;
         request_then (PostMsg (BJson (body_exc s_error e))) (fun _ => Ret tt).
  (** host.py:326-354 *)
  Definition hm_send_warning (e : excobj) : prog ccmd unit :=
    c <- locked (cop (MClosed J)) ;;
    if c then Ret tt
    else hm_new_line true ;;
         request_then (PostMsg (BJson (body_exc s_warning e))) (fun _ => Ret tt).

  (** host.py:181-200 *)
  Definition hm_close (exc : option excobj) : prog ccmd unit :=
    c <- locked (cop (MClosed J)) ;;
    if c then Ret tt
    else
      match exc with None => hm_send_eof | Some e => hm_send_error e end ;;
      hm_clear ;;
      locked (cop (MClose J)).
End Mirror.

(** ** LineHostReader: each method makes one request (host.py:1003-1209).  The pool of
    connections is in Reader.v. *)

(** [isinstance(message, str) and message == "success"] *)
Definition rd_done (r : request) : prog ccmd bool :=
  request_then r (fun b => res <- json_load b ;; fs <- the_dict res ;;
    Ret match jget k_message fs with Some v => is_str v s_success | None => false end).
(** host.py:1003-1026, 1028-1052 *)
Definition rd_clear : prog ccmd bool := rd_done DelMsg.
Definition rd_reset_states : prog ccmd bool := rd_done DelState.
(** [res[key]] *)
Definition index (key : text) (v : json) : prog ccmd json :=
  match v with
  | JObj fs => match jget key fs with Some x => Ret x | None => Raise KeyError end
  | _ => Raise TypeError
  end.
(** host.py:1069-1109 *)
Definition rd_get_states (name : text) : prog ccmd json :=
  request_then (GetState (Some name)) (fun b => res <- json_load b ;; index k_data res).
(** host.py:1124-1167; [name], [val] as given by [stop_all_mirrors] (host.py:948-970) *)
Definition rd_stop_all : prog ccmd bool :=
  rd_done (PostState (BJson (JObj [(k_state, JStr k_closed); (k_value, JStr (txt "true"))]))).
(** host.py:1169-1209; a value that is not text is deserialized. *)
Fixpoint deserialize_all (l : list json) : outcome (list item) :=
  match l with
  | [] => Good []
  | v :: l' =>
      match match v with JStr s => Good (IStr s) | v => deserialize v end with
      | Good i => match deserialize_all l' with Good r => Good (i :: r) | o => o end
      | Fail e => Fail e
      | Block => Block
      end
  end.
Definition of_out' {X} (o : outcome X) : prog ccmd X :=
  match o with Good x => Ret x | Fail e => Raise e | Block => Raise OutOfFuel end.
Definition rd_read (size : option Z) : prog ccmd (list item) :=
  request_then (GetMsg match size with Some z => Some (dec_of_Z (Z.max 0 z)) | None => None end)
    (fun b => res <- json_load b ;; data <- index k_data res ;;
              l <- of_out' (py_tuple data) ;; of_out' (deserialize_all l)).

(** ** Calls of all clients *)
Inductive mcall :=
| HWrite (data : text) | HNewLine (check : bool) | HSendEof | HSendError (e : excobj)
| HSendWarning (e : excobj) | HSendData (data : text) | HCheck | HClear | HFlush | HRead
| HClose (exc : option excobj) | HClosed | HReadable | HWritable | HFileno | HSeek | HIsatty | HSeekable.
Inductive rcall :=
| RdRead (size : option Z) | RdLen | RdMaxlen | RdClosed | RdClear | RdReset | RdStop.
Inductive ccall := OnMir (M : hmir) (c : mcall) | OnRd (c : rcall).
Inductive cres := CUnit | CNat (n : nat) | CBool (b : bool) | CText (s : text) | CJson (v : json) | CItems (l : list item).

Definition as_cres {X} (f : X -> cres) (p : prog ccmd X) : prog ccmd cres := x <- p ;; Ret (f x).
Definition unit_cres : unit -> cres := fun _ => CUnit.
Definition m_call (M : hmir) (c : mcall) : prog ccmd cres :=
  match c with
  | HWrite data => as_cres CNat (hm_write M data)
  | HNewLine check => as_cres unit_cres (hm_new_line M check)
  | HSendEof => as_cres unit_cres (hm_send_eof M)
  | HSendError e => as_cres unit_cres (hm_send_error M e)
  | HSendWarning e => as_cres unit_cres (hm_send_warning M e)
  | HSendData data => as_cres unit_cres (hm_send_data M data)
  | HCheck => as_cres unit_cres (hm_check_states M)
  | HClear => as_cres unit_cres (hm_clear M)
  | HFlush => as_cres unit_cres (hm_flush M)
  | HRead => as_cres CText (hm_read M)
  | HClose exc => as_cres unit_cres (hm_close M exc)
  | HClosed => as_cres CBool (hm_closed M)
  | HReadable => as_cres CBool (hm_readable M)
  | HWritable => as_cres CBool (hm_writable M)
  | HFileno => as_cres unit_cres hm_fileno
  | HSeek => as_cres unit_cres hm_seek
  | HIsatty => as_cres CBool hm_isatty
  | HSeekable => as_cres CBool hm_seekable
  end.
(** host.py:876-1001 *)
Definition r_call (c : rcall) : prog ccmd cres :=
  match c with
  | RdRead size => as_cres CItems (rd_read size)
  | RdLen => as_cres CJson (rd_get_states k_curlen)
  | RdMaxlen => as_cres CJson (rd_get_states k_maxlen)
  | RdClosed => as_cres CJson (rd_get_states k_closed)
  | RdClear => as_cres CBool rd_clear
  | RdReset => as_cres CBool rd_reset_states
  | RdStop => as_cres CBool rd_stop_all
  end.
Definition c_call (c : ccall) : prog ccmd cres :=
  match c with OnMir M c => m_call M c | OnRd c => r_call c end.

(** What happens in the world: calls of clients (in some thread), and calls of the object
    in the server process (requests of other clients included). *)
Inductive event := Cli (t : nat) (c : ccall) | Srv (c : hcall).
Section Events.
  Variable E : henv.
  Local Instance clisem : Sem ccmd world := {| cexec := fun X => @cliexec E X |}.
  Definition ev_run (e : event) (s : st world) : outcome cres * st world :=
    match e with
    | Cli t c => run t (c_call c) s
    | Srv c => (Good CUnit, mkst (mkworld (snd (srun (h_call E c) (w_srv (dat s)))) (w_mir (dat s)) (w_faults (dat s))) (lks s))
    end.
  Fixpoint ev_hist (h : list event) (s : st world) : list (outcome cres) * st world :=
    match h with
    | [] => ([], s)
    | e :: h' => let '(r, s1) := ev_run e s in let '(rs, s2) := ev_hist h' s1 in (r :: rs, s2)
    end.
End Events.
