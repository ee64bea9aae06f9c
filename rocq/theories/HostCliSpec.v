(** * HostCliSpec: vocabulary of the statements about the clients of the host service *)
From stdpp Require Import gmap.
From Coq Require Import String.
From Coq Require Import List NArith ZArith Bool Arith.
From Verif Require Import PyStr Prog PyIO Base Spec LineBuf Json JsonSpec Host HostSpec HostCli.
Import ListNotations.
Local Open Scope nat_scope.

(** ** The server *)

(** The server [d] answers [b] for the state "closed" (the stop signal). *)
Definition stop_flag (E : henv) (d : hdata) (b : bool) : Prop :=
  forall t, run t (handle E (GetState (Some (txt "closed")))) (mkst d ∅) = (Good (state_answer (JBool b)), mkst d ∅).
(** The server [d] was created with [maxlen = m]; it is open, its buffer holds the log [g];
    the stop signal is [b]. *)
Record server (E : henv) (m : nat) (d : hdata) (g : slog) (b : bool) : Prop := {
  srv_served : served E m (mkst d ∅);
  srv_holds : holds m g (h_buf d);
  srv_flag : stop_flag E d b
}.

(** ** Mirrors *)

(** The state of a mirror: [Some v]: open, holding the text [v]; [None]: closed. *)
Definition mirror_is (M : hmir) (x : option text) (w : world) : Prop :=
  match x with
  | Some v => w_mir w !! hm_id M = Some (mksio v (length v) false)
  | None => exists f, w_mir w !! hm_id M = Some f /\ sclosed f = true
  end.
(** The lock of a mirror is an RLock. *)
Definition has_rlock (M : hmir) : Prop := reent (hm_lock M) = true.
(** All other mirrors are the same. *)
Definition others_same (M : hmir) (w w' : world) : Prop :=
  forall j, j <> hm_id M -> w_mir w' !! j = w_mir w !! j.

(** One call of the client [c] in thread [t], nobody else being active. *)
Definition call (E : henv) (t : nat) (c : ccall) (w : world) : outcome cres * st world :=
  ev_run E (Cli t c) (mkst w ∅).

(** ** What arrives at the server *)
Definition wire_msg (x : gmsg) : gmsg := mkgmsg (wire (gm_type x)) (map wire (gm_data x)).
(** The text [s]; the error or warning of the exception [e]. *)
Definition says_text (s : text) : hmsg := HText (JStr (wire_text s)).
Definition says_exc (error : bool) (e : excobj) : hmsg := HNote error (wire_msg (gm_init (GMExc e))).
(** The message that finishes the held text [v]. *)
Definition says_line (v : text) : list hmsg := match v with [] => [] | _ => [says_text (v ++ [10%N])] end.

(** What a mirror should do while the server is reachable and not stopped: its call [c] in
    the state [x] posts the messages [ms], has the result [r] and leads to the state [x']. *)
Inductive mcall_does (aggressive : bool) : mcall -> option text -> list hmsg -> outcome cres -> option text -> Prop :=
| md_hold data v : aggressive = false -> no_break data ->
    mcall_does aggressive (HWrite data) (Some v) [] (Good (CNat (length data))) (Some (v ++ data))
| md_send data v : aggressive = false -> ~ no_break data ->
    mcall_does aggressive (HWrite data) (Some v) [says_text (v ++ data)] (Good (CNat (length data))) (Some [])
| md_at_once data v : aggressive = true ->
    mcall_does aggressive (HWrite data) (Some v) [says_text data] (Good (CNat (length data))) (Some v)
| md_new_line check v : mcall_does aggressive (HNewLine check) (Some v) (says_line v) (Good CUnit) (Some [])
| md_eof v : mcall_does aggressive HSendEof (Some v) (says_line v ++ [HEof]) (Good CUnit) (Some [])
| md_error e v : mcall_does aggressive (HSendError e) (Some v) (says_line v ++ [says_exc true e]) (Good CUnit) (Some [])
| md_warning e v : mcall_does aggressive (HSendWarning e) (Some v) (says_line v ++ [says_exc false e]) (Good CUnit) (Some [])
| md_data data v : mcall_does aggressive (HSendData data) (Some v) [says_text data] (Good CUnit) (Some v)
| md_close v : mcall_does aggressive (HClose None) (Some v) (says_line v ++ [HEof]) (Good CUnit) None
| md_close_exc e v : mcall_does aggressive (HClose (Some e)) (Some v) (says_line v ++ [says_exc true e]) (Good CUnit) None
| md_clear v : mcall_does aggressive HClear (Some v) [] (Good CUnit) (Some [])
| md_check v : mcall_does aggressive HCheck (Some v) [] (Good CUnit) (Some v)
| md_flush v : mcall_does aggressive HFlush (Some v) [] (Good CUnit) (Some v)
| md_read v : mcall_does aggressive HRead (Some v) [] (Good (CText v)) (Some v)
| md_closed v : mcall_does aggressive HClosed (Some v) [] (Good (CBool false)) (Some v)
| md_able c v : c = HReadable \/ c = HWritable -> mcall_does aggressive c (Some v) [] (Good (CBool true)) (Some v)
(** A closed mirror sends nothing and stays closed. *)
| md_oserror c : c = HRead \/ (exists data, c = HWrite data) -> mcall_does aggressive c None [] (Fail OSError) None
| md_valueerror c : c = HClear \/ (exists check, c = HNewLine check) ->
    mcall_does aggressive c None [] (Fail ValueError) None
| md_nothing c : In c [HSendEof; HCheck; HFlush] \/
    (exists e, c = HSendError e \/ c = HSendWarning e) \/ (exists data, c = HSendData data) \/ (exists exc, c = HClose exc) ->
    mcall_does aggressive c None [] (Good CUnit) None
| md_is_closed : mcall_does aggressive HClosed None [] (Good (CBool true)) None
| md_unable c : c = HReadable \/ c = HWritable -> mcall_does aggressive c None [] (Good (CBool false)) None
(** In any state. *)
| md_fixed c r x : In (c, r) [(HFileno, Fail OSError); (HSeek, Fail OSError); (HIsatty, Good (CBool false)); (HSeekable, Good (CBool false))] ->
    mcall_does aggressive c x [] r x.
Inductive mcalls_do (aggressive : bool) : list mcall -> option text -> list hmsg -> list (outcome cres) -> option text -> Prop :=
| mds_nil x : mcalls_do aggressive [] x [] [] x
| mds_cons c cs x ms r x1 ms' rs x2 : mcall_does aggressive c x ms r x1 -> mcalls_do aggressive cs x1 ms' rs x2 ->
    mcalls_do aggressive (c :: cs) x (ms ++ ms') (r :: rs) x2.

(** ** Readers *)

(** The server after a history of calls and requests. *)
Definition server_after (E : henv) (m : nat) (h : list (nat * hcall)) (d : hdata) : Prop :=
  d = dat (snd (h_hist E h (hfresh m))).
(** The method or request [c] turns the server [d] into [d']. *)
Definition server_call (E : henv) (c : hcall) (d d' : hdata) : Prop :=
  forall t, snd (run t (h_call E c) (mkst d ∅)) = mkst d' ∅.
(** A record after a trip through JSON. *)
Definition wire_item (i : item) : item :=
  match i with IStr s => IStr (wire_text s) | IMsg x => IMsg (wire_msg x) | IRaw v => IRaw v end.
Definition clean_item (i : item) : Prop :=
  match i with IStr s => no_pair s | IMsg x => jclean (gm_type x) /\ Forall jclean (gm_data x) | IRaw _ => True end.
(** What an answer with an error status means for the caller: the body should be a JSON
    object. *)
Definition error_of (body : option json) : exn :=
  match body with Some (JObj _) => ConnectionError | Some _ => AttributeError | None => ValueError end.

(** Events that do not withdraw the stop signal. *)
Definition keeps_stop (E : henv) (e : event) : Prop :=
  match e with
  | Cli _ (OnMir _ _) => True
  | Cli _ (OnRd c) => c <> RdReset
  | Srv c => flag_step E c true true
  end.

(** ** Several clients at the same time *)

(** Reading calls. *)
Definition reading (c : rcall) : Prop :=
  match c with RdRead _ | RdLen | RdMaxlen | RdClosed => True | _ => False end.
(** A thread: a mirror of its own and the calls on it, or reading calls. *)
Inductive work := Mirror (M : hmir) (cs : list mcall) | Reader (cs : list rcall).
Definition calls_of (x : work) : list ccall :=
  match x with Mirror M cs => map (OnMir M) cs | Reader cs => map OnRd cs end.
Definition cli_pool (ws : list work) : list (prog ccmd (list (outcome cres))) :=
  map (fun x => thread (map c_call (calls_of x))) ws.
Definition mirrors_of (ws : list work) : list hmir :=
  flat_map (fun x => match x with Mirror M _ => [M] | Reader _ => [] end) ws.
Definition work_ok (ws : list work) : Prop :=
  NoDup (map hm_id (mirrors_of ws)) /\ NoDup (map hm_lock (mirrors_of ws)) /\
  Forall has_rlock (mirrors_of ws) /\
  forall cs, In (Reader cs) ws -> Forall reading cs.

(** The call [c] of a reader returns [r] at the moment when the first [q] messages of [order]
    have arrived: what it returns if nothing else happens, on a server that holds the log of
    these messages. *)
Definition returns_after (E : henv) (m : nat) (g0 : slog) (order : list (nat * hmsg)) (c : rcall) (q : nat) (r : outcome cres) : Prop :=
  exists g d, hmsg_steps E (map snd (firstn q order)) g0 g /\ server E m d g false /\
    forall t mirs, fst (call E t (OnRd c) (mkworld d mirs [])) = r.
(** The calls of a reader at later and later moments, from [q] on. *)
Inductive reads_along (E : henv) (m : nat) (g0 : slog) (order : list (nat * hmsg)) : nat -> list rcall -> list (outcome cres) -> Prop :=
| ra_nil q : reads_along E m g0 order q [] []
| ra_cons q q' c cs r rs : q <= q' <= length order -> returns_after E m g0 order c q' r ->
    reads_along E m g0 order q' cs rs -> reads_along E m g0 order q (c :: cs) (r :: rs).

(** ** Failures *)

(** What can happen to a request. *)
Inductive fate := Delivered | Rejected | Unanswered.
(** Answers from elsewhere say that they are errors. *)
Definition fault_ok (f : fault) : Prop := match f with Refused code _ => 400 <= code | _ => True end.
Inductive next_request : list fault -> fate -> list fault -> Prop :=
| nr_end : next_request [] Delivered []
| nr_up fs : next_request (Up :: fs) Delivered fs
| nr_refused code b fs : 400 <= code -> next_request (Refused code b :: fs) Rejected fs
| nr_down fs : next_request (Down :: fs) Rejected fs
| nr_lost fs : next_request (Lost :: fs) Unanswered fs.

(** write(data) of a mirror that holds [v], on a server that is not stopped: did it succeed
    ([ok]); the text if the mirror has taken it over, that is, unless asking for the stop
    signal failed ([taken]); the texts that arrived ([sent]); what it holds afterwards. *)
Inductive write_does (aggressive : bool) (data v : text) (fs : list fault) : bool -> list text -> list text -> text -> list fault -> Prop :=
| wd_check_fails a fs1 : a <> Delivered -> next_request fs a fs1 -> write_does aggressive data v fs false [] [] v fs1
| wd_held fs1 : aggressive = false -> no_break data -> next_request fs Delivered fs1 ->
    write_does aggressive data v fs true [data] [] (v ++ data) fs1
| wd_posted fs1 a fs2 : aggressive = false -> ~ no_break data ->
    next_request fs Delivered fs1 -> next_request fs1 a fs2 ->
    write_does aggressive data v fs
      match a with Delivered => true | _ => false end [data]
      match a with Rejected => [] | _ => [v ++ data] end
      match a with Delivered => [] | _ => v ++ data end fs2
| wd_at_once fs1 a fs2 : aggressive = true ->
    next_request fs Delivered fs1 -> next_request fs1 a fs2 ->
    write_does aggressive data v fs
      match a with Delivered => true | _ => false end [data]
      match a with Rejected => [] | _ => [data] end v fs2.
Inductive writes_do (aggressive : bool) : list text -> text -> list fault -> list bool -> list text -> list text -> text -> list fault -> Prop :=
| wds_nil v fs : writes_do aggressive [] v fs [] [] [] v fs
| wds_cons data texts v fs ok taken sent v1 fs1 oks takens sents v2 fs2 :
    write_does aggressive data v fs ok taken sent v1 fs1 -> writes_do aggressive texts v1 fs1 oks takens sents v2 fs2 ->
    writes_do aggressive (data :: texts) v fs (ok :: oks) (taken ++ takens) (sent ++ sents) v2 fs2.
(** The result of a write. *)
Definition write_result (data : text) (ok : bool) (r : outcome cres) : Prop :=
  if ok then r = Good (CNat (length data)) else exists e, r = Fail e.
(** Calls one after the other in thread [t]. *)
Definition calls (E : henv) (t : nat) (cs : list ccall) (w : world) : list (outcome cres) * st world :=
  ev_hist E (map (Cli t) cs) (mkst w ∅).
