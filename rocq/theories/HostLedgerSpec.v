(** * HostLedgerSpec: an account of what several threads did with one LineHostMirror (C86) *)
From stdpp Require Import gmap.
From Coq Require Import List NArith ZArith Bool Arith.
From Verif Require Import PyStr Prog PyIO Base Spec LineBuf Json Host HostCli HostLazy HostLazySpec.
Import ListNotations.

(** ** Requests and answers *)

(** The status and the body, or that there was no answer. *)
Definition reply : Type := outcome (nat * option json).
(** The requests of a mirror. *)
Definition ask_stop : request := GetState (Some k_closed).
Definition post_str (v : text) : request := PostMsg (BJson (body_str v)).
(** What the caller gets for an answer that turns the request down. *)
Definition complaint (b : option json) : exn :=
  match b with None => ValueError | Some (JObj _) => ConnectionError | Some _ => AttributeError end.
(** A message was taken. *)
Definition taken (a : reply) : outcome unit :=
  match a with
  | Good (code, b) => if code <? 400 then Good tt else Fail (complaint b)
  | Fail e => Fail e
  | Block => Block
  end.
(** The mirror may go on: the service does not say that mirrors have to stop. *)
Definition go_on (a : reply) : outcome unit :=
  match a with
  | Good (code, b) =>
      if code <? 400 then
        match b with
        | None => Fail ValueError
        | Some (JObj fs) => match jget k_data fs with Some (JBool true) => Fail StopIteration | _ => Good tt end
        | Some _ => Fail AttributeError
        end
      else Fail (complaint b)
  | Fail e => Fail e
  | Block => Block
  end.

(** The service and the network; one request. *)
Inductive serves (E : henv) : request * reply -> hdata * list fault -> hdata * list fault -> Prop :=
| sv_up r d fs : serves E (r, Good (fst (serve E r d))) (d, Up :: fs) (snd (serve E r d), fs)
| sv_end r d : serves E (r, Good (fst (serve E r d))) (d, []) (snd (serve E r d), [])
| sv_refused r d code b fs : serves E (r, Good (code, b)) (d, Refused code b :: fs) (d, fs)
| sv_down r d fs : serves E (r, Fail HTTPError) (d, Down :: fs) (d, fs)
| sv_lost r d fs : serves E (r, Fail HTTPError) (d, Lost :: fs) (snd (serve E r d), fs).
Inductive served (E : henv) : list (request * reply) -> hdata * list fault -> hdata * list fault -> Prop :=
| sd_nil n : served E [] n n
| sd_cons x xs n1 n2 n3 : serves E x n1 n2 -> served E xs n2 n3 -> served E (x :: xs) n1 n3.

(** ** The parts of calls *)

(** Observations: whether the mirror is shut, the text it holds.  [HAsk v a]: the mirror, open
    and holding [v], asks the service whether to stop.  [HText data p]: a text is written
    after that; [HLine p]: the line is ended without asking; [p]: the text that was sent and
    the answer to it.  [HReq]: any other request. *)
Inductive hev :=
| HIs (shut : bool) | HHeld (v : text)
| HAsk (v : text) (a : reply)
| HText (data : text) (p : option (text * reply)) | HLine (p : option (text * reply))
| HDrop | HShut
| HReq (r : request) (a : reply).
Definition asked_of (e : hev) : list (request * reply) :=
  match e with
  | HAsk _ a => [(ask_stop, a)]
  | HText _ (Some (m, a)) | HLine (Some (m, a)) => [(post_str m, a)]
  | HReq r a => [(r, a)]
  | _ => []
  end.
Definition asked (es : list (nat * hev)) : list (request * reply) := flat_map (fun e => asked_of (snd e)) es.

(** The text held back, whether the mirror is shut, and which thread has asked the service
    and is going to write. *)
Record hst := mkhst { h_held : text; h_shut : bool; h_busy : option nat }.
Definition hview (M : lmir) (w : lworld) : hst :=
  let b := mget (lm_id M) (l_w w) in mkhst (if sclosed b then [] else sval b) (sclosed b) None.
Definition hnet (w : lworld) : hdata * list fault := (w_srv (l_w w), w_faults (l_w w)).

Section Moves.
  (** [ag]: aggressive. *)
  Variable ag : bool.
  (** A text is written: what is held before and afterwards, and what was sent. *)
  Inductive puts (data : text) : text -> option (text * reply) -> text -> Prop :=
  | p_hold h : ag = false -> no_break data -> puts data h None (h ++ data)
  | p_sent h a : ag = false -> ~ no_break data -> taken a = Good tt -> puts data h (Some (h ++ data, a)) []
  | p_failed h a e : ag = false -> ~ no_break data -> taken a = Fail e -> puts data h (Some (h ++ data, a)) (h ++ data)
  | p_aggr h a : ag = true -> puts data h (Some (data, a)) h.
  Inductive hmove : nat * hev -> hst -> hst -> Prop :=
  | hm_is i h c : hmove (i, HIs c) (mkhst h c None) (mkhst h c None)
  | hm_held i h : hmove (i, HHeld h) (mkhst h false None) (mkhst h false None)
  | hm_ask i h a : go_on a = Good tt -> hmove (i, HAsk h a) (mkhst h false None) (mkhst h false (Some i))
  | hm_stop i h a e : go_on a = Fail e -> hmove (i, HAsk h a) (mkhst h false None) (mkhst h false None)
  | hm_text i data h p h' : puts data h p h' -> hmove (i, HText data p) (mkhst h false (Some i)) (mkhst h' false None)
  | hm_line i h p h' : h <> [] -> puts [10%N] h p h' -> hmove (i, HLine p) (mkhst h false None) (mkhst h' false None)
  | hm_drop i h : hmove (i, HDrop) (mkhst h false None) (mkhst [] false None)
  | hm_shut i h c : hmove (i, HShut) (mkhst h c None) (mkhst [] true None)
  | hm_req i r a v : hmove (i, HReq r a) v v.
  Inductive hmoves : list (nat * hev) -> hst -> hst -> Prop :=
  | hms_nil v : hmoves [] v v
  | hms_cons e es v1 v2 v3 : hmove e v1 v2 -> hmoves es v2 v3 -> hmoves (e :: es) v1 v3.

  (** What the caller of write() gets after the text was written. *)
  Definition put_result {X} (x : X) (p : option (text * reply)) : outcome X :=
    match p with
    | None => Good x
    | Some (_, a) => match taken a with Good _ => Good x | Fail e => Fail e | Block => Block end
    end.
  Definition unit_of (r : outcome unit) : outcome cres :=
    match r with Good _ => Good CUnit | Fail e => Fail e | Block => Block end.

  (** The parts of one call, given its result.  First those that occur inside others. *)
  Inductive h_line : bool -> outcome cres -> list hev -> Prop :=
  | hl_shut check : h_line check (Fail ValueError) [HIs true]
  | hl_none check : h_line check (Good CUnit) [HHeld []]
  | hl_stop v a e : v <> [] -> go_on a = Fail e -> h_line true (Fail e) [HAsk v a]
  | hl_line v a p : v <> [] -> go_on a = Good tt -> h_line true (put_result CUnit p) [HAsk v a; HText [10%N] p]
  | hl_unchecked p : h_line false (put_result CUnit p) [HLine p].
  Inductive h_signal (check : bool) (m : json) : outcome cres -> list hev -> Prop :=
  | hs_shut : h_signal check m (Good CUnit) [HIs true]
  | hs_fail e es : h_line check (Fail e) es -> h_signal check m (Fail e) (HIs false :: es)
  | hs_sent es a : h_line check (Good CUnit) es ->
      h_signal check m (unit_of (taken a)) (HIs false :: es ++ [HReq (PostMsg (BJson m)) a]).
  (** The message that ends a stream, and whether the service is asked before the last line
      is sent. *)
  Definition end_body (exc : option excobj) : json :=
    match exc with None => body_close | Some e => body_exc s_error e end.
  Definition end_check (exc : option excobj) : bool :=
    match exc with Some e => match ex_cls e with ExcStopIteration => false | _ => true end | None => true end.

  Inductive h_acts : mcall -> outcome cres -> list hev -> Prop :=
  | ha_write_shut data : h_acts (HWrite data) (Fail OSError) [HIs true]
  | ha_write_stop data v a e : go_on a = Fail e -> h_acts (HWrite data) (Fail e) [HIs false; HAsk v a]
  | ha_write data v a p : go_on a = Good tt ->
      h_acts (HWrite data) (put_result (CNat (length data)) p) [HIs false; HAsk v a; HText data p]
  | ha_write_late data : ag = false -> data <> [] -> h_acts (HWrite data) (Fail ValueError) [HIs false; HIs true]
  | ha_write_late_aggr data : ag = true -> h_acts (HWrite data) (Good (CNat (length data))) [HIs false; HIs true]
  | ha_write_late_none : h_acts (HWrite []) (Good (CNat 0)) [HIs false; HIs true]
  | ha_new_line check r es : h_line check r es -> h_acts (HNewLine check) r es
  | ha_eof r es : h_signal true body_close r es -> h_acts HSendEof r es
  | ha_error e r es : h_signal (end_check (Some e)) (body_exc s_error e) r es -> h_acts (HSendError e) r es
  | ha_warning e r es : h_signal true (body_exc s_warning e) r es -> h_acts (HSendWarning e) r es
  | ha_data_shut data : h_acts (HSendData data) (Good CUnit) [HIs true]
  | ha_data data a : h_acts (HSendData data) (unit_of (taken a)) [HIs false; HReq (post_str data) a]
  | ha_check_shut : h_acts HCheck (Good CUnit) [HIs true]
  | ha_check a : h_acts HCheck (unit_of (go_on a)) [HIs false; HReq ask_stop a]
  | ha_clear : h_acts HClear (Good CUnit) [HDrop]
  | ha_clear_shut : h_acts HClear (Fail ValueError) [HIs true]
  | ha_flush : h_acts HFlush (Good CUnit) []
  | ha_read_shut : h_acts HRead (Fail OSError) [HIs true]
  | ha_read v : h_acts HRead (Good (CText v)) [HIs false; HHeld v]
  | ha_read_late : h_acts HRead (Fail ValueError) [HIs false; HIs true]
  | ha_close_shut exc : h_acts (HClose exc) (Good CUnit) [HIs true]
  | ha_close_fail exc e es : h_signal (end_check exc) (end_body exc) (Fail e) es -> h_acts (HClose exc) (Fail e) (HIs false :: es)
  | ha_close exc es a : h_line (end_check exc) (Good CUnit) es -> taken a = Good tt ->
      h_acts (HClose exc) (Good CUnit) (HIs false :: HIs false :: es ++ [HReq (PostMsg (BJson (end_body exc))) a; HDrop; HShut])
  | ha_close_late exc es : h_signal (end_check exc) (end_body exc) (Good CUnit) es ->
      h_acts (HClose exc) (Fail ValueError) (HIs false :: es ++ [HIs true])
  | ha_closed c : h_acts HClosed (Good (CBool c)) [HIs c]
  | ha_readable c : h_acts HReadable (Good (CBool (negb c))) [HIs c]
  | ha_writable c : h_acts HWritable (Good (CBool (negb c))) [HIs c]
  | ha_fileno : h_acts HFileno (Fail OSError) []
  | ha_seek : h_acts HSeek (Fail OSError) []
  | ha_isatty : h_acts HIsatty (Good (CBool false)) []
  | ha_seekable : h_acts HSeekable (Good (CBool false)) [].
End Moves.

(** ** Threads that use the mirror, and other clients of the service *)
Inductive xcall := Mine (c : mcall) | Other (r : request).
Inductive xres := XCall (r : cres) | XReply (a : nat * option json).
Definition x_call (M : lmir) (c : xcall) : prog lcmd xres :=
  match c with
  | Mine c => bind (hl_call M c) (fun r => Ret (XCall r))
  | Other r => bind (op (LC (CReq r))) (fun a => Ret (XReply a))
  end.
Definition x_pool (M : lmir) (css : list (list xcall)) : list (prog lcmd (list (outcome xres))) :=
  map (fun cs => thread (map (x_call M) cs)) css.
Definition x_sched (E : henv) (sch : list nat) (c : list (prog lcmd (list (outcome xres))) * st lworld) :=
  @sched_run lcmd lworld (lsem E) _ sch c.
Definition with_res {X Y} (f : X -> Y) (r : outcome X) : outcome Y :=
  match r with Good x => Good (f x) | Fail e => Fail e | Block => Block end.
Inductive x_acts (ag : bool) : xcall -> outcome xres -> list hev -> Prop :=
| xa_mine c r es : h_acts ag c r es -> x_acts ag (Mine c) (with_res XCall r) es
| xa_other r a : x_acts ag (Other r) (with_res XReply a) [HReq r a].

(** The position in the buffer of an open mirror is its end (so it is for a new mirror). *)
Definition at_end (M : lmir) (w : lworld) : Prop :=
  let b := mget (lm_id M) (l_w w) in sclosed b = true \/ spos b = length (sval b).

(** ** Texts *)

(** The text that a part adds, and the text that the service took with it. *)
Definition added (e : hev) : text := match e with HText data _ => data | HLine _ => [10%N] | _ => [] end.
Definition given (e : hev) : text :=
  match e with
  | HText _ (Some (m, a)) | HLine (Some (m, a)) => match taken a with Good _ => m | _ => [] end
  | _ => []
  end.
