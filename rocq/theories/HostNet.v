(** * HostNet: the connections of LineHostMirror and LineHostReader, /repo/syncstream/host.py:58-494
    and 770-1209, /repo/syncstream/webtools.py:76-169

    HostCli.v and HostLazy.v take a request as one command.  Here the objects of urllib3 are
    visible: pools of connections (created, entered, cleared), responses (read, released,
    closed), the attributes [__http_] that are filled lazily, and finalizers.  What happens
    with pools and responses is written down in a log.
    Not modelled: addresses, headers, timeouts, retries; what a pool does with its
    connections; responses that fail while they are read; [close_request_session]
    (webtools.py:164-169), which is not used. *)
From stdpp Require Import gmap.
From Coq Require Import String.
From Coq Require Import List NArith ZArith Bool Arith.
From Verif Require Import PyStr Prog ProgFacts PyIO Base LineBuf Json Host HostCli HostLazy.
Import ListNotations.
Local Open Scope prog_scope.
Local Open Scope nat_scope.

(** A response (urllib3): its pool, number, status and body. *)
Record resp := mkresp { rs_pool : nat; rs_id : nat; rs_code : nat; rs_body : option json }.
Inductive nev :=
| EvPool (k : nat)                                    (* a pool is created *)
| EvOwn (u : nat + nat) (k : nat)                     (* it is stored in [__http_] of a mirror (inl) or reader (inr) *)
| EvFail (k : nat) (r : request)                      (* a request without response *)
| EvResp (k : nat) (r : request) (h : nat) (code : nat)  (* a request and its response *)
| EvLoad (k h : nat)                                  (* json.load(req) *)
| EvRelease (k h : nat) | EvClose (k h : nat)         (* req.release_conn(), req.close() *)
| EvClear (k : nat).                                  (* the pool is cleared *)

(** [n_http]: the attributes [__http_] (host.py:110, 836); [n_stack]: [__enter_stack] of
    readers (host.py:822); [n_fin]: the finalizers (mirror, pool) that were not called yet. *)
Record nworld := mknw {
  n_l : lworld; n_http : gmap (nat + nat) nat; n_stack : gmap nat Z;
  n_pools : nat; n_resps : nat; n_fin : list (nat * nat); n_log : list nev }.
Definition nstart (w : lworld) : nworld := mknw w ∅ ∅ 0 0 [] [].

Inductive ncmd : Type -> Type :=
| NL {X} (c : lcmd X) : ncmd X                    (* anything but a request *)
| NHttp (u : nat + nat) : ncmd (option nat)       (* read self.__http_ *)
| NSet (u : nat + nat) (k : nat) : ncmd unit      (* self.__http_ = ... *)
| NPool : ncmd nat                                (* SafePoolManager(...) *)
| NFin (j k : nat) : ncmd unit                    (* weakref.finalize(self, clean_http_manager, ...) *)
| NReq (k : nat) (r : request) : ncmd resp        (* super().request(...), webtools.py:150-154 *)
| NLoad (k h : nat) : ncmd unit
| NRelease (k h : nat) : ncmd unit | NClose (k h : nat) : ncmd unit
| NClear (k : nat) : ncmd unit
| NStack (j : nat) : ncmd Z | NStackSet (j : nat) (z : Z) : ncmd unit
| NDie (j : nat) : ncmd unit.                     (* the mirror is gone: its finalizers are called *)

Section Sem.
  Variable E : henv.
  Definition note (e : nev) (w : nworld) : nworld :=
    mknw (n_l w) (n_http w) (n_stack w) (n_pools w) (n_resps w) (n_fin w) (n_log w ++ [e]).
  Definition with_l (f : lworld) (w : nworld) : nworld :=
    mknw f (n_http w) (n_stack w) (n_pools w) (n_resps w) (n_fin w) (n_log w).
  Definition nreq (k : nat) (r : request) (w : nworld) : outcome resp * nworld :=
    let '(a, w') := creq E r (l_w (n_l w)) in
    let l := mklw w' (l_ref (n_l w)) (l_cnt (n_l w)) in
    match a with
    | Good (code, b) =>
        let h := n_resps w in
        (Good (mkresp k h code b),
         mknw l (n_http w) (n_stack w) (n_pools w) (S h) (n_fin w) (n_log w ++ [EvResp k r h code]))
    | Fail e => (Fail e, note (EvFail k r) (with_l l w))
    | Block => (Block, w)
    end.
  Definition of_mirror (j : nat) (p : nat * nat) : bool := fst p =? j.
  Definition nexec {X} (c : ncmd X) : nworld -> outcome X * nworld :=
    match c in ncmd X return nworld -> outcome X * nworld with
    | NL c => fun w => let '(r, l) := lexec E c (n_l w) in (r, with_l l w)
    | NHttp u => fun w => (Good (n_http w !! u), w)
    | NSet u k => fun w =>
        (Good tt, note (EvOwn u k) (mknw (n_l w) (<[u := k]> (n_http w)) (n_stack w) (n_pools w) (n_resps w) (n_fin w) (n_log w)))
    | NPool => fun w =>
        (Good (n_pools w), note (EvPool (n_pools w)) (mknw (n_l w) (n_http w) (n_stack w) (S (n_pools w)) (n_resps w) (n_fin w) (n_log w)))
    | NFin j k => fun w => (Good tt, mknw (n_l w) (n_http w) (n_stack w) (n_pools w) (n_resps w) (n_fin w ++ [(j, k)]) (n_log w))
    | NReq k r => nreq k r
    | NLoad k h => fun w => (Good tt, note (EvLoad k h) w)
    | NRelease k h => fun w => (Good tt, note (EvRelease k h) w)
    | NClose k h => fun w => (Good tt, note (EvClose k h) w)
    | NClear k => fun w => (Good tt, note (EvClear k) w)
    | NStack j => fun w => (Good match n_stack w !! j with Some z => z | None => 0%Z end, w)
    | NStackSet j z => fun w => (Good tt, mknw (n_l w) (n_http w) (<[j := z]> (n_stack w)) (n_pools w) (n_resps w) (n_fin w) (n_log w))
    | NDie j => fun w =>
        (Good tt, mknw (n_l w) (n_http w) (n_stack w) (n_pools w) (n_resps w)
           (List.filter (fun p => negb (of_mirror j p)) (n_fin w))
           (n_log w ++ map (fun p => EvClear (snd p)) (List.filter (of_mirror j) (n_fin w))))
    end.
  Definition nsem : Sem ncmd nworld := {| cexec := fun X => @nexec X |}.
End Sem.

(** ** The methods, for any meaning of [with ... .request(...) as req]

    [req r f]: the request [r]; [f load] is the code of the branch [req.status < 400], [load]
    is [json.load(req)].  Otherwise the text is that of HostLazy.v. *)
Section Gen.
  Context {C : Type -> Type} (cop : forall X, ccmd X -> prog C X) (locked : forall A, prog C A -> prog C A).
  Context (req : forall A, request -> (prog C json -> prog C A) -> prog C A).
  Variables (J : nat) (aggr : bool).
  Arguments cop {X}. Arguments locked {A}. Arguments req {A}.

  (** host.py:356-390 *)
  Definition n_send_data (data : text) : prog C unit :=
    c <- locked (cop (MClosed J)) ;;
    if c then Ret tt
    else req (PostMsg (BJson (body_str data))) (fun _ => Ret tt).
  (** host.py:392-424 *)
  Definition n_check_states : prog C unit :=
    c <- locked (cop (MClosed J)) ;;
    if c then Ret tt
    else
      is_closed <- req (GetState (Some k_closed))
        (fun load => res <- load ;; fs <- g_dict res ;;
                     Ret match jget k_data fs with Some v => v | None => JNull end) ;;
      match is_closed with JBool true => Raise StopIteration | _ => Ret tt end.
  (** host.py:443-468 *)
  Definition n_write_body (check : bool) (data : text) : prog C nat :=
    (if check then n_check_states else Ret tt) ;;
    let message_lines := splitlines data in
    if aggr then
      n_send_data data ;; Ret (length data)
    else
      let n_lines := length message_lines in
      if (1 <? n_lines) || ((n_lines =? 1) && text_eqb (hd [] message_lines) [])
         || is_end_line_break data
      then
        res <- cop (MPut J data) ;;
        v <- cop (MGetvalue J) ;;
        n_send_data v ;;
        cop (MSeek0 J) ;; cop (MTruncate0 J) ;;
        Ret res
      else if n_lines =? 1 then cop (MPut J data)
      else Ret 0.
  (** host.py:470-494, 258-264 *)
  Definition n_write (data : text) : prog C nat :=
    w <- g_writable (@cop) (@locked) J ;;
    if negb w then Raise OSError else locked (n_write_body true data).
  Definition n_new_line (check : bool) : prog C unit :=
    locked (n <- cop (MTell J) ;;
            if 0 <? n then n_write_body check [LF] ;; Ret tt else Ret tt).
  (** host.py:266-294, 296-324, 326-354 *)
  Definition n_signal (check : bool) (body : json) : prog C unit :=
    c <- locked (cop (MClosed J)) ;;
    if c then Ret tt
    else n_new_line check ;;
         req (PostMsg (BJson body)) (fun _ => Ret tt).
  Definition n_send_eof : prog C unit := n_signal true body_close.
  Definition n_send_error (e : excobj) : prog C unit := n_signal (negb (is_stop e)) (body_exc s_error e).
  Definition n_send_warning (e : excobj) : prog C unit := n_signal true (body_exc s_warning e).
  (** host.py:181-200 *)
  Definition n_close (exc : option excobj) : prog C unit :=
    c <- locked (cop (MClosed J)) ;;
    if c then Ret tt
    else
      match exc with None => n_send_eof | Some e => n_send_error e end ;;
      g_clear (@cop) (@locked) J ;;
      locked (cop (MClose J)).
  (** The methods that make no request are those of HostLazy.v. *)
  Definition n_mcall (c : mcall) : prog C cres :=
    match c with
    | HWrite data => g_as CNat (n_write data)
    | HNewLine check => g_as unit_cres (n_new_line check)
    | HSendEof => g_as unit_cres n_send_eof
    | HSendError e => g_as unit_cres (n_send_error e)
    | HSendWarning e => g_as unit_cres (n_send_warning e)
    | HSendData data => g_as unit_cres (n_send_data data)
    | HCheck => g_as unit_cres n_check_states
    | HClose exc => g_as unit_cres (n_close exc)
    | c => g_call (@cop) (@locked) J aggr c
    end.

  (** LineHostReader, host.py:876-1001, 1003-1209 *)
  Definition n_done (r : request) : prog C bool :=
    req r (fun load => res <- load ;; fs <- g_dict res ;;
      Ret match jget k_message fs with Some v => is_str v s_success | None => false end).
  Definition n_index (key : text) (v : json) : prog C json :=
    match v with
    | JObj fs => match jget key fs with Some x => Ret x | None => Raise KeyError end
    | _ => Raise TypeError
    end.
  Definition n_get_states (name : text) : prog C json :=
    req (GetState (Some name)) (fun load => res <- load ;; n_index k_data res).
  Definition n_out {X} (o : outcome X) : prog C X :=
    match o with Good x => Ret x | Fail e => Raise e | Block => Raise OutOfFuel end.
  Definition n_read (size : option Z) : prog C (list item) :=
    req (GetMsg match size with Some z => Some (dec_of_Z (Z.max 0 z)) | None => None end)
      (fun load => res <- load ;; data <- n_index k_data res ;;
                   l <- n_out (py_tuple data) ;; n_out (deserialize_all l)).
  Definition n_rcall (c : rcall) : prog C cres :=
    match c with
    | RdRead size => g_as CItems (n_read size)
    | RdLen => g_as CJson (n_get_states k_curlen)
    | RdMaxlen => g_as CJson (n_get_states k_maxlen)
    | RdClosed => g_as CJson (n_get_states k_closed)
    | RdClear => g_as CBool (n_done DelMsg)
    | RdReset => g_as CBool (n_done DelState)
    | RdStop => g_as CBool (n_done (PostState (BJson (JObj [(k_state, JStr k_closed); (k_value, JStr (txt "true"))]))))
    end.

  (** The branch for other states, e.g. host.py:287-294. *)
  Definition n_refused {A} (load : prog C json) : prog C A :=
    info <- load ;; _ <- g_dict info ;; Raise ConnectionError.
End Gen.

(** The methods of HostLazy.v and HostCli.v are instances. *)
Definition coarse {C : Type -> Type} (cop : forall X, ccmd X -> prog C X) A (r : request) (f : prog C json -> prog C A) : prog C A :=
  a <- cop _ (CReq r) ;; let load := g_load (snd a) in if fst a <? 400 then f load else n_refused load.
Lemma lazy_methods M c :
  n_mcall (fun X c => op (LC c)) (fun A => hl_with (lm_id M)) (coarse (fun X c => op (LC c))) (lm_id M) (lm_aggr M) c = hl_call M c.
Proof. destruct c; reflexivity. Qed.
Lemma reader_methods c : n_rcall (coarse (fun X => @op ccmd X)) c = r_call c.
Proof. destruct c; reflexivity. Qed.

(** ** Requests in detail *)

(** webtools.py:114-154 and 81-94: [with pool.request(...) as req: ...]. *)
Definition n_request (k : nat) {A} (r : request) (f : prog ncmd json -> prog ncmd A) : prog ncmd A :=
  rs <- op (NReq k r) ;;
  try_finally
    (let load := op (NLoad (rs_pool rs) (rs_id rs)) ;; g_load (rs_body rs) in
     if rs_code rs <? 400 then f load else n_refused load)
    (op (NRelease (rs_pool rs) (rs_id rs)) ;; op (NClose (rs_pool rs) (rs_id rs))).
(** [return self.__http_] where it cannot be [None]. *)
Definition n_some (h : option nat) : prog ncmd nat :=
  match h with Some k => Ret k | None => Raise AttributeError end.
(** The property [__http] of a mirror, host.py:149-162. *)
Definition m_http (j : nat) : prog ncmd nat :=
  h <- op (NHttp (inl j)) ;;                                           (* 156 *)
  match h with
  | None =>
      k <- op NPool ;; op (NSet (inl j) k) ;;                          (* 157-160 *)
      h2 <- op (NHttp (inl j)) ;; k2 <- n_some h2 ;; op (NFin j k2)    (* 161 *)
  | Some _ => Ret tt
  end ;;
  h3 <- op (NHttp (inl j)) ;; n_some h3.                               (* 162 *)
Definition m_req (j : nat) A (r : request) (f : prog ncmd json -> prog ncmd A) : prog ncmd A :=
  k <- m_http j ;; n_request k r f.
(** Any method of a reader, e.g. host.py:876-884; webtools.py:102-112. *)
Definition r_req (j : nat) A (r : request) (f : prog ncmd json -> prog ncmd A) : prog ncmd A :=
  h <- op (NHttp (inr j)) ;;
  match h with
  | Some _ => h2 <- op (NHttp (inr j)) ;; k <- n_some h2 ;; n_request k r f
  | None => k <- op NPool ;; try_finally (n_request k r f) (op (NClear k))
  end.
(** host.py:838-851 *)
Definition r_enter (j : nat) : prog ncmd unit :=
  h <- op (NHttp (inr j)) ;;
  match h with
  | None => k <- op NPool ;; op (NSet (inr j) k) ;;
            z <- op (NStack j) ;; op (NStackSet j (z + 1)%Z)
  | Some _ => Ret tt
  end.
(** host.py:853-864; webtools.py:105-112 *)
Definition r_exit (j : nat) : prog ncmd unit :=
  z <- op (NStack j) ;;
  (if (0 <? z)%Z then z1 <- op (NStack j) ;; op (NStackSet j (z1 - 1)%Z) else Ret tt) ;;
  z2 <- op (NStack j) ;;
  if (z2 <=? 0)%Z then
    h <- op (NHttp (inr j)) ;;
    match h with
    | Some _ => h2 <- op (NHttp (inr j)) ;; k <- n_some h2 ;; op (NClear k)
    | None => Ret tt
    end
  else Ret tt.

Definition n_op X (c : ccmd X) : prog ncmd X := op (NL (LC c)).
Definition n_with (j : nat) A (body : prog ncmd A) : prog ncmd A :=
  l <- lift (fun _ c => NL c) (hl_lock j) ;; with_lock l Ex body.
(** What a thread does: calls of mirrors and readers, entering and leaving readers;
    [KGone]: a mirror is not referenced any more. *)
Inductive kcall := KMir (M : lmir) (c : mcall) | KRd (j : nat) (c : rcall) | KEnter (j : nat) | KExit (j : nat) | KGone (j : nat).
Definition k_call (c : kcall) : prog ncmd cres :=
  match c with
  | KMir M c => n_mcall n_op (n_with (lm_id M)) (m_req (lm_id M)) (lm_id M) (lm_aggr M) c
  | KRd j c => n_rcall (r_req j) c
  | KEnter j => g_as unit_cres (r_enter j)
  | KExit j => g_as unit_cres (r_exit j)
  | KGone j => g_as unit_cres (op (NDie j))
  end.
