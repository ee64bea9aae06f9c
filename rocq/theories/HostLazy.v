(** * HostLazy: LineHostMirror with its lazily created lock, /repo/syncstream/host.py:58-494

    HostCli.v takes the lock of a mirror as given.  Here the same methods are written for an
    arbitrary meaning of [with self.__buffer_lock]; [given_lock] below says that the methods
    of HostCli.v are one instance, and the lazily created lock (host.py:164-173) is the
    other.  Not modelled: as in HostCli.v; the pool of connections (host.py:149-162) is
    created lazily, too, which has no effect on what is sent. *)
From stdpp Require Import gmap.
From Coq Require Import String.
From Coq Require Import List NArith ZArith Bool Arith.
From Verif Require Import PyStr Prog ProgFacts PyIO Base LineBuf Json Host HostCli.
Import ListNotations.
Local Open Scope prog_scope.
Local Open Scope nat_scope.

(** [self.__buffer_lock_] of each mirror ([None]: not there yet) and the number of RLock
    objects created so far. *)
Record lworld := mklw { l_w : world; l_ref : gmap nat nat; l_cnt : nat }.
Inductive lcmd : Type -> Type :=
| LRef (j : nat) : lcmd (option nat)           (* read self.__buffer_lock_ *)
| LNew (j : nat) : lcmd unit                   (* self.__buffer_lock_ = threading.RLock() *)
| LC {X} (c : ccmd X) : lcmd X.

Section Sem.
  Variable E : henv.
  Definition lexec {X} (c : lcmd X) : lworld -> outcome X * lworld :=
    match c in lcmd X return lworld -> outcome X * lworld with
    | LRef j => fun w => (Good (l_ref w !! j), w)
    | LNew j => fun w => (Good tt, mklw (l_w w) (<[j := l_cnt w]> (l_ref w)) (S (l_cnt w)))
    | LC c => fun w => let '(r, w') := cliexec E c (l_w w) in (r, mklw w' (l_ref w) (l_cnt w))
    end.
End Sem.

(** RLocks have odd numbers (Prog.v). *)
Definition rlock (n : nat) : nat := 2 * n + 1.
(** The property [__buffer_lock], host.py:164-173. *)
Definition hl_lock (j : nat) : prog lcmd nat :=
  r <- op (LRef j) ;;                                                  (* 171 *)
  match r with None => op (LNew j) | Some _ => Ret tt end ;;           (* 172 *)
  r2 <- op (LRef j) ;;                                                 (* 173 *)
  match r2 with
  | Some n => Ret (rlock n)
  | None => Raise AttributeError      (* [with None]: not reachable *)
  end.

(** ** The methods, for any meaning of [with self.__buffer_lock] *)
Section Gen.
  Context {C : Type -> Type} (cop : forall X, ccmd X -> prog C X) (locked : forall A, prog C A -> prog C A).
  Variables (J : nat) (aggr : bool).
  Arguments cop {X}. Arguments locked {A}.

  Definition g_load (b : option json) : prog C json :=
    match b with Some v => Ret v | None => Raise ValueError end.
  Definition g_dict (v : json) : prog C (list (text * json)) :=
    match v with JObj fs => Ret fs | _ => Raise AttributeError end.
  Definition g_raise {A} (b : option json) : prog C A :=
    info <- g_load b ;; _ <- g_dict info ;; Raise ConnectionError.
  Definition g_request {A} (r : request) (f : option json -> prog C A) : prog C A :=
    a <- cop (CReq r) ;; if fst a <? 400 then f (snd a) else g_raise (snd a).

  (** host.py:175-179, 215-222, 224-231, 244-256, 426-429, 431-441 *)
  Definition g_closed : prog C bool := locked (cop (MClosed J)).
  Definition g_readable : prog C bool := locked (c <- cop (MClosed J) ;; Ret (negb c)).
  Definition g_writable : prog C bool := locked (c <- cop (MClosed J) ;; Ret (negb c)).
  Definition g_clear : prog C unit := locked (cop (MSeek0 J) ;; cop (MTruncate0 J)).
  Definition g_flush : prog C unit := locked (cop (MFlush J)).
  Definition g_read : prog C text :=
    r <- g_readable ;;
    if negb r then Raise OSError else locked (cop (MGetvalue J)).
  (** host.py:356-390 *)
  Definition g_send_data (data : text) : prog C unit :=
    c <- locked (cop (MClosed J)) ;;
    if c then Ret tt
    else g_request (PostMsg (BJson (body_str data))) (fun _ => Ret tt).
  (** host.py:392-424 *)
  Definition g_check_states : prog C unit :=
    c <- locked (cop (MClosed J)) ;;
    if c then Ret tt
    else
      is_closed <- g_request (GetState (Some k_closed))
        (fun b => res <- g_load b ;; fs <- g_dict res ;;
                  Ret match jget k_data fs with Some v => v | None => JNull end) ;;
      match is_closed with JBool true => Raise StopIteration | _ => Ret tt end.
  (** host.py:443-468 *)
  Definition g_write_body (check : bool) (data : text) : prog C nat :=
    (if check then g_check_states else Ret tt) ;;
    let message_lines := splitlines data in
    if aggr then
      g_send_data data ;; Ret (length data)
    else
      let n_lines := length message_lines in
      if (1 <? n_lines) || ((n_lines =? 1) && text_eqb (hd [] message_lines) [])
         || is_end_line_break data
      then
        res <- cop (MPut J data) ;;
        v <- cop (MGetvalue J) ;;
        g_send_data v ;;
        cop (MSeek0 J) ;; cop (MTruncate0 J) ;;
        Ret res
      else if n_lines =? 1 then cop (MPut J data)
      else Ret 0.
  (** host.py:470-494, 258-264 *)
  Definition g_write (data : text) : prog C nat :=
    w <- g_writable ;;
    if negb w then Raise OSError else locked (g_write_body true data).
  Definition g_new_line (check : bool) : prog C unit :=
    locked (n <- cop (MTell J) ;;
            if 0 <? n then g_write_body check [LF] ;; Ret tt else Ret tt).
  (** host.py:266-294, 296-324, 326-354 *)
  Definition g_send_eof : prog C unit :=
    c <- locked (cop (MClosed J)) ;;
    if c then Ret tt
    else g_new_line true ;;
         g_request (PostMsg (BJson body_close)) (fun _ => Ret tt).
  Definition g_send_error (e : excobj) : prog C unit :=
    c <- locked (cop (MClosed J)) ;;
    if c then Ret tt
    else g_new_line (negb (is_stop e)) ;;
         g_request (PostMsg (BJson (body_exc s_error e))) (fun _ => Ret tt).
  Definition g_send_warning (e : excobj) : prog C unit :=
    c <- locked (cop (MClosed J)) ;;
    if c then Ret tt
    else g_new_line true ;;
         g_request (PostMsg (BJson (body_exc s_warning e))) (fun _ => Ret tt).
  (** host.py:181-200 *)
  Definition g_close (exc : option excobj) : prog C unit :=
    c <- locked (cop (MClosed J)) ;;
    if c then Ret tt
    else
      match exc with None => g_send_eof | Some e => g_send_error e end ;;
      g_clear ;;
      locked (cop (MClose J)).

  Definition g_as {X} (f : X -> cres) (p : prog C X) : prog C cres := x <- p ;; Ret (f x).
  Definition g_call (c : mcall) : prog C cres :=
    match c with
    | HWrite data => g_as CNat (g_write data)
    | HNewLine check => g_as unit_cres (g_new_line check)
    | HSendEof => g_as unit_cres g_send_eof
    | HSendError e => g_as unit_cres (g_send_error e)
    | HSendWarning e => g_as unit_cres (g_send_warning e)
    | HSendData data => g_as unit_cres (g_send_data data)
    | HCheck => g_as unit_cres g_check_states
    | HClear => g_as unit_cres g_clear
    | HFlush => g_as unit_cres g_flush
    | HRead => g_as CText g_read
    | HClose exc => g_as unit_cres (g_close exc)
    | HClosed => g_as CBool g_closed
    | HReadable => g_as CBool g_readable
    | HWritable => g_as CBool g_writable
    | HFileno => g_as unit_cres (Raise OSError)
    | HSeek => g_as unit_cres (Raise OSError)
    | HIsatty => g_as CBool (Ret false)
    | HSeekable => g_as CBool (Ret false)
    end.
End Gen.

(** The methods of HostCli.v are the instance with the given lock. *)
Lemma given_lock M c :
  g_call (fun X => @op ccmd X) (fun A => with_lock (hm_lock M) Ex) (hm_id M) (hm_aggr M) c = m_call M c.
Proof. destruct c; reflexivity. Qed.

(** A mirror whose lock is created when it is first used. *)
Record lmir := mklm { lm_id : nat; lm_aggr : bool }.
Definition hl_with (j : nat) {A} (body : prog lcmd A) : prog lcmd A := l <- hl_lock j ;; with_lock l Ex body.
Definition hl_call (M : lmir) (c : mcall) : prog lcmd cres :=
  g_call (fun X c => op (LC c)) (fun A => hl_with (lm_id M)) (lm_id M) (lm_aggr M) c.
