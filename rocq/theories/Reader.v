(** * Reader: the pools of connections of one LineHostReader, /repo/syncstream/host.py:803-1001

    Only the life of the pools is modelled here; what the requests do is in HostCli.v.  A
    pool "holds connections" from the first request made with it (urllib3 keeps the
    connection for the next request) until [clear()] (webtools.py:105-112).  Not modelled:
    how many connections a pool holds, connections closed by the server, threads. *)
From Coq Require Import List ZArith Bool Arith.
Import ListNotations.
Local Open Scope nat_scope.

(** What happens with the pools; pools are numbered in the order of their creation. *)
Inductive pact := PNew (k : nat) | PReq (k : nat) | PClear (k : nat).
Definition pact_run (a : pact) (ps : list bool) : list bool :=
  match a with
  | PNew _ => ps ++ [false]
  | PReq k => firstn k ps ++ [true] ++ skipn (S k) ps
  | PClear k => firstn k ps ++ [false] ++ skipn (S k) ps
  end.
Fixpoint pacts_run (l : list pact) (ps : list bool) : list bool :=
  match l with [] => ps | a :: l' => pacts_run l' (pact_run a ps) end.

(** [rd_http] is [self.__http_], [rd_stack] is [self.__enter_stack] (host.py:822, 836);
    [rd_pools]: for each pool created so far, whether it holds connections. *)
Record rd_state := mkrd { rd_http : option nat; rd_stack : Z; rd_pools : list bool }.
Definition rd_init : rd_state := mkrd None 0 [].
Definition rd_next (s : rd_state) : nat := length (rd_pools s).

(** [ok]: whether the request succeeds (the method raises an exception otherwise). *)
Inductive revent := REnter | RExit | RUse (ok : bool).

(** host.py:838-851 *)
Definition rd_enter (s : rd_state) : list pact * rd_state :=
  match rd_http s with
  | None =>
      let k := rd_next s in
      ([PNew k], mkrd (Some k) (rd_stack s + 1) (pacts_run [PNew k] (rd_pools s)))
  | Some _ => ([], s)
  end.
(** host.py:853-864 *)
Definition rd_exit (s : rd_state) : list pact * rd_state :=
  let stack := if (0 <? rd_stack s)%Z then (rd_stack s - 1)%Z else rd_stack s in
  match rd_http s with
  | Some k =>
      if (stack <=? 0)%Z then ([PClear k], mkrd (rd_http s) stack (pacts_run [PClear k] (rd_pools s)))
      else ([], mkrd (rd_http s) stack (rd_pools s))
  | None => ([], mkrd (rd_http s) stack (rd_pools s))
  end.
(** Every other method (host.py:876-1001): [if self.__http_: ...] with the pool of the
    reader, else [with SafePoolManager(...) as _http: ...], which clears the pool also when
    the request raises. *)
Definition rd_use (s : rd_state) (ok : bool) : list pact * rd_state :=
  match rd_http s with
  | Some k => ([PReq k], mkrd (rd_http s) (rd_stack s) (pacts_run [PReq k] (rd_pools s)))
  | None =>
      let k := rd_next s in
      let l := [PNew k; PReq k; PClear k] in
      (l, mkrd (rd_http s) (rd_stack s) (pacts_run l (rd_pools s)))
  end.
Definition rd_step (s : rd_state) (e : revent) : list pact * rd_state :=
  match e with REnter => rd_enter s | RExit => rd_exit s | RUse ok => rd_use s ok end.
Fixpoint rd_run (s : rd_state) (h : list revent) : list (list pact) * rd_state :=
  match h with
  | [] => ([], s)
  | e :: h' => let '(l, s1) := rd_step s e in let '(ls, s2) := rd_run s1 h' in (l :: ls, s2)
  end.
