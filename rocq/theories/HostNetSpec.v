(** * HostNetSpec: vocabulary of the statements about connections (C87) *)
From stdpp Require Import gmap.
From Coq Require Import List NArith ZArith Bool Arith.
From Verif Require Import PyStr Prog Base Host HostCli HostLazy HostNet.
Import ListNotations.
Local Open Scope nat_scope.

(** Threads that make calls, from a state [w] without pools. *)
Definition net_pool (css : list (list kcall)) : list (prog ncmd (list (outcome cres))) :=
  map (fun cs => thread (map k_call cs)) css.
Definition net_sched (E : henv) (sch : list nat) (c : list (prog ncmd (list (outcome cres))) * st nworld) :=
  @sched_run ncmd nworld (nsem E) _ sch c.

(** ** Responses *)
Definition of_resp (h : nat) (e : nev) : bool :=
  match e with EvResp _ _ h' _ | EvLoad _ h' | EvRelease _ h' | EvClose _ h' => h' =? h | _ => false end.
Definition resp_log (h : nat) (log : list nev) : list nev := List.filter (of_resp h) log.
(** Whether the body is read: not if a message was taken. *)
Definition loads (r : request) (code : nat) : bool :=
  match r with PostMsg _ => negb (code <? 400) | _ => true end.
(** All that happens with a response. *)
Definition life (k : nat) (r : request) (h code : nat) : list nev :=
  [EvResp k r h code] ++ (if loads r code then [EvLoad k h] else []) ++ [EvRelease k h; EvClose k h].

(** ** Pools *)
Definition of_pool (k : nat) (e : nev) : bool :=
  match e with
  | EvPool k' | EvOwn _ k' | EvFail k' _ | EvResp k' _ _ _ | EvLoad k' _ | EvRelease k' _ | EvClose k' _ | EvClear k' => k' =? k
  end.
Definition pool_log (k : nat) (log : list nev) : list nev := List.filter (of_pool k) log.
(** All that happens with a pool that is used for one request only. *)
Inductive one_use (k : nat) : list nev -> Prop :=
| ou_fail r : one_use k [EvPool k; EvFail k r; EvClear k]
| ou_resp r h code : one_use k (EvPool k :: life k r h code ++ [EvClear k]).

(** ** The same calls without connections: the methods of HostLazy.v and HostCli.v *)
Definition plain_call (c : kcall) : prog lcmd cres :=
  match c with
  | KMir M c => hl_call M c
  | KRd _ c => lift (fun _ c => LC c) (r_call c)
  | KEnter _ | KExit _ | KGone _ => Ret CUnit
  end.
Definition plain_pool (css : list (list kcall)) : list (prog lcmd (list (outcome cres))) :=
  map (fun cs => thread (map plain_call cs)) css.

(** ** One mirror *)
Definition made (e : nev) : bool := match e with EvPool _ => true | _ => false end.
Definition asks (e : nev) : bool := match e with EvResp _ _ _ _ | EvFail _ _ => true | _ => false end.
(** Some thread lets the mirror go. *)
Definition gone (css : list (list kcall)) (j : nat) : Prop := exists cs, In cs css /\ In (KGone j) cs.
(** ** What one object does when it is used alone *)
Definition used (k : nat) (e : nev) : Prop :=
  match e with EvFail k' _ | EvResp k' _ _ _ | EvLoad k' _ | EvRelease k' _ | EvClose k' _ => k' = k | _ => False end.
Definition net_run (E : henv) (cs : list kcall) (w : lworld) := @run ncmd nworld (nsem E) _ 0 (thread (map k_call cs)) (mkst (nstart w) ∅).
Definition log_of {A} (r : outcome A * st nworld) : list nev := n_log (dat (snd r)).
Definition fin_of {A} (r : outcome A * st nworld) : list (nat * nat) := n_fin (dat (snd r)).

(** What happens for one request on pool [k]. *)
Definition one_request (k : nat) (es : list nev) : Prop := (exists r, es = [EvFail k r]) \/ exists r h code, es = life k r h code.
(** What one does with a reader. *)
Inductive rdo := DoCall (c : rcall) | DoEnter | DoExit.
Definition do_rd (j : nat) (d : rdo) : kcall := match d with DoCall c => KRd j c | DoEnter => KEnter j | DoExit => KExit j end.
(** The log of that: [h] is the pool of the reader, [n] the number of the next pool. *)
Fixpoint reader_log (j : nat) (h : option nat) (n : nat) (ds : list rdo) (log : list nev) : Prop :=
  match ds, h with
  | [], _ => log = []
  | DoCall _ :: ds, None => exists es rest, log = es ++ rest /\ one_use n es /\ reader_log j h (S n) ds rest
  | DoCall _ :: ds, Some k => exists es rest, log = es ++ rest /\ one_request k es /\ reader_log j h n ds rest
  | DoEnter :: ds, None => exists rest, log = EvPool n :: EvOwn (inr j) n :: rest /\ reader_log j (Some n) (S n) ds rest
  | DoEnter :: ds, Some _ => reader_log j h n ds log
  | DoExit :: ds, None => reader_log j h n ds log
  | DoExit :: ds, Some k => exists rest, log = EvClear k :: rest /\ reader_log j h n ds rest
  end.
