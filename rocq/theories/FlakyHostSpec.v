(** * FlakyHostSpec: vocabulary of the statements about exceptions inside LineHostMirror and LineHostReader *)
From stdpp Require Import gmap.
From Coq Require Import String.
From Coq Require Import List NArith ZArith Bool Arith.
From Verif Require Import PyStr Prog PyIO Base Spec Json Host HostCli HostCliSpec Flaky FlakySpec FlakyHost FlakyProcSpec.
From Verif Require Proc.
Import ListNotations.
Local Open Scope nat_scope.

(** The messages of a host mirror are those of a mirror of processes (FlakyProcSpec.v); the
    body of the request that sends one (host.py:283, 311-313, 341-343, 379). *)
Definition body_of (x : Proc.msg) : json :=
  match x with
  | Proc.QStr s => JObj [(txt "type", JStr (txt "str")); (txt "data", JObj [(txt "value", JStr s)])]
  | Proc.QClose => JObj [(txt "type", JStr (txt "close"))]
  | Proc.QError g => JObj [(txt "type", JStr (txt "error")); (txt "data", serialize g)]
  | Proc.QWarning g => JObj [(txt "type", JStr (txt "warning")); (txt "data", serialize g)]
  | _ => JNull
  end.
(** The server [d] after it has handled one message; and the messages [ms]. *)
Definition got1 (E : henv) (d : hdata) (x : Proc.msg) : hdata := snd (serve E (PostMsg (BJson (body_of x))) d).
Definition got (E : henv) (ms : list Proc.msg) (d : hdata) : hdata := fold_left (got1 E) ms d.
(** [w'] is [w], but mirror [M] holds [b], the server has handled the messages [ms], and some
    of the faults of the network have come. *)
Definition mirror_sent (E : henv) (M : hmir) (w : world) (b : sio) (ms : list Proc.msg) (w' : world) : Prop :=
  exists n, w' = mkworld (got E ms (w_srv w)) (<[hm_id M := b]> (w_mir w)) (skipn n (w_faults w)).
(** A call in thread [t], when no lock is held, with the exceptions [fs] to come: it ends, no
    lock is held, and [P] is true of the world after it. *)
Definition cli_left (E : henv) (t : nat) (c : ccall) (w : world) (fs : faults) (P : world -> Prop) : Prop :=
  let o := host_run E t c w fs ∅ in fst o <> Block /\ lks (snd o) = ∅ /\ P (fst (dat (snd o))).
(** A call of the mirror [M] leaves a held text and sends messages as [L] says, and nothing
    else changes. *)
Definition hmir_left (E : henv) (t : nat) (M : hmir) (c : mcall) (w : world) (fs : faults) (L : sio -> list Proc.msg -> Prop) : Prop :=
  cli_left E t (OnMir M c) w fs (fun w' => exists b ms, L b ms /\ mirror_sent E M w b ms w').
(** The mirror [M], with an RLock, is open and holds [v]; what does not come from the server
    says that it is an error. *)
Definition open_host (M : hmir) (w : world) (v : text) : Prop :=
  has_rlock M /\ mirror_is M (Some v) w /\ Forall fault_ok (w_faults w).
(** The one request of a method of the reader (host.py:1003-1209); [w'] is [w], and the
    server may have handled the request. *)
Definition request_of (c : rcall) : request :=
  match c with
  | RdRead size => GetMsg match size with Some z => Some (dec_of_Z (Z.max 0 z)) | None => None end
  | RdLen => GetState (Some (txt "curlen")) | RdMaxlen => GetState (Some (txt "maxlen")) | RdClosed => GetState (Some (txt "closed"))
  | RdClear => DelMsg | RdReset => DelState
  | RdStop => PostState (BJson (JObj [(txt "state", JStr (txt "closed")); (txt "value", JStr (txt "true"))]))
  end.
Definition sent_or_not (E : henv) (r : request) (w w' : world) : Prop :=
  w_mir w' = w_mir w /\ (exists n, w_faults w' = skipn n (w_faults w)) /\
  (w_srv w' = w_srv w \/ w_srv w' = snd (serve E r (w_srv w))).
