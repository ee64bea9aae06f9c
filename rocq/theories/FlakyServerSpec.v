(** * FlakyServerSpec: vocabulary of the statements about exceptions inside the service *)
From stdpp Require Import gmap.
From Coq Require Import String.
From Coq Require Import List NArith ZArith Bool.
From Verif Require Import PyStr Prog PyIO Base Spec LineBuf Host HostSpec Flaky FlakySpec.
Import ListNotations.
Local Open Scope nat_scope.

(** A request or a call of LineHostBuffer in thread [t] with the exceptions [fs] to come:
    what is left of the data. *)
Definition srv_run (E : henv) (t : nat) (c : hcall) (s : st hdata) (fs : faults) : outcome hres * st (hdata * faults) :=
  run t (flaky_call (h_call E c)) (mkst (dat s, fs) (lks s)).
(** The records and the unfinished text of the log [g] in a buffer of size [m]. *)
Definition recs (m : nat) (g : slog) : list item := last_items m (done g).
(** [srv_left E t c s fs P Q]: no lock is held, and [P] is true of the buffer that is left,
    [Q] of the dict of states. *)
Definition srv_left (E : henv) (t : nat) (c : hcall) (s : st hdata) (fs : faults)
  (P : lbuf -> Prop) (Q : list (text * json) -> Prop) : Prop :=
  let s' := snd (srv_run E t c s fs) in
  lks s' = ∅ /\ P (h_buf (fst (dat s'))) /\ Q (h_state (fst (dat s'))).

(** A record of the service: a line, a message, or another JSON value. *)
Definition srv_item (i : item) : Prop := match i with IStr x => no_break x | _ => True end.
(** What is true of a LineHostBuffer of size [m] at any time. *)
Definition srv_sound (m : nat) (d : hdata) : Prop :=
  sound_of srv_item m (h_buf d) /\
  forall v, field (txt "closed") (h_state d) v -> exists b, v = JBool b.
(** What can still be done with it when nothing is running: an open one can be emptied by
    DELETE, and is then as new; GET answers at most [m] items and changes nothing if no
    record is a value that the service cannot serialize; a closed one says so.  DELETE on
    the states works in any case. *)
Definition srv_usable (E : henv) (m : nat) (d : hdata) : Prop :=
  (if sclosed (last_line (h_buf d)) then
     forall t n size, asks n size -> run t (handle E (GetMsg n)) (mkst d ∅) = (Fail OSError, mkst d ∅)
   else forall t,
     run t (handle E DelMsg) (mkst d ∅) = (Good (success 200), mkst (mkhdata (dat (fresh m)) (h_state d)) ∅) /\
     (forall n size, asks n size -> (forall i, In i (dq (storage (h_buf d))) -> ~ is_raw i) ->
        exists l, run t (handle E (GetMsg n)) (mkst d ∅) = (Good (state_answer (JArr l)), mkst d ∅) /\ length l <= m)) /\
  forall t, run t (handle E DelState) (mkst d ∅) =
    (Good (success 200), mkst (mkhdata (h_buf d) [(txt "closed", JBool false)]) ∅).
(** Requests and calls one after the other, each with exceptions. *)
Fixpoint srv_hist (E : henv) (h : list (nat * hcall)) (s : st (hdata * faults)) : list (outcome hres) * st (hdata * faults) :=
  match h with
  | [] => ([], s)
  | (t, c) :: h' => let '(r, s1) := run t (flaky_call (h_call E c)) s in
                    let '(rs, s2) := srv_hist E h' s1 in (r :: rs, s2)
  end.
