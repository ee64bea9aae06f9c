(** * WaitStopSpec: a pool in which the main process waits (vocabulary of C110) *)
From Coq Require Import List Arith.
From Verif Require Import Prog Base LineBuf Proc ProcSpec CountSpec.
Import ListNotations.

(** Calls that the other processes and threads may make while wait() goes on: everything on
    the mirrors (also several threads or processes on the same mirror, also mirrors of an
    earlier queue), force_stop() and stop_all_mirrors() of the main buffer. *)
Definition aside (c : scall) : Prop :=
  match c with
  | ToMirror _ _ | ToMain PForceStop | ToMain PStopAll => True
  | _ => False
  end.

(** What a thread of the pool ends with. *)
Inductive wres := Answers (rs : list (outcome sres)) | WaitEnds (r : outcome unit).

(** A thread that makes the calls [cs] one after the other, whatever they answer, and the
    main process calling wait() (mproc.py:924-927). *)
Definition caller (cs : list scall) : prog scmd wres := bind (thread (map s_call cs)) (fun rs => Ret (Answers rs)).
Definition main_wait (fuel : nat) : prog scmd wres := sys_p (bind (attempt (lp_wait fuel)) (fun r => Ret (WaitEnds r))).
(** The callers are threads 0, 1, ...; the main process is the last thread. *)
Definition with_wait (css : list (list scall)) (fuel : nat) : list (prog scmd wres) :=
  map caller css ++ [main_wait fuel].

(** Thread [i] of a pool can make its next step. *)
Definition can_step {A} (i : nat) (c : config A) : Prop := exists c', cstep (C:=scmd) (D:=psys) i c = Some c'.

(** What the threads other than [t0] put into the main buffer's queue during a schedule. *)
Fixpoint arrivals {A} (t0 : nat) (sch : list nat) (c : config (C:=scmd) (D:=psys) A) : list msg :=
  match sch with
  | [] => []
  | j :: sch' =>
      match cstep j c with
      | None => []
      | Some c' =>
          (if j =? t0 then [] else skipn (length (inbox (dat (snd c)))) (inbox (dat (snd c')))) ++ arrivals t0 sch' c'
      end
  end.
