(** * HostLazySpec: threads that share a LineHostMirror (C36) *)
From stdpp Require Import gmap.
From Coq Require Import List Bool Arith.
From Verif Require Import PyStr Prog PyIO Base HostCli Host HostLazy.
Import ListNotations.

Notation lsem E := (Build_Sem lcmd lworld (fun X => @lexec E X)).
(** Threads of one process that use the mirror [M] at the same time, and the same calls one
    after the other. *)
Definition hl_pool (M : lmir) (css : list (list mcall)) : list (prog lcmd (list (outcome cres))) :=
  map (fun cs => thread (map (hl_call M) cs)) css.
Definition hl_sched (E : henv) (sch : list nat) (c : list (prog lcmd (list (outcome cres))) * st lworld) :=
  @sched_run lcmd lworld (lsem E) _ sch c.
Definition hl_run (E : henv) (t : nat) (M : lmir) (c : mcall) (s : st lworld) : outcome cres * st lworld :=
  @run lcmd lworld (lsem E) _ t (hl_call M c) s.
Fixpoint hl_hist (E : henv) (M : lmir) (h : list (nat * mcall)) (s : st lworld) : list (outcome cres) * st lworld :=
  match h with
  | [] => ([], s)
  | (t, c) :: h' => let '(r, s1) := hl_run E t M c s in
                    let '(rs, s2) := hl_hist E M h' s1 in (r :: rs, s2)
  end.

(** The lock of the mirror has been created. *)
Definition hl_has_lock (M : lmir) (w : lworld) : Prop := exists n, l_ref w !! lm_id M = Some n.
(** The mirror has been created. *)
Definition hl_there (M : lmir) (w : lworld) : Prop := exists f, w_mir (l_w w) !! lm_id M = Some f.
(** The calls that have their whole effect in one section of the lock. *)
Definition h_one_section (c : mcall) : bool :=
  match c with
  | HWrite _ | HNewLine _ | HClear | HFlush | HRead | HClosed | HReadable | HWritable => true
  | _ => false
  end.
(** The same mirror with a lock that was there from the beginning. *)
Definition with_given (M : lmir) (l : nat) : hmir := mkhm (lm_id M) (lm_aggr M) l.
