(** * FlakySpec: vocabulary of the statements about exceptions from outside *)
From stdpp Require Import gmap.
From Coq Require Import List.
From Verif Require Import PyStr Prog PyIO Base Spec LineBuf Flaky.
Import ListNotations.

(** A table of locks as it occurs: no lock is recorded as held by nobody. *)
Definition wfk (k : locks) : Prop := forall l, match k !! l with Some (Excl _ 0) | Some (Shared []) => False | _ => True end.

(** [cut t p d k k0 fs r s']: the call [p] of thread [t], with data [d], locks [k] and the
    exceptions [fs] to come, ends with the result [r] in [s'].  Either no exception came
    and it is the usual result, or the first that came is raised, the locks are [k0], and
    the data is as after the first [j] commands of [p]. *)
Definition cut {C D} `{!Sem C D} {A} (t : nat) (p : prog C A) (d : D) (k k0 : locks) (fs : faults)
  (r : outcome A) (s' : st (D * faults)) : Prop :=
  exists pre, fs = pre ++ snd (dat s') /\
  ((Forall (eq None) pre /\ run t p (mkst d k) = (r, mkst (fst (dat s')) (lks s'))) \/
   (exists pre0 e j, pre = pre0 ++ [Some e] /\ Forall (eq None) pre0 /\ r = Fail e /\ lks s' = k0 /\
      fst (dat s') = dat (prefix_run t j p (mkst d k)))).

(** ** LineBuffer *)
(** An open buffer of size [m] with the records [q], the unfinished text [v], and the
    position [pos] of the StringIO in it. *)
Definition holds (m : nat) (q : list item) (v : text) (pos : nat) : lbuf :=
  mklbuf (mkdeque q m) (mksio v pos false).
(** What a write(data) that is interrupted may leave: nothing or the whole text appended
    if no line is finished by [data]; otherwise, when the lines [lines] are in the records,
    the unfinished text before the write is still there, with the position at its end or
    at its beginning, or it is removed, or the rest of [data] is there. *)
Definition write_cut (m : nat) (q : list item) (v data : text) (d : lbuf) : Prop :=
  exists ls r, segments data ls r /\
  match ls with
  | [] => d = holds m q v (length v) \/ d = holds m q (v ++ r) (length (v ++ r))
  | l1 :: ls' =>
      let q' := last_items m (q ++ IStr (v ++ l1) :: map IStr ls') in
      d = holds m q v (length v) \/ d = holds m q' v (length v) \/ d = holds m q' v 0 \/
      d = holds m q' [] 0 \/ d = holds m q' r (length r)
  end.
Definition rotation {A} (l l' : list A) : Prop := exists a b, l = a ++ b /\ l' = b ++ a.
(** What an interrupted read leaves of the records [q]: they may be rotated, and the record
    that is being moved may be lost. *)
Definition turned {A} (q q' : list A) : Prop := rotation q q' \/ exists x, rotation q (x :: q').
(** Additionally the oldest of [m] records may be lost, if there is an unfinished line. *)
Definition read_cut (m : nat) (q : list item) (v : text) (d : lbuf) : Prop :=
  exists q', d = holds m q' v (length v) /\
  (turned q q' \/ (v <> [] /\ length q = m /\ exists x rest, q = x :: rest /\ turned rest q')).
(** What an interrupted clear() or close() leaves. *)
Definition clear_cut (m : nat) (q : list item) (v : text) (d : lbuf) : Prop :=
  d = holds m q v (length v) \/ d = holds m q v 0 \/ d = holds m q [] 0 \/ d = holds m [] [] 0.

(** A record: a text without line breaks. *)
Definition line_item (i : item) : Prop := exists x, i = IStr x /\ no_break x.
(** What is true of a LineBuffer of size [m] at any time; [ok]: what its records are. *)
Definition sound_of (ok : item -> Prop) (m : nat) (d : lbuf) : Prop :=
  dmax (storage d) = m /\ length (dq (storage d)) <= m /\ Forall ok (dq (storage d)) /\ no_break (sval (last_line d)).
Definition sound (m : nat) (d : lbuf) : Prop := sound_of line_item m d.
(** What can still be done with it when no call is running: an open buffer can be cleared,
    and is then as new; it can be read, and gives at most [m] lines and does not change; a
    closed buffer says so. *)
Definition usable (m : nat) (d : lbuf) : Prop :=
  if sclosed (last_line d) then
    forall t, (forall size, run t (lb_read size) (mkst d ∅) = (Fail OSError, mkst d ∅)) /\
              (forall data, run t (lb_write data) (mkst d ∅) = (Fail OSError, mkst d ∅))
  else forall t, run t lb_clear (mkst d ∅) = (Good tt, fresh m) /\
    (forall size, exists r, run t (lb_read size) (mkst d ∅) = (Good r, mkst d ∅) /\ length r <= m /\ Forall line_item r).
(** Calls one after the other, each with exceptions. *)
Fixpoint fl_hist (h : hist) (s : st (lbuf * faults)) : list (outcome res) * st (lbuf * faults) :=
  match h with
  | [] => ([], s)
  | (t, c) :: h' => let '(r, s1) := run t (flaky_call (lb_call c)) s in
                    let '(rs, s2) := fl_hist h' s1 in (r :: rs, s2)
  end.
(** Threads, each call with exceptions. *)
Definition fl_pool {C A} (css : list (list (prog C A))) : list (prog (fl C) (list (outcome A))) :=
  map (fun cs => thread (map flaky_call cs)) css.
