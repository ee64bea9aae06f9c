(** * CrashSpec: vocabulary of the statements about crashes *)
From stdpp Require Import gmap.
From Coq Require Import String.
From Coq Require Import List NArith ZArith Bool Arith.
From Verif Require Import PyStr Base Spec FileSpec.
Import ListNotations.
Local Open Scope nat_scope.

Definition prefix_of (p s : text) : Prop := exists q, s = p ++ q.

(** [intact name m fs l lines]: the record files in [fs], after an interrupted attempt to
    append [lines] to the log [l] (oldest first) with at most [m] records.  [pos x] is the
    position in [l ++ lines] of the record with number [x]:
    - every record file is an old record or a new line, unchanged, with the exception of at
      most one, [w], which holds a prefix of a new line;
    - no record exists twice;
    - with at most one new line, or if nothing has to be dropped, greater numbers are older;
    - every old record that the append keeps still exists. *)
Definition intact (name : text) (m : nat) (fs : directory) (l lines : list text) : Prop :=
  exists (pos : nat -> nat) (w : nat),
    (forall x s, fs !! record_file name x = Some s ->
       x < m /\ exists line, nth_error (l ++ lines) (pos x) = Some line /\
         (s = line \/ (x = w /\ length l <= pos x /\ prefix_of s line))) /\
    (forall x y, fs !! record_file name x <> None -> fs !! record_file name y <> None ->
       pos x = pos y -> x = y) /\
    (length lines <= 1 \/ length l + length lines <= m ->
       forall x y, fs !! record_file name x <> None -> fs !! record_file name y <> None ->
       x < y -> pos y < pos x) /\
    (forall i, i < length l -> length l - i <= m - length lines ->
       exists x, fs !! record_file name x = nth_error l i /\ pos x = i).
