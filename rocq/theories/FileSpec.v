(** * FileSpec: vocabulary of the statements about LineFileBuffer

    Only names of files, directories (finite maps from names to contents) and lists of
    records; nothing of the code is used here. *)
From stdpp Require Import gmap.
From Coq Require Import String.
From Coq Require Import List NArith ZArith Bool Arith.
From Verif Require Import PyStr Base Spec.
Import ListNotations.
Local Open Scope nat_scope.

(** A directory: file name -> content. *)
Notation directory := (gmap text text).

(** [<name>-<n>.log] and [<name>-<tmp_id>.tmp]. *)
Definition record_file (name : text) (n : nat) : text := name ++ txt "-" ++ dec_of_nat n ++ txt ".log".
Definition temp_file (name tmp_id : text) : text := name ++ txt "-" ++ tmp_id ++ txt ".tmp".

(** [s] is the number [n] in decimal digits, without leading zeros. *)
Inductive decimal : nat -> text -> Prop :=
| dc_digit d : d < 10 -> decimal d [(48 + N.of_nat d)%N]
| dc_more n s d : 0 < n -> decimal n s -> d < 10 -> decimal (10 * n + d) (s ++ [(48 + N.of_nat d)%N]).

(** The record files of [name] are exactly the list [l] (oldest first; the newest record
    has number 0). *)
Definition records (name : text) (fs : directory) (l : list text) : Prop :=
  forall n, fs !! record_file name n = nth_error (rev l) n.

(** The text of the unfinished line (a missing temporary file counts as empty). *)
Definition unfinished (name tmp_id : text) (fs : directory) : text :=
  match fs !! temp_file name tmp_id with Some s => s | None => [] end.

(** A file name that means itself as a glob pattern. *)
Definition plain (name : text) : Prop := Forall (fun c => c <> 42%N /\ c <> 63%N /\ c <> 91%N) name.

(** A text that can be written to a UTF-8 file: no surrogate code points. *)
Definition utf8 (s : text) : Prop := Forall (fun c => ~ (55296 <= c <= 57343)%N) s.

(** How a text file is read: CR LF and CR become LF. *)
Inductive newlines : text -> text -> Prop :=
| nl_nil : newlines [] []
| nl_crlf s s' : newlines s s' -> newlines (13%N :: 10%N :: s) (10%N :: s')
| nl_cr s s' : (forall r, s <> 10%N :: r) -> newlines s s' -> newlines (13%N :: s) (10%N :: s')
| nl_other c s s' : c <> 13%N -> newlines s s' -> newlines (c :: s) (c :: s').

(** A text as it is read: without CR it is read unchanged. *)
Definition no_cr (s : text) : Prop := ~ In 13%N s.

(** [subseq l' l]: [l'] is [l] with some elements removed. *)
Inductive subseq {A} : list A -> list A -> Prop :=
| subseq_nil : subseq [] []
| subseq_skip x l l' : subseq l' l -> subseq l' (x :: l)
| subseq_keep x l l' : subseq l' l -> subseq (x :: l') (x :: l).

(** [l] is what a reader of at most [m] items sees in a directory: the consecutive records
    number k-1, ..., 0 (as many as exist without a gap, at most [m] items in total), oldest
    first, as read from the files, then the unfinished line if it is not empty. *)
Definition sees (name tmp_id : text) (m : nat) (fs : directory) (l : list text) : Prop :=
  exists k last ts,
    newlines (unfinished name tmp_id fs) last /\
    let extra := match last with [] => [] | _ => [last] end in
    l = rev ts ++ extra /\ length ts = k /\ k <= m - length extra /\
    (forall i t, nth_error ts i = Some t -> exists s, fs !! record_file name i = Some s /\ newlines s t) /\
    (k < m - length extra -> fs !! record_file name k = None).
