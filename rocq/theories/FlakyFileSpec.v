(** * FlakyFileSpec: vocabulary of the statements about LineFileBuffer methods that are left in the middle *)
From stdpp Require Import gmap.
From Coq Require Import String.
From Coq Require Import List NArith ZArith Bool Arith.
From Verif Require Import PyStr Prog PyIO Base Spec LineBuf FileBuf FileSpec FileStmt CrashSpec Flaky FlakySpec.
Import ListNotations.
Local Open Scope nat_scope.

(** [file_left b t c d k P]: [P] is true of the directory if the process dies at any point of
    the call; and if exceptions [flt] come from outside, the call ends, the locks are as
    before, and [P] is true. *)
Definition file_left (b : fbuf) (t : nat) (c : fcall) (d : fdir) (k : locks) (P : fdir -> Prop) : Prop :=
  (forall j, P (dat (prefix_run t j (fb_call b c) (mkst d k)))) /\
  (forall flt, let o := run t (flaky_call (fb_call b c)) (mkst (d, flt) k) in
     fst o <> Block /\ lks (snd o) = k /\ P (fst (dat (snd o)))).

(** The state of the log before the call: records [l], unfinished line [v]. *)
Definition log_holds (b : fbuf) (l : list text) (v : text) (d : fdir) : Prop :=
  length l <= b_max b /\ records (b_name b) (files d) l /\ unfinished (b_name b) (b_tmp b) (files d) = v /\
  utf8 v /\ no_cr v.

(** The temporary file of [b], and a name <name>-<anything>.log. *)
Definition tmp_of (b : fbuf) : text := temp_file (b_name b) (b_tmp b).
Definition log_like (b : fbuf) (x : text) : Prop := exists mid, x = b_name b ++ txt "-" ++ mid ++ txt ".log".

(** Only the records may have changed; only the records and the temporary file. *)
Definition only_records (b : fbuf) (d d' : fdir) : Prop :=
  forall y, (forall i, y <> record_file (b_name b) i) -> files d' !! y = files d !! y.
Definition only_log (b : fbuf) (d d' : fdir) : Prop :=
  forall y, y <> tmp_of b -> (forall i, y <> record_file (b_name b) i) -> files d' !! y = files d !! y.

(** The unfinished line [v] is added to the records and is no longer unfinished. *)
Definition line_done (b : fbuf) (l : list text) (v : text) (d' : fdir) : Prop :=
  records (b_name b) (files d') (last_items (b_max b) (l ++ [v])) /\
  unfinished (b_name b) (b_tmp b) (files d') = [].
(** What new_line() may leave of the files. *)
Definition new_line_left (b : fbuf) (l : list text) (v : text) (d d' : fdir) : Prop :=
  match v with
  | [] => files d' = files d
  | _ => only_log b d d' /\ intact (b_name b) (b_max b) (files d') l [v] /\
         (files d' !! tmp_of b = files d !! tmp_of b \/ line_done b l v d')
  end.
(** What send_exc() of an exception with the record [r] may leave of the files. *)
Definition exc_left (b : fbuf) (l : list text) (r : text) (d d' : fdir) : Prop :=
  only_records b d d' /\ intact (b_name b) (b_max b) (files d') l [r].
(** What clear() may leave. *)
Definition clear_left (b : fbuf) (d d' : fdir) : Prop :=
  fclosed d' = fclosed d /\
  (forall y, files d' !! y = files d !! y \/ (files d' !! y = None /\ (y = tmp_of b \/ log_like b y))) /\
  (files d' !! tmp_of b = files d !! tmp_of b \/ forall y, log_like b y -> files d' !! y = None).
(** The calls that change nothing, in whatever state the buffer is. *)
Definition looks (c : fcall) : Prop :=
  match c with XWrite _ | XNewLine | XClear | XClose _ | XSendExc _ => False | _ => True end.
