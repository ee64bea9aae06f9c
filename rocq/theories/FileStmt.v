(** * FileStmt: how the statements about LineFileBuffer name its calls and states *)
From stdpp Require Import gmap.
From Coq Require Import String.
From Coq Require Import List NArith ZArith Bool Arith.
From Verif Require Import PyStr Prog PyIO Base Spec LineBuf FileBuf FileSpec.
Import ListNotations.
Local Open Scope nat_scope.

(** A buffer as the constructor makes it: maxlen at least 1, two different lock files. *)
Definition wf_fbuf (b : fbuf) : Prop := 1 <= b_max b /\ b_tl b <> b_fl b.
(** Nobody holds the locks of [b]. *)
Definition unlocked (b : fbuf) (k : locks) : Prop := k !! b_tl b = None /\ k !! b_fl b = None.
Definition is_open (b : fbuf) (d : fdir) : Prop := fclosed d !! b_id b = None.
Definition is_closed (b : fbuf) (d : fdir) : Prop := fclosed d !! b_id b = Some tt.

(** The empty directory, all buffers open, no lock held. *)
Definition no_files : st fdir := mkst (mkfdir ∅ ∅) ∅.

(** The same call on the other class. *)
Definition file_call (c : call) : fcall :=
  match c with
  | Write d => XWrite d | Read s => XRead s | NewLine => XNewLine | Clear => XClear
  | Close => XClose None | Flush => XFlush | Len => XLen | Closed => XClosed
  | Readable => XReadable | Writable => XWritable | Maxlen => XMaxlen | Fileno => XFileno
  | Seek => XSeek | Isatty => XIsatty | Seekable => XSeekable
  end.
Definition file_hist (h : hist) : list (nat * fcall) := map (fun tc => (fst tc, file_call (snd tc))) h.
(** The same answer. *)
Definition to_fres (r : res) : fres :=
  match r with
  | RUnit => VUnit | RNat n => VNat n | RBool x => VBool x | RItems l => VTexts (map item_text l)
  end.
Definition out_map {X Y} (f : X -> Y) (o : outcome X) : outcome Y :=
  match o with Good x => Good (f x) | Fail e => Fail e | Block => Block end.

(** The calls for which the two classes are compared (len() and close() differ). *)
Definition common (b : fbuf) (c : call) : Prop :=
  match c with
  | Write data => utf8 data
  | Clear => plain (b_name b)
  | Close | Len => False
  | _ => True
  end.

(** The record made from an exception: its formatted lines joined by LF. *)
Definition exc_record (e : excobj) (t : text) : Prop :=
  exists ls r, segments (ex_text e) ls r /\
               t = join [LF] (ls ++ match r with [] => [] | _ => [r] end).

(** The answer of a closed buffer; [n]: the number of items a reader would see. *)
Definition closed_file_answer (b : fbuf) (n : nat) (c : fcall) : outcome fres :=
  match c with
  | XWrite _ | XRead _ => Fail OSError
  | XNewLine | XSendExc _ | XClose _ | XFlush | XClear => Good VUnit
  | XLen => Good (VNat n)
  | XClosed => Good (VBool true)
  | XReadable | XWritable => Good (VBool false)
  | XMaxlen => Good (VNat (b_max b))
  | XFileno | XSeek => Fail OSError
  | XIsatty | XSeekable => Good (VBool false)
  end.
