(** * FileBuf: model of LineFileBuffer, /repo/syncstream/file.py:45-483

    The file system is one directory (the buffer's [__file_dir]): a finite map from file
    names to contents.  Paths are represented by the file name inside it.  Simplifications:
    - POSIX (rename overwrites, newline translation only when reading), UTF-8 locale;
      directory operations have no permission or space errors;
    - [__file_dir] exists, contains no glob characters, and [tmp_id] contains no '/';
    - lock files are not part of the map (no other file of the package has a name ending
      in ".lock"); an InterProcessReaderWriterLock is a lock of the model, identified by a
      number instead of its file name;
    - [os.listdir] followed by a loop of [in] tests is one command that answers the tests;
    - the text given to [fobj.write] reaches the file character by character (any prefix
      may be on disk when the process dies). *)
From stdpp Require Import gmap.
From Coq Require Import String.
From Coq Require Import List NArith ZArith Bool Arith.
From Verif Require Import PyStr Prog PyIO Base LineBuf.
Import ListNotations.
Local Open Scope prog_scope.
Local Open Scope nat_scope.

(** ** The directory *)
Record fdir := mkfdir {
  files : gmap text text;        (* name -> content *)
  fclosed : gmap nat unit }.     (* the buffer objects whose [__closed] is True *)

(** Universal newlines: reading a text file turns CR LF and CR into LF. *)
Fixpoint uni (s : text) : text :=
  match s with
  | [] => []
  | c :: s' =>
      if N.eqb c CR then
        LF :: match s' with
              | d :: s'' => if N.eqb d LF then uni s'' else uni s'
              | [] => uni s'
              end
      else c :: uni s'
  end.

(** What UTF-8 can encode: everything but surrogates. *)
Definition encodable (c : N) : bool := negb ((55296 <=? c) && (c <=? 57343))%N.

(** *** fnmatch (stdlib), used by glob.iglob in clear() *)

(** One element of a pattern. *)
Inductive ptok := PStar | PAny | PLit (c : N) | PSet (neg : bool) (ranges : list (N * N)) | PNone.

(** [seq] between brackets: ranges and single characters.  After fnmatch.translate: a
    '-' that has a character on both sides and is not the first character makes a range;
    a range whose ends are in the wrong order is empty. *)
Fixpoint set_ranges (s : text) : list (N * N) :=
  match s with
  | a :: ((d :: ((b :: s') as s2)) as s1) =>
      if N.eqb d 45 then (if (b <? a)%N then set_ranges s' else (a, b) :: set_ranges s')
      else (a, a) :: set_ranges s1
  | a :: s1 => (a, a) :: set_ranges s1
  | [] => []
  end.

(** Split at the first ']' (not counting one at the very beginning). *)
Fixpoint cut_bracket (s : text) : option (text * text) :=
  match s with
  | [] => None
  | c :: s' => if N.eqb c 93 then Some ([], s')
               else match cut_bracket s' with Some (a, r) => Some (c :: a, r) | None => None end
  end.
Definition bracket (s : text) : option (bool * text * text) :=
  let '(neg, s1) := match s with c :: s' => if N.eqb c 33 then (true, s') else (false, s) | [] => (false, []) end in
  match s1 with
  | c :: s2 => if N.eqb c 93 then match cut_bracket s2 with Some (a, r) => Some (neg, c :: a, r) | None => None end
               else match cut_bracket s1 with Some (a, r) => Some (neg, a, r) | None => None end
  | [] => None
  end.

Fixpoint pat_tokens (fuel : nat) (s : text) : list ptok :=
  match fuel, s with
  | O, _ | _, [] => []
  | S f, c :: s' =>
      if N.eqb c 42 then PStar :: pat_tokens f s'
      else if N.eqb c 63 then PAny :: pat_tokens f s'
      else if N.eqb c 91 then
        match bracket s' with
        | None => PLit c :: pat_tokens f s'
        | Some (neg, a, r) => PSet neg (set_ranges a) :: pat_tokens f r
        end
      else PLit c :: pat_tokens f s'
  end.

(** Some suffix of [s] satisfies [f]. *)
Fixpoint some_suffix (f : text -> bool) (s : text) : bool :=
  f s || match s with [] => false | _ :: s' => some_suffix f s' end.

Definition in_set (neg : bool) (rs : list (N * N)) (c : N) : bool :=
  xorb neg (existsb (fun ab => (fst ab <=? c)%N && (c <=? snd ab)%N) rs).

Fixpoint tok_match (ts : list ptok) (s : text) : bool :=
  match ts with
  | [] => match s with [] => true | _ => false end
  | PStar :: ts' => some_suffix (tok_match ts') s
  | PAny :: ts' => match s with [] => false | _ :: s' => tok_match ts' s' end
  | PLit a :: ts' => match s with c :: s' => N.eqb a c && tok_match ts' s' | [] => false end
  | PSet neg rs :: ts' => match s with c :: s' => in_set neg rs c && tok_match ts' s' | [] => false end
  | PNone :: _ => false
  end.
Definition fnmatch (pat name : text) : bool := tok_match (pat_tokens (length pat) pat) name.

(** glob in one directory: hidden names only if the pattern is hidden too. *)
Definition hidden (s : text) : bool := match s with c :: _ => N.eqb c 46 | [] => false end.
Definition glob_match (pat name : text) : bool := (hidden pat || negb (hidden name)) && fnmatch pat name.

(** ** Commands *)
Inductive fcmd : Type -> Type :=
| FListed (ns : list text) : fcmd (list bool)  (* os.listdir; which of [ns] are in it *)
| FGlob (pat : text) : fcmd (list text)        (* glob.iglob *)
| FIsfile (n : text) : fcmd bool               (* os.path.isfile *)
| FReadFile (n : text) : fcmd text             (* with open(n, "r") as f: f.read() *)
| FOpenW (n : text) : fcmd unit                (* open(n, "w"): truncate or create *)
| FOpenA (n : text) : fcmd unit                (* open(n, "a"): create if missing *)
| FEncode (s : text) : fcmd unit               (* f.write(s): encode (UnicodeEncodeError) *)
| FPut (n : text) (c : N) : fcmd unit          (* one character reaches the open file *)
| FRename (old new : text) : fcmd unit         (* os.rename *)
| FRemove (n : text) : fcmd unit               (* os.remove *)
| FGetClosed (i : nat) : fcmd bool             (* self.__closed *)
| FSetClosed (i : nat) : fcmd unit.            (* self.__closed = True *)

Definition present (fs : gmap text text) (n : text) : bool :=
  match fs !! n with Some _ => true | None => false end.

Definition fexec {X} (c : fcmd X) : fdir -> outcome X * fdir :=
  match c in fcmd X return fdir -> outcome X * fdir with
  | FListed ns => fun d => (Good (map (present (files d)) ns), d)
  | FGlob pat => fun d =>
      (Good (map fst (map_to_list (base.filter (fun kv => glob_match pat (fst kv) = true) (files d)))), d)
  | FIsfile n => fun d => (Good (present (files d) n), d)
  | FReadFile n => fun d => (match files d !! n with Some s => Good (uni s) | None => Fail FileNotFoundError end, d)
  | FOpenW n => fun d => (Good tt, mkfdir (<[n := []]> (files d)) (fclosed d))
  | FOpenA n => fun d =>
      (Good tt, match files d !! n with Some _ => d | None => mkfdir (<[n := []]> (files d)) (fclosed d) end)
  | FEncode s => fun d => (if forallb encodable s then Good tt else Fail ValueError, d)
  | FPut n c => fun d => (Good tt, mkfdir (alter (fun s : text => (s ++ [c])%list : text) n (files d)) (fclosed d))
  | FRename old new => fun d =>
      match files d !! old with
      | Some s => (Good tt, mkfdir (<[new := s]> (delete old (files d))) (fclosed d))
      | None => (Fail FileNotFoundError, d)
      end
  | FRemove n => fun d =>
      match files d !! n with
      | Some _ => (Good tt, mkfdir (delete n (files d)) (fclosed d))
      | None => (Fail FileNotFoundError, d)
      end
  | FGetClosed i => fun d => (Good (match fclosed d !! i with Some _ => true | None => false end), d)
  | FSetClosed i => fun d => (Good tt, mkfdir (files d) (<[i := tt]> (fclosed d)))
  end.
Global Instance fsem : Sem fcmd fdir := {| cexec := @fexec |}.
Notation fop := (@op fcmd _).

(** ** The buffer object *)

(** [b_id]: the object; [b_name]: file name part of [__file_path]; [b_tmp]: [__tmp_id];
    [b_fl], [b_tl]: [__file_lock] and [__file_tmp_lock]. *)
Record fbuf := mkfb { b_id : nat; b_name : text; b_tmp : text; b_max : nat; b_fl : nat; b_tl : nat }.

Definition dash : text := [45%N].
(** ["{0}-{1:d}.log".format(path, n)] *)
Definition rec_name (b : fbuf) (n : nat) : text := b_name b ++ dash ++ dec_of_nat n ++ txt ".log".
(** file.py:144-150 *)
Definition tmp_name (b : fbuf) : text := b_name b ++ dash ++ b_tmp b ++ txt ".tmp".

(** ** Methods *)
Section Methods.
  Variable b : fbuf.

  (** [fobj.write(s)] on a file that is open. *)
  Fixpoint put_chars (n : text) (s : text) : prog fcmd unit :=
    match s with
    | [] => Ret tt
    | c :: s' => fop (FPut n c) ;; put_chars n s'
    end.
  Definition file_write (n s : text) : prog fcmd nat :=
    fop (FEncode s) ;; put_chars n s ;; Ret (length s).

  (** The loops at file.py:163-167, 305-311 and 416-421: the number of record files
      0, 1, ... that exist without a gap, below [bound]. *)
  Fixpoint count_true (l : list bool) : nat :=
    match l with true :: l' => S (count_true l') | _ => 0 end.
  Definition fb_count (bound : nat) : prog fcmd nat :=
    l <- fop (FListed (map (rec_name b) (seq 0 bound))) ;; Ret (count_true l).

  (** file.py:152-155 *)
  Definition fb_maxlen : prog fcmd nat := Ret (b_max b).

  (** file.py:327-341 *)
  Definition fb_get_last_line : prog fcmd text :=
    with_lock (b_tl b) Sh
      (e <- fop (FIsfile (tmp_name b)) ;;
       if e then fop (FReadFile (tmp_name b)) else Ret []).

  (** file.py:157-170.  [b_max] is at least 1, so the last conditional is min. *)
  Definition fb_len : prog fcmd nat :=
    n <- with_lock (b_fl b) Sh (fb_count (b_max b)) ;;
    l <- fb_get_last_line ;;
    Ret (Nat.min (b_max b) (match l with [] => n | _ => n + 1 end)).

  (** file.py:172-175 *)
  Definition fb_closed : prog fcmd bool := fop (FGetClosed (b_id b)).

  (** file.py:193-200, 202-204, 224-226, 228-233 *)
  Definition fb_fileno : prog fcmd unit := Raise OSError.
  Definition fb_isatty : prog fcmd bool := Ret false.
  Definition fb_seekable : prog fcmd bool := Ret false.
  Definition fb_seek : prog fcmd unit := Raise OSError.

  (** file.py:206-213, 215-222 *)
  Definition fb_readable : prog fcmd bool :=
    with_lock (b_tl b) Sh (with_lock (b_fl b) Sh (c <- fb_closed ;; Ret (negb c))).
  Definition fb_writable : prog fcmd bool :=
    with_lock (b_tl b) Ex (with_lock (b_fl b) Ex (c <- fb_closed ;; Ret (negb c))).

  (** file.py:314-319: for n in range(k - 1, -1, -1) *)
  Fixpoint fb_move (k n_lines : nat) : prog fcmd unit :=
    match k with
    | O => Ret tt
    | S n =>
        e <- fop (FIsfile (rec_name b (n + n_lines))) ;;
        (if e then fop (FRemove (rec_name b (n + n_lines))) else Ret tt) ;;
        fop (FRename (rec_name b n) (rec_name b (n + n_lines))) ;;
        fb_move n n_lines
    end.
  (** file.py:321-325: the lines go to the numbers [length lines - 1], ..., 0. *)
  Fixpoint fb_store (lines : list text) : prog fcmd unit :=
    match lines with
    | [] => Ret tt
    | l :: ls =>
        fop (FOpenW (rec_name b (length ls))) ;;
        file_write (rec_name b (length ls)) l ;;
        fb_store ls
    end.
  (** file.py:282-325 *)
  Definition fb_update_records (lines : list text) : prog fcmd unit :=
    with_lock (b_fl b) Ex
      match lines with
      | [] => Ret tt                                                    (* 299-300 *)
      | _ =>
          let lines := lastn (b_max b) lines in                         (* 301-303 *)
          n_current <- fb_count (b_max b) ;;                            (* 305-311 *)
          fb_move (Nat.min n_current (b_max b - length lines)) (length lines) ;;
          fb_store lines
      end.

  (** file.py:343-353 *)
  Definition fb_clean_last_line : prog fcmd unit :=
    with_lock (b_tl b) Ex (fop (FOpenW (tmp_name b))).
  (** file.py:355-365 *)
  Definition fb_write_last_line (line : text) : prog fcmd nat :=
    with_lock (b_tl b) Ex (fop (FOpenA (tmp_name b)) ;; file_write (tmp_name b) line).

  (** file.py:367-383 *)
  Definition fb_parse_lines (lines : list text) : prog fcmd unit := fb_update_records lines.

  (** file.py:438-461 *)
  Definition fb_write_body (data : text) : prog fcmd nat :=
    let message_lines := splitlines data in                             (* 443 *)
    let n_lines := length message_lines in
    if (n_lines =? 1) && text_eqb (hd [] message_lines) [] then         (* 445 *)
      l <- fb_get_last_line ;;
      fb_parse_lines [l] ;;                                             (* 446 *)
      fb_clean_last_line ;;                                             (* 447 *)
      Ret 1                                                             (* 448 *)
    else
      let message_lines :=                                              (* 449-451 *)
        if is_end_line_break data then message_lines ++ [[]] else message_lines in
      match message_lines with
      | [] => Ret 0                                                     (* 460-461 *)
      | [x] => fb_write_last_line x                                     (* 458-459 *)
      | x :: rest =>                                                    (* 452-457 *)
          l <- fb_get_last_line ;;
          fb_parse_lines (removelast ((l ++ x) :: rest)) ;;
          fb_clean_last_line ;;
          fb_write_last_line (last rest [])
      end.

  (** file.py:463-483 *)
  Definition fb_write (data : text) : prog fcmd nat :=
    w <- fb_writable ;;
    if negb w then Raise OSError else fb_write_body data.

  (** file.py:235-243; [str(GroupedMessage(exc))] *)
  Definition fb_send_exc (e : excobj) : prog fcmd unit :=
    c <- fb_closed ;;
    if c then Ret tt
    else match gm_str (gm_init (GMExc e)) with
         | Good s => fb_update_records [s]
         | Fail x => Raise x
         | Block => Raise OutOfFuel
         end.

  (** file.py:245-259 *)
  Definition fb_new_line : prog fcmd unit :=
    c <- fb_closed ;;
    if c then Ret tt
    else l <- fb_get_last_line ;;
         match l with
         | [] => Ret tt
         | _ => fb_write_body [LF] ;; Ret tt
         end.

  (** file.py:177-191 *)
  Definition fb_close (exc : option excobj) : prog fcmd unit :=
    match exc with
    | None => fb_new_line
    | Some e => fb_send_exc e
    end ;;
    fop (FSetClosed (b_id b)).

  (** file.py:261-276 *)
  Fixpoint fb_remove_all (ns : list text) : prog fcmd unit :=
    match ns with
    | [] => Ret tt
    | n :: ns' => fop (FRemove n) ;; fb_remove_all ns'
    end.
  Definition fb_clear : prog fcmd unit :=
    with_lock (b_fl b) Ex
      (ns <- fop (FGlob (b_name b ++ dash ++ txt "*.log")) ;; fb_remove_all ns) ;;
    with_lock (b_tl b) Ex
      (e <- fop (FIsfile (tmp_name b)) ;;
       if e then fop (FRemove (tmp_name b)) else Ret tt).

  (** file.py:278-280 *)
  Definition fb_flush : prog fcmd unit := Ret tt.

  (** file.py:429-432: the records n-1, ..., 0 *)
  Fixpoint fb_read_files (n : nat) : prog fcmd (list text) :=
    match n with
    | O => Ret []
    | S n' => x <- fop (FReadFile (rec_name b n')) ;;
              xs <- fb_read_files n' ;; Ret (x :: xs)
    end.
  (** file.py:385-436 *)
  Definition fb_read (size : option Z) : prog fcmd (list text) :=
    r <- fb_readable ;;
    if negb r then Raise OSError                                        (* 406-407 *)
    else
      match size with
      | Some z => if (z <=? 0)%Z then Ret [] else                       (* 409-410 *)
          last_line <- fb_get_last_line ;;
          with_lock (b_fl b) Sh
            (n_current <- fb_count (match last_line with [] => b_max b | _ => b_max b - 1 end) ;;
             let n_read := Nat.min (match last_line with [] => Z.to_nat z | _ => Z.to_nat z - 1 end) n_current in
             res <- fb_read_files n_read ;;
             Ret (res ++ match last_line with [] => [] | _ => [last_line] end))
      | None =>
          last_line <- fb_get_last_line ;;
          with_lock (b_fl b) Sh
            (n_current <- fb_count (match last_line with [] => b_max b | _ => b_max b - 1 end) ;;
             res <- fb_read_files n_current ;;
             Ret (res ++ match last_line with [] => [] | _ => [last_line] end))
      end.
End Methods.

(** ** Constructor, file.py:61-117 *)

(** Position after the last occurrence of [c] in [s] (rfind + 1; 0 if there is none). *)
Fixpoint rfind1 (c : N) (s : text) : nat :=
  match s with
  | [] => 0
  | x :: s' => match rfind1 c s' with
               | O => if N.eqb x c then 1 else 0
               | S n => S (S n)
               end
  end.
Definition slash : N := 47%N.
Definition dot : N := 46%N.

(** os.path.splitext(p)[0] (POSIX): the part before the last dot of the last component,
    unless only dots precede it there. *)
Definition splitext0 (p : text) : text :=
  let sep := rfind1 slash p in
  let d := rfind1 dot p in
  if (sep <? d) && existsb (fun c => negb (N.eqb c dot)) (skipn sep (firstn (d - 1) p))
  then firstn (d - 1) p else p.
(** os.path.split(p) (POSIX). *)
Definition path_split (p : text) : text * text :=
  let i := rfind1 slash p in
  let head := firstn i p in
  (if forallb (N.eqb slash) head then head else rstrip_by (N.eqb slash) head, skipn i p).

(** The attributes after [__init__]: directory, file name, tmp_id, maxlen. *)
Definition fb_init (file_path : text) (maxlen : pyval) (tmp_id : text) : outcome (text * text * text * nat) :=
  match as_int maxlen with
  | None => Fail TypeError                                              (* 80-83 *)
  | Some z =>
      if (z <? 1)%Z then Fail TypeError else
      let p := strip file_path in                                       (* 84 *)
      match p with
      | [] => Fail TypeError                                            (* 85-88 *)
      | _ =>
          match tmp_id with
          | [] => Fail TypeError                                        (* 90-93 *)
          | _ =>
              let fp := splitext0 p in                                  (* 94 *)
              let '(dir, name) := path_split fp in                      (* 95 *)
              match name with
              | [] => Fail TypeError                                    (* 96-100 *)
              | _ => Good (match dir with [] => [dot] | _ => dir end, name, tmp_id, Z.to_nat z)
              end
          end
      end
  end.

(** ** The public interface as a type of calls *)
Inductive fcall :=
| XWrite (data : text) | XRead (size : option Z) | XNewLine | XClear | XClose (exc : option excobj)
| XSendExc (e : excobj) | XFlush | XLen | XClosed | XReadable | XWritable | XMaxlen | XFileno
| XSeek | XIsatty | XSeekable.
Inductive fres := VUnit | VNat (n : nat) | VBool (b : bool) | VTexts (l : list text).

Definition as_fres {X} (f : X -> fres) (p : prog fcmd X) : prog fcmd fres := x <- p ;; Ret (f x).
Definition unit_fres : unit -> fres := fun _ => VUnit.

Definition fb_call (b : fbuf) (c : fcall) : prog fcmd fres :=
  match c with
  | XWrite data => as_fres VNat (fb_write b data)
  | XRead size => as_fres VTexts (fb_read b size)
  | XNewLine => as_fres unit_fres (fb_new_line b)
  | XClear => as_fres unit_fres (fb_clear b)
  | XClose exc => as_fres unit_fres (fb_close b exc)
  | XSendExc e => as_fres unit_fres (fb_send_exc b e)
  | XFlush => as_fres unit_fres fb_flush
  | XLen => as_fres VNat (fb_len b)
  | XClosed => as_fres VBool (fb_closed b)
  | XReadable => as_fres VBool (fb_readable b)
  | XWritable => as_fres VBool (fb_writable b)
  | XMaxlen => as_fres VNat (fb_maxlen b)
  | XFileno => as_fres unit_fres fb_fileno
  | XSeek => as_fres unit_fres fb_seek
  | XIsatty => as_fres VBool fb_isatty
  | XSeekable => as_fres VBool fb_seekable
  end.

(** Histories: each call made on some buffer of a family, one after the other. *)
Fixpoint fb_hist (bs : nat -> fbuf) (h : list (nat * fcall)) (s : st fdir)
  : list (outcome fres) * st fdir :=
  match h with
  | [] => ([], s)
  | (i, c) :: h' => let '(r, s1) := run i (fb_call (bs i) c) s in
                    let '(rs, s2) := fb_hist bs h' s1 in (r :: rs, s2)
  end.
