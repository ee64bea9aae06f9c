(** * PrintLogs: processes that print into LineFileBuffers on one log, and readers

    Every process runs [with LineFileBuffer(path, ...): code] with a buffer of its own, or
    calls methods of its buffer.  [kprog] is that of PrintPool.v.
    Not modelled: what FileBuf.v and PrintPool.v leave out. *)
From stdpp Require Import gmap.
From Coq Require Import List NArith ZArith Bool Arith.
From Verif Require Import PyStr Prog PyIO Base Spec LineBuf FileBuf FileSpec FileStmt FileConcSpec FileTmpSpec Ctx Print PrintSpec PrintPool.
Import ListNotations.
Local Open Scope prog_scope.
Local Open Scope nat_scope.

(** The object [k] is the LineFileBuffer [b]; other streams accept every text.
    LineFileBuffer.__exit__ calls new_line() or send_exc(exc_value) (file.py:136-140). *)
Definition fil_write (b : fbuf) (k : nat) (o : nat) (data : text) : prog fcmd nat :=
  if o =? k then fb_write b data else Ret (length data).
Definition fil_exit (b : fbuf) (k : nat) (o : nat) (e : option excobj) : prog fcmd unit :=
  if o =? k then match e with None => fb_new_line b | Some x => fb_send_exc b x end else Ret tt.
Definition fil_code (b : fbuf) (k : nat) (exc : exn -> excobj) (c : code) (s : sys) : prog fcmd (ending * sys) :=
  kprog (fil_write b k) (fil_exit b k) exc c s.

(** A process: [with buffer: code], where [buffer] is the object [fj_obj] in the process and
    [fj_sys] its streams at the beginning; or calls, one after the other. *)
Record fjob := mkfjob { fj_obj : nat; fj_code : code; fj_sys : sys }.
Inductive fwork := FPrints (j : fjob) | FCalls (cs : list fcall).
Inductive fresult := FPrinted (r : ending) (s : sys) | FCalled (rs : list (outcome fres)).
Definition print_file (exc : exn -> excobj) (b : fbuf) (x : fwork) : prog fcmd fresult :=
  match x with
  | FPrints j => x <- fil_code b (fj_obj j) exc (KWith (Buf (fj_obj j)) (fj_code j)) (fj_sys j) ;;
                 Ret (FPrinted (fst x) (snd x))
  | FCalls cs => rs <- thread (map (fb_call b) cs) ;; Ret (FCalled rs)
  end.
(** Process [i] uses the buffer [bs i]. *)
Definition print_files (exc : exn -> excobj) (bs : nat -> fbuf) (ws : list fwork) : list (prog fcmd fresult) :=
  imap (fun i => print_file exc (bs i)) ws.

(** ** Vocabulary of the statements *)

(** Texts that UTF-8 can encode; the buffer is not entered again inside its block. *)
Definition fwork_ok (name : text) (x : fwork) : Prop :=
  match x with
  | FPrints j => well_nested (fj_code j) /\ ~ In (fj_obj j) (entered (fj_code j)) /\
                 Forall utf8 (code_texts (fj_code j)) /\ Forall (fun e => utf8 (ex_text e)) (raised (fj_code j))
  | FCalls cs => Forall (encodes name) cs
  end.
(** What the process prints [l], and how its block ends [r]. *)
Definition fjob_does (exc : exn -> excobj) (j : fjob) (l : list happened) (r : ending) : Prop :=
  told exc (Some (fj_obj j)) (Some (fj_obj j)) (fj_code j) l r /\ all_good l.
(** The calls that the block makes on its buffer. *)
Definition fjob_calls (j : fjob) (l : list happened) (r : ending) : list fcall :=
  map XWrite (texts_to (fj_obj j) l) ++ [match exc_value r with None => XNewLine | Some e => XSendExc e end].

(** [fjob_prints exc j v r items v']: the records that the process adds if [v] is its
    unfinished line at first, and the unfinished line that it leaves: the lines it prints,
    then, after a normal end, the unfinished one, otherwise the exception. *)
Definition fjob_prints (exc : exn -> excobj) (j : fjob) (v : text) (r : ending) (items : list text) (v' : text) : Prop :=
  exists l lines p, fjob_does exc j l r /\
    log_steps (map SWrite (texts_to (fj_obj j) l)) (mkslog [] v) (mkslog (map IStr lines) p) /\
    match exc_value r with
    | None => items = lines ++ if_any p /\ v' = []
    | Some e => exists t, exc_record e t /\ items = lines ++ [t] /\ v' = p
    end.

(** Calls that only look. *)
Definition looking (c : fcall) : Prop :=
  match c with XWrite _ | XNewLine | XSendExc _ | XClear | XClose _ => False | _ => True end.
(** The answers of a process that only looks, whose own unfinished line is [v]: read() and
    len() see the last [m] of the first [q] records of [all], with [q] growing; records are
    read in text mode (file.py:432), with universal newlines. *)
Inductive logs_seen (m : nat) (all : list text) (v : text) : nat -> list fcall -> list (outcome fres) -> Prop :=
| se_nil q : logs_seen m all v q [] []
| se_read q q' size l' cs rs : q <= q' <= length all -> look_answer m true (XRead size) = None ->
    Forall2 newlines (last_items m (firstn q' all)) l' -> logs_seen m all v q' cs rs ->
    logs_seen m all v q (XRead size :: cs) (Good (VTexts (last_items (want m size) (l' ++ if_any v))) :: rs)
| se_len q q' cs rs : q <= q' <= length all -> logs_seen m all v q' cs rs ->
    logs_seen m all v q (XLen :: cs) (Good (VNat (Nat.min m (Nat.min m q' + length (if_any v)))) :: rs)
| se_look q c r cs rs : look_answer m true c = Some r -> logs_seen m all v q cs rs ->
    logs_seen m all v q (c :: cs) (r :: rs).

(** The account of one process: the calls of its block, or its own calls, as steps. *)
Definition fwork_plays (exc : exn -> excobj) (m : nat) (x : fwork) (o : bool) (es : list fstep) (o' : bool) (res : fresult) : Prop :=
  match x with
  | FPrints j => exists l r s2 rs, fjob_does exc j l r /\ res = FPrinted r s2 /\
      out s2 = out (fj_sys j) /\ err s2 = err (fj_sys j) /\ plays_all m (fjob_calls j l r) o es o' rs
  | FCalls cs => exists rs, res = FCalled rs /\ plays_all m cs o es o' rs
  end.
