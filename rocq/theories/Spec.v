(** * Spec: what the properties mean, independently of the code

    This file mentions neither the model nor any of its helpers (only the type of texts
    and of record items).  It is meant to be read on its own. *)
From Coq Require Import List NArith ZArith Bool.
From Verif Require Import PyStr Base.
Import ListNotations.

(** ** Line segmentation of a text *)

(** The ten line-break characters of Python text. *)
Definition line_break (c : N) : Prop :=
  c = 10%N (* LF *) \/ c = 11%N (* VT *) \/ c = 12%N (* FF *) \/ c = 13%N (* CR *) \/
  c = 28%N (* FS *) \/ c = 29%N (* GS *) \/ c = 30%N (* RS *) \/ c = 133%N (* NEL *) \/
  c = 8232%N (* LS *) \/ c = 8233%N (* PS *).

(** The characters that str.strip() removes. *)
Definition space (c : N) : Prop :=
  (9 <= c <= 13 \/ 28 <= c <= 32 \/ c = 133 \/ c = 160 \/ c = 5760 \/ 8192 <= c <= 8202 \/ c = 8232 \/ c = 8233 \/
   c = 8239 \/ c = 8287 \/ c = 12288)%N.
(** [w] is what is left of [s] without the blanks around it. *)
Definition trims_to (s w : text) : Prop :=
  exists l r, s = l ++ w ++ r /\ Forall space l /\ Forall space r /\
    (forall c w', w = c :: w' -> ~ space c) /\ (forall c w', w = w' ++ [c] -> ~ space c).

Definition no_break (s : text) : Prop := Forall (fun c => ~ line_break c) s.

(** [terminator b rest]: [b] is one line terminator when followed by [rest]; CR LF is a
    single terminator. *)
Inductive terminator : text -> text -> Prop :=
| term_crlf rest : terminator [13%N; 10%N] rest
| term_one c rest : line_break c -> ~ (c = 13%N /\ exists r, rest = 10%N :: r) ->
                    terminator [c] rest.

(** [segments s ls r]: the text [s] consists of the complete lines [ls] (each followed by
    one terminator) and then the unfinished text [r]. *)
Inductive segments : text -> list text -> text -> Prop :=
| seg_rest r : no_break r -> segments r [] r
| seg_line l b s ls r :
    no_break l -> terminator b s -> segments s ls r ->
    segments (l ++ b ++ s) (l :: ls) r.

(** ** The ideal unbounded log of a stream *)
Record slog := mkslog { done : list item;   (* records finished so far, oldest first *)
                        pend : text }.      (* the unfinished line *)
Definition slog0 : slog := mkslog [] [].

(** Writing [data] appends it to the unfinished line and finishes every line that gets
    terminated inside [data]. *)
Inductive log_write (data : text) : slog -> slog -> Prop :=
| lw_none d p r : segments data [] r -> log_write data (mkslog d p) (mkslog d (p ++ r))
| lw_some d p l ls r : segments data (l :: ls) r ->
    log_write data (mkslog d p) (mkslog (d ++ IStr (p ++ l) :: map IStr ls) r).

(** Explicit line feed: finish the current line unless it is empty. *)
Inductive log_new_line : slog -> slog -> Prop :=
| ln_empty d : log_new_line (mkslog d []) (mkslog d [])
| ln_some d p : p <> [] -> log_new_line (mkslog d p) (mkslog (d ++ [IStr p]) []).

(** Histories of the log. *)
Inductive sop := SWrite (data : text) | SNewLine | SClear.
Inductive log_step : sop -> slog -> slog -> Prop :=
| ls_write data g g' : log_write data g g' -> log_step (SWrite data) g g'
| ls_newline g g' : log_new_line g g' -> log_step SNewLine g g'
| ls_clear g : log_step SClear g slog0.
Inductive log_steps : list sop -> slog -> slog -> Prop :=
| lss_nil g : log_steps [] g g
| lss_cons o os g g1 g2 : log_step o g g1 -> log_steps os g1 g2 -> log_steps (o :: os) g g2.

(** The last [n] items. *)
Definition last_items {A} (n : nat) (l : list A) : list A := skipn (length l - n) l.

(** What a reader of a log bounded by [maxlen] sees: the unfinished line counts as the
    last item when it is not empty. *)
Definition items_of (g : slog) : list item :=
  done g ++ match pend g with [] => [] | p => [IStr p] end.
Definition visible (maxlen : nat) (g : slog) : list item := last_items maxlen (items_of g).

(** Reading with an optional size. *)
Definition view (maxlen : nat) (size : option Z) (g : slog) : list item :=
  match size with
  | None => visible maxlen g
  | Some n => if (n <=? 0)%Z then [] else last_items (Z.to_nat n) (visible maxlen g)
  end.

(** ** Deleting line breaks from a text (for the conservation law) *)
Definition is_break_char (c : N) : bool :=
  existsb (N.eqb c) [10; 11; 12; 13; 28; 29; 30; 133; 8232; 8233]%N.
Definition drop_breaks (s : text) : text := filter (fun c => negb (is_break_char c)) s.

Definition item_text (i : item) : text := match i with IStr s => s | _ => [] end.

(** ** Interleavings: [merge ls l] holds when [l] is an interleaving of the lists [ls]
    (every element of every list exactly once, the order of each list kept). *)
Inductive merge {A : Type} : list (list A) -> list A -> Prop :=
| merge_nil ls : Forall (fun l => l = []) ls -> merge ls []
| merge_cons ls1 x l ls2 m :
    merge (ls1 ++ l :: ls2) m -> merge (ls1 ++ (x :: l) :: ls2) (x :: m).

(** ** Orders of the calls of several threads *)

(** The events of thread [i] in a list of events tagged with thread numbers. *)
Definition events_of {X} (i : nat) (l : list (nat * X)) : list X :=
  map snd (filter (fun e => Nat.eqb (fst e) i) l).

(** [order_of css order]: [order] is a sequential order of the calls of threads
    0, 1, ... (thread [i] makes the calls [css[i]]) respecting each thread's order. *)
Definition order_of {X} (css : list (list X)) (order : list (nat * X)) : Prop :=
  Forall (fun e => fst e < length css) order /\
  forall i cs, nth_error css i = Some cs -> events_of i order = cs.
