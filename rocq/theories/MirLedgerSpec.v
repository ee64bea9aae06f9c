(** * MirLedgerSpec: an account of what several threads did with one LineProcMirror (C80) *)
From Coq Require Import List NArith ZArith Bool Arith.
From Verif Require Import PyStr Prog PyIO Base Spec LineBuf Proc ProcSpec.
Import ListNotations.

(** The parts of calls.  Observations: whether the mirror is shut, the text it holds.
    Changes: a text is written, the line is ended, the held text is dropped, the mirror is
    shut, a message is put into the queue. *)
Inductive tev :=
| TIs (shut : bool) | THeld (v : text)
| TText (data : text) | TLine | TDrop | TShut | TMsg (m : msg).

(** The queue, the text held back and whether the mirror is shut. *)
Record tst := mkts { t_queue : list msg; t_held : text; t_shut : bool }.
Definition tview (d : menv) : tst :=
  mkts (e_q d) (if is_closed (e_mir d) then [] else held (e_mir d)) (is_closed (e_mir d)).

Section Moves.
  (** [ag]: aggressive; [stop]: the mirror sees a stop flag that is set. *)
  Variables (ag stop : bool).
  Inductive tmove : tev -> tst -> tst -> Prop :=
  | tm_is q h c : tmove (TIs c) (mkts q h c) (mkts q h c)
  | tm_held q h : tmove (THeld h) (mkts q h false) (mkts q h false)
  | tm_hold data q h : stop = false -> ag = false -> no_break data ->
      tmove (TText data) (mkts q h false) (mkts q (h ++ data) false)
  | tm_send data q h : stop = false -> ag = false -> ~ no_break data ->
      tmove (TText data) (mkts q h false) (mkts (q ++ [QStr (h ++ data)]) [] false)
  | tm_aggr data q h : stop = false -> ag = true ->
      tmove (TText data) (mkts q h false) (mkts (q ++ [QStr data]) h false)
  | tm_no_line q : tmove TLine (mkts q [] false) (mkts q [] false)
  | tm_line q h v : h <> [] -> tmove (TText [10%N]) (mkts q h false) v -> tmove TLine (mkts q h false) v
  | tm_drop q h : tmove TDrop (mkts q h false) (mkts q [] false)
  | tm_shut q h c : tmove TShut (mkts q h c) (mkts q [] true)
  | tm_msg m q h c : tmove (TMsg m) (mkts q h c) (mkts (q ++ [m]) h c).
  Inductive tmoves : list tev -> tst -> tst -> Prop :=
  | tms_nil v : tmoves [] v v
  | tms_cons e es v1 v2 v3 : tmove e v1 v2 -> tmoves es v2 v3 -> tmoves (e :: es) v1 v3.

  (** The parts of one call, given its result.  First the two that occur inside others. *)
  Inductive a_line : outcome mres -> list tev -> Prop :=
  | al_good : a_line (Good MUnit) [TLine]
  | al_shut : a_line (Fail ValueError) [TIs true]
  | al_stop v : stop = true -> v <> [] -> a_line (Fail StopIteration) [THeld v].
  Inductive a_signal (m : msg) : outcome mres -> list tev -> Prop :=
  | as_shut : a_signal m (Good MUnit) [TIs true]
  | as_good : a_signal m (Good MUnit) [TIs false; TLine; TMsg m]
  | as_fail e es : a_line (Fail e) es -> a_signal m (Fail e) (TIs false :: es).
  (** The message that ends a stream. *)
  Definition end_msg (exc : option excobj) : msg :=
    match exc with None => QClose | Some e => QError (gm_init (GMExc e)) end.

  Inductive acts : mcall -> outcome mres -> list tev -> Prop :=
  | a_write_shut data : acts (CWrite data) (Fail OSError) [TIs true]
  | a_write_stop data : stop = true -> acts (CWrite data) (Fail StopIteration) [TIs false]
  | a_write data : acts (CWrite data) (Good (MNat (length data))) [TIs false; TText data]
  | a_write_late data : stop = false -> ag = false -> data <> [] ->
      acts (CWrite data) (Fail ValueError) [TIs false; TIs true]
  | a_write_late_aggr data : stop = false -> ag = true ->
      acts (CWrite data) (Good (MNat (length data))) [TIs false; TIs true]
  | a_write_late_none : stop = false -> acts (CWrite []) (Good (MNat 0)) [TIs false; TIs true]
  | a_read_shut size : acts (CRead size) (Fail OSError) [TIs true]
  | a_read_all v : acts (CRead None) (Good (MText v)) [TIs false; THeld v]
  | a_read_some z : acts (CRead (Some z)) (Good (MText [])) [TIs false; TIs false]
  | a_read_late size : acts (CRead size) (Fail ValueError) [TIs false; TIs true]
  | a_new_line r es : a_line r es -> acts CNewLine r es
  | a_clear : acts CClear (Good MUnit) [TDrop]
  | a_clear_shut : acts CClear (Fail ValueError) [TIs true]
  | a_close_shut exc : acts (CClose exc) (Good MUnit) [TIs true]
  | a_close exc : acts (CClose exc) (Good MUnit) [TIs false; TIs false; TLine; TMsg (end_msg exc); TDrop; TShut]
  | a_close_fail exc e es : a_signal (end_msg exc) (Fail e) es -> acts (CClose exc) (Fail e) (TIs false :: es)
  | a_close_late exc es : a_signal (end_msg exc) (Good MUnit) es -> acts (CClose exc) (Fail ValueError) (TIs false :: es ++ [TIs true])
  | a_flush : acts CFlush (Good MUnit) []
  | a_eof r es : a_signal QClose r es -> acts CEof r es
  | a_error e r es : a_signal (QError (gm_init (GMExc e))) r es -> acts (CError e) r es
  | a_warning e r es : a_signal (QWarning (gm_init (GMExc e))) r es -> acts (CWarning e) r es
  | a_data_shut data : acts (CSendData data) (Good MUnit) [TIs true]
  | a_data data : acts (CSendData data) (Good MUnit) [TIs false; TMsg (QStr data)]
  | a_closed c : acts CClosed (Good (MBool c)) [TIs c]
  | a_readable c : acts CReadable (Good (MBool (negb c))) [TIs c]
  | a_writable c : acts CWritable (Good (MBool (negb c))) [TIs c]
  | a_fileno : acts CFileno (Fail OSError) []
  | a_seek : acts CSeek (Fail OSError) []
  | a_isatty : acts CIsatty (Good (MBool false)) []
  | a_seekable : acts CSeekable (Good (MBool false)) [].
End Moves.

(** Three lists of the same length, pointwise. *)
Inductive all3 {X Y Z} (P : X -> Y -> Z -> Prop) : list X -> list Y -> list Z -> Prop :=
| all3_nil : all3 P [] [] []
| all3_cons x y z xs ys zs : P x y z -> all3 P xs ys zs -> all3 P (x :: xs) (y :: ys) (z :: zs).
