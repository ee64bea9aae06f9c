(** * PropLineBuf: sequential properties of LineBuffer (C01 - C14)

    Only theorem statements; proofs are in LineBufProofs.v.  [reachable m s]: [s] is the
    state of a [LineBuffer(m)] after some history of public calls (LineBuf.v). *)
From stdpp Require Import gmap.
From Coq Require Import String.
From Coq Require Import List NArith ZArith Bool Arith.
From Verif Require Import PyStr Prog PyIO Base Spec LineBuf LineBufSpec LineBufProofs.
Import ListNotations.
Local Open Scope nat_scope.

(** The buffer is open (not closed). *)
Notation is_open s := (sclosed (last_line (dat s)) = false) (only parsing).
(** The unfinished line, and the finished records, of a state. *)
Notation current s := (sval (last_line (dat s))) (only parsing).
Notation records s := (dq (storage (dat s))) (only parsing).

(** Concrete history used in the examples: thread 0 writes "ab\ncd\r\ne", thread 1 calls
    new_line, thread 0 writes "f". *)
Definition demo_ops : list (nat * sop) :=
  [(0, SWrite (txt "ab" ++ [10%N] ++ txt "cd" ++ [13%N; 10%N] ++ txt "e"));
   (1, SNewLine); (0, SWrite (txt "f"))].
Definition demo (m : nat) : st lbuf := snd (run_hist (hist_of demo_ops) (fresh m)).
Example demo_reachable m : reachable m (demo m).
Proof. exists (hist_of demo_ops). reflexivity. Qed.
Example demo_open : is_open (demo 2). Proof. reflexivity. Qed.

(** ** C01 *)
Theorem C01_read_is_last_lines :
  forall m (ops : list (nat * sop)) g t size, 1 <= m ->
  log_steps (map snd ops) slog0 g ->
  let s := snd (run_hist (hist_of ops) (fresh m)) in
  run t (lb_read size) s = (Good (view m size g), s).
Proof. exact c01. Qed.
Print Assumptions C01_read_is_last_lines.

(** The log of a history exists and is unique, so C01 determines every read. *)
Theorem C01_log_exists_unique : forall ops, exists! g, log_steps ops slog0 g.
Proof. exact c01_total. Qed.
Print Assumptions C01_log_exists_unique.

Example C01_case :
  fst (run 5 (lb_read None) (demo 2)) = Good [IStr (txt "e"); IStr (txt "f")] /\
  fst (run 5 (lb_read None) (demo 9)) =
    Good [IStr (txt "ab"); IStr (txt "cd"); IStr (txt "e"); IStr (txt "f")].
Proof. split; vm_compute; reflexivity. Qed.

(** ** C02 *)
Theorem C02_characters_conserved :
  forall m (texts : list (nat * text)) t r s', 1 <= m ->
  let s := snd (run_hist (map (fun p => (fst p, Write (snd p))) texts) (fresh m)) in
  run t (lb_read None) s = (Good r, s') ->
  let all := drop_breaks (concat (map snd texts)) in
  (exists lost, all = lost ++ concat (map item_text r)) /\
  (length r < m -> concat (map item_text r) = all) /\
  (forall g, log_steps (map (fun p => SWrite (snd p)) texts) slog0 g ->
     concat (map item_text (done g)) ++ pend g = all /\
     (length (items_of g) <= m -> r = items_of g)).
Proof. exact c02. Qed.
Print Assumptions C02_characters_conserved.

Example C02_case :
  let texts := [(0, txt "a" ++ [10%N]); (1, txt "b" ++ [8232%N] ++ txt "c")] in
  let s := snd (run_hist (map (fun p => (fst p, Write (snd p))) texts) (fresh 4)) in
  fst (run 0 (lb_read None) s) = Good [IStr (txt "a"); IStr (txt "b"); IStr (txt "c")]
  /\ drop_breaks (concat (map snd texts)) = txt "abc".
Proof. split; vm_compute; reflexivity. Qed.

(** ** C03 *)
Theorem C03_chunking :
  forall m s t a b, 1 <= m -> reachable m s -> is_open s ->
  ~ ((exists a', a = a' ++ [13%N]) /\ (exists b', b = 10%N :: b')) ->
  snd (run t (bind (lb_write a) (fun _ => lb_write b)) s) = snd (run t (lb_write (a ++ b)) s).
Proof. exact c03. Qed.
Print Assumptions C03_chunking.

(** The exact exception: when CR and LF are separated, one additional empty record is
    appended before the rest is written. *)
Theorem C03_crlf_cut :
  forall m s t a b, 1 <= m -> reachable m s -> is_open s ->
  let s1 := snd (run t (lb_write (a ++ [13%N])) s) in
  snd (run t (lb_write ((a ++ [13%N]) ++ 10%N :: b)) s) = snd (run t (lb_write b) s1) /\
  snd (run t (lb_write (10%N :: b)) s1) =
    snd (run t (lb_write b)
      (mkst (mklbuf (dq_append (IStr []) (storage (dat s1))) (last_line (dat s1))) (lks s1))).
Proof. exact c03_crlf. Qed.
Print Assumptions C03_crlf_cut.

Theorem C03_always_refuted :
  exists m s t a b, 1 <= m /\ reachable m s /\ is_open s /\
  snd (run t (bind (lb_write a) (fun _ => lb_write b)) s) <> snd (run t (lb_write (a ++ b)) s).
Proof.
  exists 5, (fresh 5), 0, (txt "x" ++ [13%N]), (10%N :: txt "y").
  repeat split; [auto with arith|exists []; reflexivity|].
  intros H. apply (f_equal (fun s => length (records s))) in H. vm_compute in H. discriminate.
Qed.
Print Assumptions C03_always_refuted.

(** ** C04 *)
Theorem C04_bounded :
  forall m s, 1 <= m -> reachable m s ->
  length (records s) <= m /\
  (forall t r s', run t (lb_read None) s = (Good r, s') -> length r <= m) /\
  (forall t n r s', run t (lb_read (Some n)) s = (Good r, s') ->
      length r <= m /\ (Z.of_nat (length r) <= Z.max 0 n)%Z) /\
  (forall t, exists n, run t lb_len s = (Good n, s) /\ n <= m).
Proof. exact c04. Qed.
Print Assumptions C04_bounded.

Example C04_case : reachable 2 (demo 2) /\ length (records (demo 2)) = 2.
Proof. split; [apply demo_reachable|vm_compute; reflexivity]. Qed.

(** ** C05 *)
Theorem C05_read_n_is_suffix :
  forall m s t n, 1 <= m -> reachable m s ->
  match fst (run t (lb_read None) s) with
  | Good r => fst (run t (lb_read (Some n)) s) =
              Good (if (n <=? 0)%Z then [] else last_items (Z.to_nat n) r)
  | Fail e => e = OSError /\ fst (run t (lb_read (Some n)) s) = Fail OSError
  | Block => False
  end.
Proof. exact c05. Qed.
Print Assumptions C05_read_n_is_suffix.

Example C05_case :
  fst (run 0 (lb_read (Some 2%Z)) (demo 3)) = Good [IStr (txt "e"); IStr (txt "f")] /\
  fst (run 0 (lb_read None) (demo 3)) = Good [IStr (txt "cd"); IStr (txt "e"); IStr (txt "f")].
Proof. split; vm_compute; reflexivity. Qed.

(** ** C06 *)
Theorem C06_read_pure :
  forall m s t size, 1 <= m -> reachable m s -> snd (run t (lb_read size) s) = s.
Proof. exact c06. Qed.
Print Assumptions C06_read_pure.

Theorem C06_read_invisible_later :
  forall m s t size h, 1 <= m -> reachable m s ->
  run_hist ((t, Read size) :: h) s =
  (fst (run t (lb_call (Read size)) s) :: fst (run_hist h s), snd (run_hist h s)).
Proof. exact c06_hist. Qed.
Print Assumptions C06_read_invisible_later.

(** ** C07 *)
Theorem C07_records_have_no_break :
  forall m s t size r s', 1 <= m -> reachable m s ->
  run t (lb_read size) s = (Good r, s') ->
  Forall (fun i => exists x, i = IStr x /\ no_break x) r.
Proof. exact c07. Qed.
Print Assumptions C07_records_have_no_break.

Example C07_case : exists r s', run 0 (lb_read None) (demo 3) = (Good r, s') /\ length r = 3.
Proof. vm_compute. eauto. Qed.

(** ** C08 *)
Theorem C08_new_line :
  forall m s t, 1 <= m -> reachable m s -> is_open s ->
  (current s = [] -> run t lb_new_line s = (Good tt, s)) /\
  (current s <> [] -> run t lb_new_line s = (Good tt, snd (run t (lb_write [10%N]) s))) /\
  (let s1 := snd (run t lb_new_line s) in
   current s1 = [] /\ run t lb_new_line s1 = (Good tt, s1)).
Proof. exact c08. Qed.
Print Assumptions C08_new_line.

Example C08_case : reachable 3 (demo 3) /\ is_open (demo 3) /\ current (demo 3) <> [].
Proof. split; [apply demo_reachable|]. split; [reflexivity|]. vm_compute. discriminate. Qed.

(** ** C09 *)
Theorem C09_len :
  forall m s t, 1 <= m -> reachable m s -> is_open s ->
  exists n r, run t lb_len s = (Good n, s) /\ run t (lb_read None) s = (Good r, s) /\
    (current s <> [] \/ length (records s) = m -> n = length r) /\
    (current s = [] -> length (records s) <> m -> n = length r + 1).
Proof. exact c09. Qed.
Print Assumptions C09_len.

(** "Number of lines/items in the buffer" (docstring of __len__) is false. *)
Theorem C09_len_counts_items_refuted :
  exists m s t r, 1 <= m /\ reachable m s /\ is_open s /\
    fst (run t (lb_read None) s) = Good r /\ fst (run t lb_len s) <> Good (length r).
Proof.
  exists 3, (fresh 3), 0, []. repeat split; [auto with arith|exists []; reflexivity|].
  vm_compute. discriminate.
Qed.
Print Assumptions C09_len_counts_items_refuted.

(** ** C10 *)
Theorem C10_write_result :
  forall m s t data, 1 <= m -> reachable m s -> is_open s ->
  exists n s', run t (lb_write data) s = (Good n, s') /\
    (data = [] -> n = 0) /\
    (segments data [[]] [] -> n = 1) /\
    (no_break data -> n = length data) /\
    (forall ls r, segments data ls r -> ls <> [] -> ~ segments data [[]] [] -> n = length r).
Proof. exact c10. Qed.
Print Assumptions C10_write_result.

(** "Number of lines that have been written" (docstring of write) is false. *)
Theorem C10_counts_lines_refuted :
  exists m s t data ls r, 1 <= m /\ reachable m s /\ is_open s /\ segments data ls r /\
    fst (run t (lb_write data) s) <> Good (length ls).
Proof.
  exists 3, (fresh 3), 0, (txt "a" ++ [10%N] ++ txt "bc"), [txt "a"], (txt "bc").
  repeat split; [auto with arith|exists []; reflexivity| |].
  - apply SpecFacts.segments_iff. vm_compute. reflexivity.
  - vm_compute. discriminate.
Qed.
Print Assumptions C10_counts_lines_refuted.

(** ** C11 *)
Theorem C11_closed_forever :
  forall m s t h, 1 <= m -> reachable m s ->
  fst (run t lb_close s) = Good tt /\
  let s1 := snd (run t lb_close s) in
  run_hist h s1 = (map (fun tc => closed_answer m (snd tc)) h, s1).
Proof. exact c11. Qed.
Print Assumptions C11_closed_forever.

(** "clear() ... should always success" is false after close(). *)
Theorem C11_clear_always_succeeds_refuted :
  exists m s t, 1 <= m /\ reachable m s /\ fst (run t lb_clear s) = Fail ValueError.
Proof.
  exists 2, (snd (run_hist [(0, Close)] (fresh 2))), 0.
  repeat split; [auto with arith|exists [(0, Close)]; reflexivity].
Qed.
Print Assumptions C11_clear_always_succeeds_refuted.

(** ** C12 *)
Theorem C12_clear_resets :
  forall m s t, 1 <= m -> reachable m s -> is_open s ->
  run t lb_clear s = (Good tt, fresh m).
Proof. exact c12. Qed.
Print Assumptions C12_clear_resets.

(** ** C13 *)
Theorem C13_end_line_break :
  forall s, is_end_line_break s = true <-> exists s' c, s = s' ++ [c] /\ line_break c.
Proof. exact c13. Qed.
Print Assumptions C13_end_line_break.

Example C13_case : is_end_line_break (txt "x" ++ [133%N]) = true /\
                   is_end_line_break (txt "x" ++ [31%N]) = false.
Proof. split; reflexivity. Qed.

(** ** C14 (LineBuffer part; the file buffer is in PropFile.v) *)
Theorem C14_maxlen_LineBuffer :
  forall v,
  match lb_init v with
  | Good s => exists z, as_int v = Some z /\ (1 <= z)%Z /\
      forall h t, fst (run t (lb_call Maxlen) (snd (run_hist h s))) = Good (RNat (Z.to_nat z))
  | Fail e => e = TypeError /\ (as_int v = None \/ exists z, as_int v = Some z /\ (z < 1)%Z)
  | Block => False
  end.
Proof. exact c14. Qed.
Print Assumptions C14_maxlen_LineBuffer.

Example C14_case : lb_init (PyInt 7) = Good (fresh 7) /\ lb_init (PyInt 0) = Fail TypeError
  /\ lb_init PyOther = Fail TypeError /\ lb_init (PyBool true) = Good (fresh 1).
Proof. repeat split. Qed.
