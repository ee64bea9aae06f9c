(** * PropPrintThr: threads of one process that print (C91)

    Only theorem statements and concrete cases; proofs are in PrintThrProofs.v, the model
    and the vocabulary in PrintThr.v.
    [t_pool isbuf exc codes]: thread i of the process runs [codes[i]]; sys.stdout,
    sys.stderr and all objects are shared, every access to an attribute and every step of
    LineBuffer.write() is a step of its own.  Every schedule is covered.
    [size o], [log o]: maxlen and content of the LineBuffer [o] at the start. *)
From stdpp Require Import gmap.
From Coq Require Import String.
From Coq Require Import List NArith ZArith Bool Arith Lia.
From Verif Require Import Held PyStr Prog PyIO Base Spec LineBuf LineBufSpec ProcRun Ctx Print PrintSpec PropProc PropPrint PrintThr PrintThrProofs.
Import ListNotations.
Local Open Scope nat_scope.

(** Whatever the threads do: there is one order [g] of everything that they did, in which
    each thread did what its code says; the answers of the attributes are those of this
    order, and every stream has got exactly the texts of [g], no text torn. *)
Theorem C91_account : forall isbuf exc size log codes d sch ps s',
  (forall o, isbuf o = true -> 1 <= size o /\ buf_shows (size o) (log o) (pr_buf d o)) ->
  sched_run sch (t_pool isbuf exc codes, mkst d ∅) = Some (ps, s') -> Forall (fun p => finished p = true) ps ->
  exists g : list (nat * event),
    Forall (fun e => fst e < List.length codes) g /\
    (forall i c, codes !! i = Some c -> exists r, ps !! i = Some (Ret r) /\ does exc c (events_of i g) r) /\
    follows (pr_sys d) (map snd g) (pr_sys (dat s')) /\
    (forall o, isbuf o = false -> pr_con (dat s') o = pr_con d o ++ concat (puts o (map snd g))) /\
    (forall o, isbuf o = true -> exists lg, log_steps (map SWrite (puts o (map snd g))) (log o) lg /\
       buf_shows (size o) lg (pr_buf (dat s') o)).
Proof. exact c91_account. Qed.
Print Assumptions C91_account.

(** Only thread [k] uses 'with': its texts go where they should, as if it were alone, and
    sys.stdout and sys.stderr are as before in the end.  What the other threads print goes
    to the old streams or to an object that thread [k] redirects to. *)
Theorem C91_one_redirects : forall isbuf exc size log codes d sch ps s' k ck,
  (forall o, isbuf o = true -> 1 <= size o /\ buf_shows (size o) (log o) (pr_buf d o)) ->
  codes !! k = Some ck -> well_nested (as_code ck) -> (forall i c, codes !! i = Some c -> i <> k -> no_context c) ->
  sched_run sch (t_pool isbuf exc codes, mkst d ∅) = Some (ps, s') -> Forall (fun p => finished p = true) ps ->
  exists g : list (nat * event),
    Forall (fun e => fst e < List.length codes) g /\
    (forall i c, codes !! i = Some c -> exists r, ps !! i = Some (Ret r) /\ does exc c (events_of i g) r) /\
    (forall o, isbuf o = false -> pr_con (dat s') o = pr_con d o ++ concat (puts o (map snd g))) /\
    (forall o, isbuf o = true -> exists lg, log_steps (map SWrite (puts o (map snd g))) (log o) lg /\
       buf_shows (size o) lg (pr_buf (dat s') o)) /\
    (exists l r, ps !! k = Some (Ret r) /\ told exc (out (pr_sys d)) (err (pr_sys d)) (as_code ck) l r /\ all_good l /\
       put_pairs (events_of k g) = wrote_pairs l) /\
    out (pr_sys (dat s')) = out (pr_sys d) /\ err (pr_sys (dat s')) = err (pr_sys d) /\
    (forall i o data, In (Put o data) (events_of i g) ->
       out (pr_sys d) = Some o \/ err (pr_sys d) = Some o \/ In o (targets ck)).
Proof. exact c91_one. Qed.
Print Assumptions C91_one_redirects.

(** Threads that print inside one 'with buffer:' of the main thread (started and joined in
    it, without 'with' of their own): the buffer gets all their texts, those of each thread
    in order, and nothing else changes. *)
Theorem C91_inside : forall isbuf exc size log codes d sch ps s' o,
  (forall o, isbuf o = true -> 1 <= size o /\ buf_shows (size o) (log o) (pr_buf d o)) ->
  isbuf o = true -> out (pr_sys d) = Some o -> err (pr_sys d) = Some o -> Forall no_context codes ->
  sched_run sch (t_pool isbuf exc codes, mkst d ∅) = Some (ps, s') -> Forall (fun p => finished p = true) ps ->
  exists order : list (nat * text),
    Forall (fun e => fst e < List.length codes) order /\
    (forall i c, codes !! i = Some c -> exists l r, ps !! i = Some (Ret r) /\
       told exc (Some o) (Some o) (as_code c) l r /\ all_good l /\ events_of i order = texts_to o l) /\
    (exists lg, log_steps (map SWrite (map snd order)) (log o) lg /\ buf_shows (size o) lg (pr_buf (dat s') o)) /\
    pr_sys (dat s') = pr_sys d /\ (forall o', isbuf o' = false -> pr_con (dat s') o' = pr_con d o').
Proof. exact c91_inside. Qed.
Print Assumptions C91_inside.

(** If every single text is made of complete lines (sys.stdout.write('...\n')), the records
    added are the lines of the threads, each thread's in order. *)
Theorem C91_complete_lines : forall isbuf exc size log codes d sch ps s' o,
  (forall o, isbuf o = true -> 1 <= size o /\ buf_shows (size o) (log o) (pr_buf d o)) ->
  isbuf o = true -> out (pr_sys d) = Some o -> err (pr_sys d) = Some o -> Forall no_context codes ->
  pend (log o) = [] -> (forall c, In c codes -> Forall complete (code_texts (as_code c))) ->
  sched_run sch (t_pool isbuf exc codes, mkst d ∅) = Some (ps, s') -> Forall (fun p => finished p = true) ps ->
  exists itemss li,
    Forall2 (fun c items => exists l r, told exc (Some o) (Some o) (as_code c) l r /\ all_good l /\
      log_steps (map SWrite (texts_to o l)) slog0 (mkslog items [])) codes itemss /\
    order_of itemss li /\ buf_shows (size o) (mkslog (done (log o) ++ map snd li) []) (pr_buf (dat s') o).
Proof. exact c91_lines. Qed.
Print Assumptions C91_complete_lines.

(** No deadlock, whatever the threads redirect; and no execution goes on for ever. *)
Theorem C91_ends : forall isbuf exc codes d sch ps s',
  sched_run sch (t_pool isbuf exc codes, mkst d ∅) = Some (ps, s') ->
  (Forall (fun p => finished p = true) ps /\ lks s' = ∅) \/ exists i c, cstep i (ps, s') = Some c.
Proof. exact c91_progress. Qed.
Print Assumptions C91_ends.
Theorem C91_no_infinite_execution :
  forall isbuf exc codes d (f : nat -> config (C:=tcmd) (D:=tproc) ending),
  f 0 = (t_pool isbuf exc codes, mkst d ∅) -> ~ forall n, exists i, cstep i (f n) = Some (f (S n)).
Proof. exact (fun _ _ _ _ f _ => no_infinite f). Qed.
Print Assumptions C91_no_infinite_execution.

(** ** Concrete cases: objects 1 and 2 are LineBuffers, 100 and 101 the consoles *)
Definition buf12 (o : nat) : bool := (o =? 1) || (o =? 2).
Definition proc0 : tproc := mktproc std (fun _ => []) (fun o => empty_buf (if o =? 1 then 5 else 3)).
Definition size12 (o : nat) : nat := if o =? 1 then 5 else 3.
Definition inside1 : tproc := mktproc (mksys (Some 1) (Some 1) (fun _ => (Some 100, Some 101)) (fun _ => [])) (pr_con proc0) (pr_buf proc0).
Lemma shows12 o : buf12 o = true -> 1 <= size12 o /\ buf_shows (size12 o) slog0 (pr_buf proc0 o).
Proof. intros _. unfold size12, proc0. cbn [pr_buf]. destruct (o =? 1); (split; [lia|]); vm_compute; auto. Qed.
Definition seen (o : nat) (d : tproc) : list item * text := (dq (storage (pr_buf d o)), sval (last_line (pr_buf d o))).

(** One thread redirects, another one prints: the line of its first print() goes to the
    buffer of the first thread. *)
Definition codes_one : list tcode :=
  [TSeq (TWith (Buf 1) (TSeq (thr_print false [txt "a"]) (TWith (ROut 7 2) (thr_print false [txt "b"])))) (thr_print false [txt "c"]);
   TSeq (thr_print false [txt "x"]) (thr_print true [txt "y"])].
Example C91_case_one :
  (forall o, buf12 o = true -> 1 <= size12 o /\ buf_shows (size12 o) slog0 (pr_buf proc0 o)) /\
  (exists ck, codes_one !! 0 = Some ck /\ well_nested (as_code ck)) /\ (forall i c, codes_one !! i = Some c -> i <> 0 -> no_context c) /\
  exists sch s', sched_run sch (t_pool buf12 show_exc codes_one, mkst proc0 ∅) = Some ([Ret Ends; Ret Ends], s') /\
  (seen 1 (dat s') = ([IStr (txt "a"); IStr (txt "x")], []) /\ seen 2 (dat s') = ([IStr (txt "b")], []) /\
   pr_con (dat s') 100 = txt "c" ++ lf /\ pr_con (dat s') 101 = txt "y" ++ lf).
Proof.
  split; [exact shows12|]. split; [eexists; split; [reflexivity|]; cbn; intuition discriminate|].
  split. { intros [|[|i]] c H Hi; [congruence|injection H as <-; cbn; tauto|discriminate]. }
  apply (plan_witness [(0, 23); (1, 7); (0, 20); (1, 9); (0, 400); (1, 400)] _ _
    (fun d => seen 1 d = ([IStr (txt "a"); IStr (txt "x")], []) /\ seen 2 d = ([IStr (txt "b")], []) /\
      pr_con d 100 = txt "c" ++ lf /\ pr_con d 101 = txt "y" ++ lf)); vm_compute; repeat split.
Qed.

(** Threads inside 'with buffer:', with complete lines. *)
Definition codes_in : list tcode :=
  [TSeq (thr_write false (txt "a" ++ lf)) (TSeq (TTry (TSeq (thr_write true (txt "b" ++ lf ++ txt "c" ++ lf)) (TRaise oops))) (thr_write false lf));
   thr_write false (txt "x" ++ lf)].
Example C91_case_inside :
  (forall o, buf12 o = true -> 1 <= size12 o /\ buf_shows (size12 o) slog0 (pr_buf inside1 o)) /\
  Forall no_context codes_in /\ (forall c, In c codes_in -> Forall complete (code_texts (as_code c))) /\
  exists sch s', sched_run sch (t_pool buf12 show_exc codes_in, mkst inside1 ∅) = Some ([Ret Ends; Ret Ends], s') /\
  seen 1 (dat s') = ([IStr (txt "a"); IStr (txt "x"); IStr (txt "b"); IStr (txt "c"); IStr []], []).
Proof.
  split; [exact shows12|]. split; [repeat constructor|]. split.
  { intros c [<-|[<-|[]]]; vm_compute code_texts;
      repeat (apply List.Forall_cons; [lazymatch goal with |- complete ?t => exists (fst (SpecFacts.seg t)); exact (SpecFacts.seg_segments t) end|]); apply List.Forall_nil. }
  apply (plan_witness [(0, 12); (1, 400); (0, 400); (1, 400)] _ _
    (fun d => seen 1 d = ([IStr (txt "a"); IStr (txt "x"); IStr (txt "b"); IStr (txt "c"); IStr []], []))); vm_compute; reflexivity.
Qed.

(** A call of print() makes two calls of write() at least, so its line need not stay whole: two
    threads print 'a' and 'b' inside the same LineBuffer, which records 'ab' and ''. *)
Theorem C91_print_stays_whole_refuted :
  exists sch s', sched_run sch (t_pool buf12 show_exc [thr_print false [txt "a"]; thr_print false [txt "b"]], mkst inside1 ∅) =
    Some ([Ret Ends; Ret Ends], s') /\
  seen 1 (dat s') = ([IStr (txt "ab"); IStr []], []).
Proof.
  apply (plan_witness [(0, 7); (1, 400); (0, 400)] _ _ (fun d => seen 1 d = ([IStr (txt "ab"); IStr []], []))); vm_compute; reflexivity.
Qed.
Print Assumptions C91_print_stays_whole_refuted.

(** Two threads, each with a LineBuffer of its own: what the first one prints arrives in the
    buffer of the second one, and after both have left their 'with' sys.stdout is the
    buffer of the first one. *)
Theorem C91_own_buffers_refuted :
  exists sch s', sched_run sch (t_pool buf12 show_exc [TWith (Buf 1) (thr_print false [txt "a"]); TWith (Buf 2) (thr_print false [txt "b"])],
      mkst proc0 ∅) = Some ([Ret Ends; Ret Ends], s') /\
  (seen 1 (dat s') = ([], []) /\ seen 2 (dat s') = ([IStr (txt "b"); IStr (txt "a")], []) /\
   out (pr_sys (dat s')) = Some 1 /\ err (pr_sys (dat s')) = Some 1).
Proof.
  apply (plan_witness [(0, 6); (1, 22); (0, 400); (1, 400)] _ _
    (fun d => seen 1 d = ([], []) /\ seen 2 d = ([IStr (txt "b"); IStr (txt "a")], []) /\
      out (pr_sys d) = Some 1 /\ err (pr_sys d) = Some 1)); vm_compute; repeat split.
Qed.
Print Assumptions C91_own_buffers_refuted.

(** Two threads use the same LineBuffer in a 'with' each: afterwards sys.stdout is None, so
    that print() does nothing any more. *)
Theorem C91_same_buffer_refuted :
  exists sch s', sched_run sch (t_pool buf12 show_exc [TWith (Buf 1) (thr_print false [txt "a"]); TWith (Buf 1) (thr_print false [txt "b"])],
      mkst proc0 ∅) = Some ([Ret Ends; Ret Ends], s') /\
  (seen 1 (dat s') = ([IStr (txt "b"); IStr (txt "a")], []) /\ out (pr_sys (dat s')) = None /\ err (pr_sys (dat s')) = None).
Proof.
  apply (plan_witness [(0, 6); (1, 22); (0, 400); (1, 400)] _ _
    (fun d => seen 1 d = ([IStr (txt "b"); IStr (txt "a")], []) /\ out (pr_sys d) = None /\ err (pr_sys d) = None)); vm_compute; repeat split.
Qed.
Print Assumptions C91_same_buffer_refuted.
