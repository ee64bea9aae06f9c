(** * C83: several processes on one log, some of them with the same tmp_id *)
From stdpp Require Import gmap.
From Coq Require Import String.
From Coq Require Import List NArith ZArith Bool Arith Lia.
From Verif Require Import PyStr Prog PyIO Base Spec LineBuf Conc FileBuf FileSpec FileStmt FileConcSpec FileTmpSpec
  FileFacts FileMore FileConc FileTmp PropConc PropFileConc.
Import ListNotations.
Local Open Scope nat_scope.

(** [n] processes write to one log, any of them with any tmp_id; [v t] is the text in the
    temporary file of the identifier [t] and [o i] says whether the buffer of process [i] is
    open.  They make any calls, interleaved in any way, until all are finished.  Then the
    execution has an account [g] by steps that happen at once: to the records, or to a
    temporary file.  Each process plays its calls step by step, with the results it got,
    and the steps of all of them lead from the first directory to the last one. *)
Theorem C83_account :
  forall n name fl bs m css s0 sch ps s' l v o,
  one_log n name fl bs -> (forall i, i < n -> b_max (bs i) = m) ->
  length css = n -> lks s0 = ∅ -> Forall (Forall (encodes name)) css ->
  records name (files (dat s0)) l -> length l <= m ->
  (forall i, i < n -> open_flag (bs i) (dat s0) (o i) /\
     unfinished name (b_tmp (bs i)) (files (dat s0)) = v (b_tmp (bs i)) /\ no_break (v (b_tmp (bs i))) /\ utf8 (v (b_tmp (bs i)))) ->
  sched_run sch (fb_pool bs css, s0) = Some (ps, s') -> all_finished ps ->
  exists (g : list (nat * fstep)) (o' : nat -> bool),
    Forall (fun e => fst e < n) g /\
    (forall i cs, nth_error css i = Some cs -> open_flag (bs i) (dat s') (o' i) /\
       exists rs, nth_error ps i = Some (Ret rs) /\ plays_all m cs (o i) (events_of i g) (o' i) rs) /\
    story m (fun i => b_tmp (bs i)) g l v (fun l' v' =>
      records name (files (dat s')) l' /\ length l' <= m /\
      forall i, i < n -> unfinished name (b_tmp (bs i)) (files (dat s')) = v' (b_tmp (bs i))).
Proof. exact tmp_account. Qed.
Print Assumptions C83_account.

(** What follows for the records: the complete lines of each write, exceptions and wipes
    reach the log in one piece each and in the order of the calls of their process, whoever
    shares the temporary file.  Only the beginning of the first line of a write, the line of
    new_line() and close(), and what remains in a temporary file depend on the others: it
    consists of whole remainders written under the same tmp_id, perhaps after the text that
    was there at first. *)
Theorem C83_lines :
  forall n name fl bs m css s0 sch ps s' l v o,
  one_log n name fl bs -> (forall i, i < n -> b_max (bs i) = m) ->
  length css = n -> lks s0 = ∅ -> Forall (Forall (encodes name)) css ->
  records name (files (dat s0)) l -> length l <= m ->
  (forall i, i < n -> open_flag (bs i) (dat s0) (o i) /\
     unfinished name (b_tmp (bs i)) (files (dat s0)) = v (b_tmp (bs i)) /\ no_break (v (b_tmp (bs i))) /\ utf8 (v (b_tmp (bs i)))) ->
  sched_run sch (fb_pool bs css, s0) = Some (ps, s') -> all_finished ps ->
  exists (mixed : list (nat * effect)) (o' : nat -> bool),
    Forall (fun e => fst e < n) mixed /\
    (forall i cs, nth_error css i = Some cs ->
       open_flag (bs i) (dat s') (o' i) /\
       logs_all (glued (remainder bs css (b_tmp (bs i))) (v (b_tmp (bs i)))) cs (o i) (events_of i mixed) (o' i) /\
       glued (remainder bs css (b_tmp (bs i))) (v (b_tmp (bs i))) (unfinished name (b_tmp (bs i)) (files (dat s')))) /\
    records name (files (dat s')) (log_after m l (map snd mixed)).
Proof. exact tmp_lines. Qed.
Print Assumptions C83_lines.

(** No deadlock, whatever the identifiers. *)
Theorem C83_no_deadlock :
  forall n name fl bs css d0 sch ps s',
  one_log n name fl bs -> length css = n ->
  sched_run sch (fb_pool bs css, mkst d0 ∅) = Some (ps, s') ->
  (all_finished ps /\ lks s' = ∅) \/ (exists i c, cstep i (ps, s') = Some c).
Proof. exact tmp_no_deadlock. Qed.
Print Assumptions C83_no_deadlock.

(** ** Two processes with the default tmp_id, log of at most 3 records *)
Definition y_bufs (i : nat) : fbuf := mkfb i (txt "log") (txt "tmp") 3 0 2.
Example y_one_log : one_log 2 (txt "log") 0 y_bufs.
Proof.
  split; [reflexivity| |].
  - intros i Hi. cbn. repeat split; lia.
  - intros i j _ _ Hne. cbn. tauto.
Qed.
(** Distinct identifiers are a special case. *)
Example x_one_log : one_log 2 (txt "log") 0 x_bufs.
Proof.
  split; [reflexivity| |].
  - intros [|[|i]] Hi; [| |lia]; cbn; repeat split; lia.
  - intros [|[|i]] [|[|j]] Hi Hj Hne; try lia; cbn; (split; [lia|split; discriminate]).
Qed.
(** Process [i] takes [k] steps, then process [1 - i] goes on as long as it can, then [i]. *)
Fixpoint y_go (fuel i : nat) (c : list (prog fcmd (list (outcome fres))) * st fdir) : list nat :=
  match fuel with
  | O => []
  | S fuel' => match cstep i c with Some c1 => i :: y_go fuel' i c1 | None => [] end
  end.
Definition y_then (k i : nat) (c : list (prog fcmd (list (outcome fres))) * st fdir) : list nat :=
  let s1 := repeat i k in
  match sched_run s1 c with
  | None => []
  | Some c1 =>
      let s2 := y_go 500 (1 - i) c1 in
      match sched_run s2 c1 with
      | None => []
      | Some c2 => s1 ++ s2 ++ y_go 500 i c2
      end
  end.
Definition y_with (x : text) : st fdir := mkst (mkfdir {[txt "log-tmp.tmp" := x]} ∅) ∅.
Definition y_end (k : nat) (x : text) (css : list (list fcall)) :=
  option_map (fun c => (map (fun p => match p with Ret r => Some r | _ => None end) (fst c),
                        map (fun f => files (dat (snd c)) !! (f : text))
                          [txt "log-0.log"; txt "log-1.log"; txt "log-2.log"; txt "log-tmp.tmp"]))
    (sched_run (y_then k 0 (fb_pool y_bufs css, y_with x)) (fb_pool y_bufs css, y_with x)).

(** The text of one process can be lost, put before the line of the other one, or logged
    twice, and new_line() can add an empty line, though both processes found the file in
    order and no call failed: what documentation of tmp_id warns of (file.py:75-78). *)
Definition y_ran (x : text) (css : list (list fcall)) (l : list text) (x' : text) : Prop :=
  exists sch ps s', sched_run sch (fb_pool y_bufs css, y_with x) = Some (ps, s') /\ all_finished ps /\
    records (txt "log") (files (dat s')) l /\ unfinished (txt "log") (txt "tmp") (files (dat s')) = x'.
Fact y_lookup1 (x a : text) : records (txt "log") (<[temp_file (txt "log") (txt "tmp") := x]> {[record_file (txt "log") 0 := a]}) [a].
Proof.
  intros k. rewrite lookup_insert_ne; [|intros E; apply (rec_tmp (y_bufs 0) k (y_bufs 0)); symmetry; exact E].
  destruct k as [|k]; [apply lookup_singleton|]. rewrite lookup_singleton_ne; [destruct k; reflexivity|].
  intros E. apply (rec_name_inj (y_bufs 0) 0 (S k)) in E. discriminate.
Qed.
Fact y_lookup2 (x a b : text) :
  records (txt "log") (<[temp_file (txt "log") (txt "tmp") := x]> (<[record_file (txt "log") 0 := b]> {[record_file (txt "log") 1 := a]})) [a; b].
Proof.
  intros k. rewrite lookup_insert_ne; [|intros E; apply (rec_tmp (y_bufs 0) k (y_bufs 0)); symmetry; exact E].
  destruct k as [|[|k]].
  - apply lookup_insert.
  - rewrite lookup_insert_ne; [apply lookup_singleton|]. intros E. apply (rec_name_inj (y_bufs 0) 0 1) in E. discriminate.
  - rewrite lookup_insert_ne, lookup_singleton_ne; [destruct k; reflexivity|..]; intros E.
    + apply (rec_name_inj (y_bufs 0) 1 (S (S k))) in E. discriminate.
    + apply (rec_name_inj (y_bufs 0) 0 (S (S k))) in E. discriminate.
Qed.
Fact y_check (k : nat) (x : text) (css : list (list fcall)) (d : directory) (l : list text) (x' : text) :
  option_map (fun c => (forallb finished (fst c), bool_decide (files (dat (snd c)) = <[temp_file (txt "log") (txt "tmp") := x']> d)))
    (sched_run (y_then k 0 (fb_pool y_bufs css, y_with x)) (fb_pool y_bufs css, y_with x)) = Some (true, true) ->
  records (txt "log") (<[temp_file (txt "log") (txt "tmp") := x']> d) l -> y_ran x css l x'.
Proof.
  intros H Hr. destruct (sched_run (y_then k 0 (fb_pool y_bufs css, y_with x)) (fb_pool y_bufs css, y_with x)) as [[ps s']|] eqn:E; [|discriminate].
  cbn [option_map fst snd] in H. injection H as H1 H2. apply bool_decide_eq_true_1 in H2.
  exists (y_then k 0 (fb_pool y_bufs css, y_with x)), ps, s'. split; [exact E|]. split; [|split].
  - apply List.Forall_forall. intros p Hp. rewrite forallb_forall in H1. apply H1, Hp.
  - rewrite H2. exact Hr.
  - rewrite H2. unfold unfinished. rewrite lookup_insert. reflexivity.
Qed.
Theorem C83_unfinished_refuted :
  y_ran [] [[XWrite (txt "a" ++ nl)]; [XWrite (txt "b")]] [txt "a"] [] /\
  y_ran [] [[XWrite (txt "a" ++ nl)]; [XWrite (txt "b")]] [txt "ba"] [] /\
  y_ran (txt "x") [[XNewLine]; [XNewLine]] [txt "x"; txt "x"] [] /\
  y_ran (txt "x") [[XNewLine]; [XNewLine]] [txt "x"; []] [].
Proof.
  split; [|split; [|split]].
  - eapply (y_check 9); [|apply y_lookup1]. vm_compute. reflexivity.
  - eapply (y_check 0); [|apply y_lookup1]. vm_compute. reflexivity.
  - eapply (y_check 9); [|apply y_lookup2]. vm_compute. reflexivity.
  - eapply (y_check 5); [|apply y_lookup2]. vm_compute. reflexivity.
Qed.
Print Assumptions C83_unfinished_refuted.

(** The first of these cases as an account. *)
Definition y_g : list (nat * fstep) := [(0, SGet []); (0, SLog (Adds [txt "a"])); (1, SApp (txt "b")); (0, SEmpty)].
Example C83_case :
  y_end 9 [] [[XWrite (txt "a" ++ nl)]; [XWrite (txt "b")]] =
    Some ([Some [Good (VNat 0)]; Some [Good (VNat 1)]], [Some (txt "a"); None; None; Some []]) /\
  plays_all 3 [XWrite (txt "a" ++ nl)] true (events_of 0 y_g) true [Good (VNat 0)] /\
  plays_all 3 [XWrite (txt "b")] true (events_of 1 y_g) true [Good (VNat 1)] /\
  story 3 (fun i => b_tmp (y_bufs i)) y_g [] (fun _ => []) (fun l v => l = [txt "a"] /\ v (txt "tmp") = []).
Proof.
  assert (Hn : forall s, forallb (fun c => (32 <? c)%N && (c <? 128)%N) s = true -> no_break s).
  { intros s Hs. apply List.Forall_forall. intros c Hc. rewrite forallb_forall in Hs. specialize (Hs c Hc).
    apply andb_prop in Hs. destruct Hs as [H1 H2]. apply N.ltb_lt in H1, H2. unfold line_break. lia. }
  split; [vm_compute; reflexivity|]. split; [|split].
  - apply (plays_cons 3 _ [] true [SGet []; SLog (Adds [txt "a"]); SEmpty] true _ [] true []); [|constructor].
    apply (pl_write 3 (txt "a" ++ nl) [txt "a"] [] []).
    apply (seg_line (txt "a") nl [] [] []); [apply Hn; reflexivity| |constructor; apply Hn; reflexivity].
    apply term_one; [left; reflexivity|]. intros [E _]. discriminate.
  - apply (plays_cons 3 _ [] true [SApp (txt "b")] true _ [] true []); [|constructor].
    apply (pl_write 3 (txt "b") [] (txt "b") []). constructor. apply Hn. reflexivity.
  - cbn. auto.
Qed.
Example C83_case_start :
  records (txt "log") (files (dat (y_with []))) [] /\ open_flag (y_bufs 0) (dat (y_with [])) true /\
  unfinished (txt "log") (txt "tmp") (files (dat (y_with []))) = [].
Proof.
  split; [|split; reflexivity]. intros k. cbn [y_with dat files]. rewrite lookup_singleton_ne; [destruct k; reflexivity|].
  intros E. apply (rec_tmp (y_bufs 0) k (y_bufs 0)). symmetry. exact E.
Qed.
