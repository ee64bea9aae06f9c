(** * PropStop: stop_all_mirrors() while threads and processes are working (C82)

    Only theorem statements and concrete cases; proofs are in StopProofs.v, the vocabulary
    in CountSpec.v and ProcSpec.v. *)
From stdpp Require Import gmap relations.
From Coq Require Import String.
From Coq Require Import List NArith ZArith Bool Arith.
From Verif Require Import PyStr Prog PyIO Base Spec LineBuf Proc ProcSpec ProcRun CountSpec StopProofs PropProc.
Import ListNotations.
Local Open Scope nat_scope.

(** ** C82 *)
(** The threads [css1] have come to any point of their work when the stop flag is set; from
    then on the threads [css2] work beside them (calls that begin after the stop).  Nobody
    calls reset_states() or send_data().  The threads of [css1] put at most one text each
    into the queues, those of [css2] none, and every write() of theirs raises. *)
Theorem C82_stop :
  forall css1 css2 sch1 sch2 s0 ps s ps' s',
  (forall cs c, In cs (css1 ++ css2) -> In c cs -> keeps_state c = true /\ checks_flag c = true) ->
  (forall m, In m (s_mirs (dat s0)) -> m_has m = true) ->
  sched_run sch1 (sys_pool css1, s0) = Some (ps, s) -> s_state (dat s) = Some true ->
  sched_run sch2 (ps ++ sys_pool css2, s) = Some (ps', s') ->
  n_texts (dat s') <= n_texts (dat s) + length css1 /\
  forall k cs rs j i data, css2 !! k = Some cs -> ps' !! (length css1 + k) = Some (Ret rs) ->
    cs !! j = Some (ToMirror i (CWrite data)) -> exists e, rs !! j = Some (Fail e).
Proof. exact stopping. Qed.
Print Assumptions C82_stop.

(** Concrete case: two processes hold copies (positions 1 and 2); the first one is inside
    write() and has looked at the flag when stop_all_mirrors() is called and returns. *)
Definition working : psys := after (pool2 ++ [OnMirror 1 CClosed; OnMirror 2 CClosed]) (lp_fresh 3).
Definition crew : list (list scall) :=
  [[ToMirror 1 (CWrite (txt "a" ++ lf)); ToMirror 1 (CWrite (txt "b" ++ lf))]; [ToMain PStopAll]].
Definition newcomers : list (list scall) :=
  [[ToMirror 2 (CWrite (txt "c" ++ lf)); ToMirror 2 (CClose None)]].
Definition at_stop := plan [(0, 19); (1, 100)] (sys_pool crew, idle working).
Definition at_end := plan [(0, 200); (2, 200); (0, 200)] (fst at_stop ++ sys_pool newcomers, snd at_stop).

(** The text of the write() that had looked at the flag arrives after the stop; the next
    write() of that process raises, and so does the one of the other process. *)
Theorem C82_one_text_more :
  exists sch1 ps s sch2 s',
  sched_run sch1 (sys_pool crew, idle working) = Some (ps, s) /\
  ps !! 1 = Some (Ret [Good (FromMain RUnit)]) /\ s_state (dat s) = Some true /\ inbox (dat s) = [] /\
  sched_run sch2 (ps ++ sys_pool newcomers, s) =
    Some ([Ret [Good (FromMirror (MNat 2)); Fail StopIteration]; Ret [Good (FromMain RUnit)];
           Ret [Fail StopIteration; Good (FromMirror MUnit)]], s') /\
  inbox (dat s') = [QStr (txt "a" ++ lf); QClose].
Proof.
  destruct (plan_sched [(0, 19); (1, 100)] (sys_pool crew, idle working)) as [sch1 E1].
  destruct (plan_witness [(0, 200); (2, 200); (0, 200)] (fst at_stop ++ sys_pool newcomers, snd at_stop)
    [Ret [Good (FromMirror (MNat 2)); Fail StopIteration]; Ret [Good (FromMain RUnit)];
     Ret [Fail StopIteration; Good (FromMirror MUnit)]] (fun d => inbox d = [QStr (txt "a" ++ lf); QClose])) as (sch2 & s' & E2 & H2);
    [vm_compute; reflexivity|vm_compute; reflexivity|].
  exists sch1, (fst at_stop), (snd at_stop), sch2, s'.
  split; [rewrite E1; fold at_stop; destruct at_stop; reflexivity|].
  split; [vm_compute; reflexivity|]. split; [vm_compute; reflexivity|]. split; [vm_compute; reflexivity|]. split; [exact E2|exact H2].
Qed.
Print Assumptions C82_one_text_more.

Example C82_case :
  forallb (fun cs => forallb (fun c => keeps_state c && checks_flag c) cs) (crew ++ newcomers) = true /\
  map m_has (s_mirs working) = [true; true; true] /\ preach 3 working /\
  n_texts (dat (snd at_stop)) = 0 /\ n_texts (dat (snd at_end)) = 1.
Proof.
  split; [vm_compute; reflexivity|]. split; [vm_compute; reflexivity|]. split; [exists (by0 (pool2 ++ [OnMirror 1 CClosed; OnMirror 2 CClosed])); hist|].
  split; vm_compute; reflexivity.
Qed.
