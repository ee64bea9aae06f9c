(** * PropCount: the number of mirrors when threads use the main buffer at the same time (C81)

    Only theorem statements and concrete cases; proofs are in CountProofs.v, the vocabulary
    in CountSpec.v and ProcSpec.v.  Every thread makes any calls on the main buffer and on
    any mirrors; a step is one operation on a lock, a queue, the counter n_mirrors, the
    shared state or a buffer, and [n_mirrors += 1] is a read followed by a store
    (mproc.py:813, 865). *)
From stdpp Require Import gmap relations.
From Coq Require Import String.
From Coq Require Import List NArith ZArith Bool Arith.
From Verif Require Import PyStr Prog PyIO Base Spec LineBuf Proc ProcSpec ProcRun CountSpec CountProofs PropProc.
Import ListNotations.
Local Open Scope nat_scope.

(** ** C81 *)
(** At every moment of every execution. *)
Theorem C81_count_bounds :
  forall css sch s ps' s', sched_run sch (sys_pool css, s) = Some (ps', s') ->
  (Z.min (s_n (dat s)) 0 - Z.of_nat (total takes css) <= s_n (dat s') <=
   Z.max (s_n (dat s)) 0 + Z.of_nat (total gives css))%Z.
Proof. exact count_bounds. Qed.
Print Assumptions C81_count_bounds.

(** Nobody receives: the count never falls, and it has risen once the mirrors have been
    handed out, though perhaps by one only. *)
Theorem C81_handing_out :
  forall css sch s ps' s', sched_run sch (sys_pool css, s) = Some (ps', s') -> total takes css = 0 ->
  (s_n (dat s) <= s_n (dat s') <= s_n (dat s) + Z.of_nat (total gives css))%Z /\
  ((forall p, In p ps' -> finished p = true) -> 0 < total gives css -> (s_n (dat s) < s_n (dat s'))%Z).
Proof. exact count_handed. Qed.
Print Assumptions C81_handing_out.

(** Two threads of the main process read the property [mirror]; the count rises by one. *)
Definition two_gets : list (list scall) := [[ToMain PGetMirror]; [ToMain PGetMirror]].
(** Copies of the mirror go to two processes; the first one writes a line and closes. *)
Definition first_closes : list sevent :=
  [Copy 0; Copy 0; OnMirror 1 (CWrite (txt "a" ++ lf)); OnMirror 1 (CClose None)].
Definition lost_get : psys := dat (snd (plan [(0, 1); (1, 100); (0, 100)] (sys_pool two_gets, idle (lp_fresh 3)))).

(** Two reads of [mirror] need not be two in the count (the class documentation,
    mproc.py:761-771, relies on one per read), and then wait() returns while the second
    process has its mirror open and has written nothing yet. *)
Theorem C81_each_get_counts_refuted :
  exists sch s1 d1,
  sched_run sch (sys_pool two_gets, idle (lp_fresh 3)) =
    Some ([Ret [Good (FromMain (RNat 0))]; Ret [Good (FromMain (RNat 0))]], s1) /\ s_n (dat s1) = 1%Z /\
  shist (by0 first_closes) (dat s1) d1 /\
  let w := run 0 (sys_p (lp_call (PWait 20))) (idle d1) in let d2 := dat (snd w) in
  fst w = Good RUnit /\
  records d2 = [IStr (txt "a")] /\ is_closed (mir_at d2 1) = true /\ is_closed (mir_at d2 2) = false.
Proof.
  destruct (plan_witness [(0, 1); (1, 100); (0, 100)] (sys_pool two_gets, idle (lp_fresh 3))
    [Ret [Good (FromMain (RNat 0))]; Ret [Good (FromMain (RNat 0))]] (fun d => d = lost_get)) as (sch & s1 & E & Hd);
    [vm_compute; reflexivity|reflexivity|].
  exists sch, s1, (after first_closes lost_get). rewrite Hd.
  split; [exact E|]. split; [vm_compute; reflexivity|]. split; [hist|]. repeat split; vm_compute; reflexivity.
Qed.
Print Assumptions C81_each_get_counts_refuted.

(** One process has closed its mirror.  While wait() handles that end signal, another
    thread of the main process reads [mirror], uses it and closes it: wait() does not
    return although every mirror is closed and the queue is empty. *)
Definition one_closed : psys := after [OnMain PGetMirror; Copy 0; OnMirror 1 (CClose None)] (lp_fresh 3).
Definition late_get : list (list scall) := [[ToMain (PWait 20)]; [ToMain PGetMirror; ToMirror 0 (CClose None)]].
Theorem C81_wait_returns_refuted :
  exists sch ps' s', sched_run sch (sys_pool late_get, idle one_closed) = Some (ps', s') /\
  (forall j, cstep j (ps', s') = None) /\
  ps' !! 1 = Some (Ret [Good (FromMain (RNat 0)); Good (FromMirror MUnit)]) /\
  (forall a, ps' !! 0 <> Some (Ret a)) /\
  map is_closed (s_mirs (dat s')) = [true; true] /\ inbox (dat s') = [] /\ s_n (dat s') = 1%Z.
Proof.
  apply (plan_stuck [(1, 1); (0, 4); (1, 200); (0, 200)] _ (fun c =>
    fst c !! 1 = Some (Ret [Good (FromMain (RNat 0)); Good (FromMirror MUnit)]) /\ (forall a, fst c !! 0 <> Some (Ret a)) /\
    map is_closed (s_mirs (dat (snd c))) = [true; true] /\ inbox (dat (snd c)) = [] /\ s_n (dat (snd c)) = 1%Z)); [vm_compute; reflexivity|].
  split; [vm_compute; reflexivity|]. split; [intros a; vm_compute; discriminate|]. repeat split; vm_compute; reflexivity.
Qed.
Print Assumptions C81_wait_returns_refuted.

Example C81_case :
  let c := plan [(0, 1); (1, 100); (0, 100)] (sys_pool two_gets, idle (lp_fresh 3)) in
  total takes two_gets = 0 /\ total gives two_gets = 2 /\ s_n (lp_fresh 3) = 0%Z /\ s_n (dat (snd c)) = 1%Z /\
  map finished (fst c) = [true; true] /\ s_n (dat (snd (plan [(0, 100); (1, 100)] (sys_pool two_gets, idle (lp_fresh 3))))) = 2%Z /\
  total takes late_get = 20 /\ total gives late_get = 1.
Proof. vm_compute. auto 10. Qed.
