(** * LazyThrCases: executions of threads that use lazy modules *)
From stdpp Require Import gmap strings.
From Coq Require Import String.
From Coq Require Import List Bool Arith Lia.
From Verif Require Import Prog ProgFacts ProcRun Lazy LazyThr LazyThrSpec.
Import ListNotations.
Local Open Scope nat_scope.

(** The lazy modules of this package (__init__.py:42-75): 0: file, 1: webtools, 2: host, with
    some of their attributes; host.py:51 uses webtools.  The lazy attributes LineFileBuffer,
    LineHostBuffer and LineHostMirror. *)
Definition pkg_code (i : nat) : list tstmt :=
  match i with
  | 0 => [TDef "LineFileBuffer" 10]
  | 1 => [TDef "SafePoolManager" 20; TDef "clean_http_manager" 21]
  | 2 => [TFrom 1 "SafePoolManager"; TFrom 1 "clean_http_manager"; TDef "LineHostMirror" 30; TDef "LineHostBuffer" 31; TDef "LineHostReader" 32]
  | _ => []
  end%string.
Definition pkg_mods : list (gmap string nat * list nat) := [(∅, []); (∅, []); (∅, [1])].
Definition pkg_las : list (nat * string) := [(0, "LineFileBuffer"); (2, "LineHostBuffer"); (2, "LineHostMirror")]%string.
Definition pkg_run (css : list (list tcall)) (turns : list (nat * nat)) :=
  plan turns (map (tthread pkg_code 9) css, mkst (tinit pkg_mods pkg_las) ∅).
Definition results (c : config (C:=tcmd) (D:=tworld) (list (outcome lval))) : list (option (list (outcome lval))) :=
  map (fun p => match p with Ret r => Some r | _ => None end) (fst c).

(** Two modules that use each other. *)
Definition pair_code (i : nat) : list tstmt :=
  match i with 0 => [TDef "a" 1; TUse 1 "b"; TDef "c" 2] | 1 => [TDef "b" 3; TUse 0 "a"; TDef "d" 4] | _ => [] end%string.
Definition pair_start (css : list (list tcall)) :=
  (map (tthread pair_code 12) css, mkst (tinit [(∅, []); (∅, [])] []) ∅).

Lemma plan_stuck turns (c0 : config (C:=tcmd) (D:=tworld) (list (outcome lval))) :
  (let c := plan turns c0 in
   forallb (fun p => negb (finished p)) (fst c) &&
   forallb (fun i => match cstep i c with None => true | Some _ => false end) (seq 0 (length (fst c)))) = true ->
  exists sch ps s, sched_run sch c0 = Some (ps, s) /\ Forall (fun p => finished p = false) ps /\ forall i, cstep i (ps, s) = None.
Proof.
  intros H. destruct (plan_sched turns c0) as [sch Hs]. destruct (plan turns c0) as [ps s]. simpl in H.
  apply andb_prop in H. destruct H as [H1 H2]. rewrite forallb_forall in H1, H2.
  exists sch, ps, s. split; [exact Hs|]. split.
  - apply List.Forall_forall. intros p Hp. apply negb_true_iff, H1, Hp.
  - intros i. destruct (le_lt_dec (length ps) i) as [Hi|Hi].
    + unfold cstep. simpl. rewrite (lookup_ge_None_2 ps i Hi). reflexivity.
    + assert (Hin : In i (seq 0 (length ps))) by (apply in_seq; lia). specialize (H2 i Hin). destruct (cstep i (ps, s)); [discriminate|reflexivity].
Qed.
Lemma plan_mod turns (c0 : config (C:=tcmd) (D:=tworld) (list (outcome lval))) ps i (Q : tmod -> Prop) :
  fst (plan turns c0) = ps -> match t_mods (dat (snd (plan turns c0))) !! i with Some m => Q m | None => False end ->
  exists sch s m, sched_run sch c0 = Some (ps, s) /\ t_mods (dat s) !! i = Some m /\ Q m.
Proof.
  intros <- H. destruct (plan_sched turns c0) as [sch Hs]. destruct (plan turns c0) as [ps s]. simpl in H.
  destruct (t_mods (dat s) !! i) as [m|] eqn:E; [|destruct H]. exists sch, s, m. auto.
Qed.

Lemma deadlock : exists sch ps s,
  sched_run sch (pair_start [[Access 0 "c"]; [Access 1 "d"]]%string) = Some (ps, s) /\
  Forall (fun p => finished p = false) ps /\ forall i, cstep i (ps, s) = None.
Proof. apply (plan_stuck [(0, 8); (1, 200); (0, 200)]). vm_compute. reflexivity. Qed.

Definition pkg_start (css : list (list tcall)) := (map (tthread pkg_code 9) css, mkst (tinit pkg_mods pkg_las) ∅).
Lemma race_attribute : exists sch ps s,
  sched_run sch (pkg_start [[Attr 1; Attr 1]; [Attr 2]]) = Some (ps, s) /\
  ps = [Ret [Fail AttributeError; Good (VVal 31)]; Ret [Good (VVal 30)]].
Proof.
  destruct (plan_witness [(0, 2); (1, 200); (0, 200)] (pkg_start [[Attr 1; Attr 1]; [Attr 2]])
    [Ret [Fail AttributeError; Good (VVal 31)]; Ret [Good (VVal 30)]] (fun _ => True)) as (sch & s & H & _); [vm_compute; reflexivity|exact I|].
  eexists sch, _, s. split; [exact H|reflexivity].
Qed.
Lemma race_class : exists sch ps s m,
  sched_run sch (pkg_start [[Attr 1]; [Attr 2]]) = Some (ps, s) /\
  ps = [Ret [Good (VVal 31)]; Ret [Good (VVal 30)]] /\ t_mods (dat s) !! 2 = Some m /\ t_run m = Over true /\ t_cls m = KImp.
Proof.
  destruct (plan_mod [(0, 3); (1, 200); (0, 200)] (pkg_start [[Attr 1]; [Attr 2]]) [Ret [Good (VVal 31)]; Ret [Good (VVal 30)]] 2
    (fun m => t_run m = Over true /\ t_cls m = KImp)) as (sch & s & m & H & Hm & Hq); [vm_compute; reflexivity|vm_compute; auto|].
  eexists sch, _, s, m. split; [exact H|]. split; [reflexivity|]. auto.
Qed.
Lemma race_load : exists sch ps s m,
  sched_run sch (pkg_start [[Attr 1; Attr 1; Attr 2]; [Access 1 "SafePoolManager"%string]]) = Some (ps, s) /\
  ps = [Ret [Fail ImportError; Fail AttributeError; Fail AttributeError]; Ret [Good (VVal 20)]] /\
  t_mods (dat s) !! 2 = Some m /\ t_run m = Over false /\ t_attrs m = ∅.
Proof.
  destruct (plan_mod [(0, 24); (1, 200); (0, 200)] (pkg_start [[Attr 1; Attr 1; Attr 2]; [Access 1 "SafePoolManager"%string]])
    [Ret [Fail ImportError; Fail AttributeError; Fail AttributeError]; Ret [Good (VVal 20)]] 2
    (fun m => t_run m = Over false /\ t_attrs m = ∅)) as (sch & s & m & H & Hm & Hq); [vm_compute; reflexivity|vm_compute; auto|].
  eexists sch, _, s, m. split; [exact H|]. split; [reflexivity|]. auto.
Qed.
