(** * PropLazyThr: C95, C96, C97: threads that use lazy modules *)
From stdpp Require Import gmap strings.
From Coq Require Import String.
From Coq Require Import List Bool Arith Lia.
From Verif Require Import Prog ProgFacts Held ProcRun Lazy LazyThr LazyThrSpec LazyThrMain LazyThrLock LazyThrCases.
Import ListNotations.
Local Open Scope nat_scope.

(** ** C95 *)
(** In every execution the code of a module is started at most once. *)
Theorem C95_once : forall code mods las fuel css sch ps s,
  sched_run sch (map (tthread code fuel) css, mkst (tinit mods las) ∅) = Some (ps, s) -> List.NoDup (begun (dat s)).
Proof. exact once. Qed.
Print Assumptions C95_once.
(** Whoever gets an attribute gets it from a module whose code has ended: nobody sees a part of
    a module while it is being loaded (except the thread that loads it). *)
Theorem C95_values : forall code mods las fuel css sch ps s,
  sched_run sch (map (tthread code fuel) css, mkst (tinit mods las) ∅) = Some (ps, s) ->
  forall t n c i a v, told css ps t n c (Good v) -> wants las c i a -> opens a ->
  exists ats, ended code mods s i ats /\ says ats a (Good v).
Proof. exact answer_right. Qed.
Print Assumptions C95_values.
(** All threads get the same object. *)
Theorem C95_same : forall code mods las fuel css sch ps s,
  sched_run sch (map (tthread code fuel) css, mkst (tinit mods las) ∅) = Some (ps, s) ->
  forall t n c t' n' c' i a v v', opens a ->
  told css ps t n c (Good v) -> wants las c i a -> told css ps t' n' c' (Good v') -> wants las c' i a ->
  forall k, v = VVal k -> v' = VVal k.
Proof. exact answer_same. Qed.
Print Assumptions C95_same.
(** A thread that has once got an attribute of a module gets exact answers from it ever after. *)
Theorem C95_exact : forall code mods las fuel css sch ps s,
  sched_run sch (map (tthread code fuel) css, mkst (tinit mods las) ∅) = Some (ps, s) ->
  forall t n1 n2 c1 i a1 v a2 r2, n1 < n2 -> told css ps t n1 c1 (Good v) -> wants las c1 i a1 -> opens a1 ->
  told css ps t n2 (Access i a2) r2 -> r2 <> Fail OutOfFuel -> a2 <> "__class__"%string ->
  exists ats, ended code mods s i ats /\ says ats a2 r2.
Proof. exact answer_exact. Qed.
Print Assumptions C95_exact.
(** Exceptions are AttributeError, ImportError of code that says 'from module import a', and
    those that the code of some module raises. *)
Theorem C95_exceptions : forall code mods las fuel css sch ps s,
  sched_run sch (map (tthread code fuel) css, mkst (tinit mods las) ∅) = Some (ps, s) ->
  forall t n c e, told css ps t n c (Fail e) ->
  e = AttributeError \/ (exists j, In (TRaise e) (code j)) \/ (e = ImportError /\ exists i j a, In (TFrom j a) (code i)) \/
  (e = TypeError /\ exists k, c = Attr k) \/ e = OutOfFuel.
Proof. exact exceptions. Qed.
Print Assumptions C95_exceptions.
(** If every module uses only earlier ones, [2n+3] nested calls are enough. *)
Theorem C95_depth : forall code mods las fuel css sch ps s,
  sched_run sch (map (tthread code fuel) css, mkst (tinit mods las) ∅) = Some (ps, s) ->
  forall t n c i, told css ps t n c (Fail OutOfFuel) -> layered code mods ->
  (forall j, ~ In (TRaise OutOfFuel) (code j)) -> target las c i -> i < length mods -> depth_for (length mods) <= fuel -> False.
Proof. exact no_out_of_fuel. Qed.
Print Assumptions C95_depth.
(** The lazy attributes and the attributes of the parent that replace them have right values. *)
Theorem C95_attributes : forall code mods las fuel css sch ps s,
  sched_run sch (map (tthread code fuel) css, mkst (tinit mods las) ∅) = Some (ps, s) ->
  forall k l v, t_las (dat s) !! k = Some l -> opens (la_attr l) -> la_obj l = Some v \/ la_pub l = Some v ->
  las !! k = Some (la_mod l, la_attr l) /\ exists ats, ended code mods s (la_mod l) ats /\ says ats (la_attr l) (Good v).
Proof. exact attribute_right. Qed.
Print Assumptions C95_attributes.

(** Two threads use the package; the second one comes while the first one loads host. *)
Definition pkg_threads : list (list tcall) :=
  [[Attr 1; Access 2 "LineHostReader"; Access 1 "nothing"]; [Attr 2; Access 2 "LineHostBuffer"; Attr 0]]%string.
Example C95_case :
  let c := pkg_run pkg_threads [(0, 23); (1, 200); (0, 200); (1, 200)] in
  results c = [Some [Good (VVal 31); Good (VVal 32); Fail AttributeError]; Some [Good (VVal 30); Good (VVal 31); Good (VVal 10)]] /\
  begun (dat (snd c)) = [2; 1; 0].
Proof. vm_compute. split; reflexivity. Qed.

(** ** C96 *)
(** If every module uses only itself and earlier ones, threads never wait for each other for
    ever; when all are finished every lock is free. *)
Theorem C96_progress : forall code mods las fuel css sch ps s,
  layered code mods -> sched_run sch (map (tthread code fuel) css, mkst (tinit mods las) ∅) = Some (ps, s) ->
  (Forall (fun p => finished p = true) ps /\ lks s = ∅) \/ exists i c, cstep i (ps, s) = Some c.
Proof. exact lazy_progress. Qed.
Print Assumptions C96_progress.
Theorem C96_no_infinite_execution : forall code mods las fuel css (f : nat -> config (C:=tcmd) (D:=tworld) (list (outcome lval))),
  f 0 = (map (tthread code fuel) css, mkst (tinit mods las) ∅) -> ~ forall n, exists j, cstep j (f n) = Some (f (S n)).
Proof. exact (fun _ _ _ _ _ f _ => no_infinite f). Qed.
Print Assumptions C96_no_infinite_execution.
(** The modules of this package are like this. *)
Example C96_package : layered pkg_code pkg_mods /\ depth_for (length pkg_mods) = 9.
Proof.
  split; [split|reflexivity].
  - intros [|[|[|i]]] j a [H|H]; simpl in H; intuition (try discriminate); match goal with H : TFrom _ _ = _ |- _ => injection H; intros; lia end.
  - intros [|[|[|i]]] ats ds d H; simpl in H; try discriminate; injection H as <- <-; simpl; intuition lia.
Qed.
(** Two modules that use each other: a thread that loads the one and a thread that loads the
    other wait for each other for ever (the locks of the modules are not importlib's locks,
    which notice this). *)
Theorem C96_deadlock_refuted : exists sch ps s,
  sched_run sch (pair_start [[Access 0 "c"]; [Access 1 "d"]]%string) = Some (ps, s) /\
  Forall (fun p => finished p = false) ps /\ forall i, cstep i (ps, s) = None.
Proof. exact deadlock. Qed.
Print Assumptions C96_deadlock_refuted.
(** One thread alone can load them. *)
Example C96_pair_alone : results (plan [(0, 100)] (pair_start [[Access 0 "c"; Access 1 "d"]]%string)) = [Some [Good (VVal 2); Good (VVal 4)]].
Proof. vm_compute. reflexivity. Qed.

(** ** C97 *)
(** A module whose code has returned or raised keeps its attributes; if its class is then
    importlib's _LazyModule, it keeps this class. *)
Theorem C97_for_good : forall code mods las fuel css sch ps s,
  sched_run sch (map (tthread code fuel) css, mkst (tinit mods las) ∅) = Some (ps, s) ->
  forall sch2 ps2 s2 i m, sched_run sch2 (ps, s) = Some (ps2, s2) ->
  t_mods (dat s) !! i = Some m -> t_run m <> Fresh -> t_run m <> Running ->
  exists m2, t_mods (dat s2) !! i = Some m2 /\ t_run m2 = t_run m /\ t_attrs m2 = t_attrs m /\ (t_cls m = KImp -> t_cls m2 = KImp).
Proof. exact stays. Qed.
Print Assumptions C97_for_good.
(** Refuted: 'an attribute that the module has can be accessed'.  While one thread loads host,
    another one that wants LineHostBuffer for the first time gets AttributeError (the method
    load_deps has gone with the class); the next time it gets the class. *)
Theorem C97_attribute_refuted : exists sch ps s,
  sched_run sch (map (tthread pkg_code 9) [[Attr 1; Attr 1]; [Attr 2]], mkst (tinit pkg_mods pkg_las) ∅) = Some (ps, s) /\
  ps = [Ret [Fail AttributeError; Good (VVal 31)]; Ret [Good (VVal 30)]].
Proof. exact race_attribute. Qed.
Print Assumptions C97_attribute_refuted.
(** Refuted: 'Once the module is actually loaded, [...] the class of the module will be replaced
    by the actual module class' (utils.py:143-146). *)
Theorem C97_class_refuted : exists sch ps s m,
  sched_run sch (map (tthread pkg_code 9) [[Attr 1]; [Attr 2]], mkst (tinit pkg_mods pkg_las) ∅) = Some (ps, s) /\
  ps = [Ret [Good (VVal 31)]; Ret [Good (VVal 30)]] /\ t_mods (dat s) !! 2 = Some m /\ t_run m = Over true /\ t_cls m = KImp.
Proof. exact race_class. Qed.
Print Assumptions C97_class_refuted.
(** Refuted: 'host can be loaded'.  One thread loads host while another one loads webtools;
    the code of host raises ImportError and is never run again: the names of host are lost for
    this process. *)
Theorem C97_load_refuted : exists sch ps s m,
  sched_run sch (map (tthread pkg_code 9) [[Attr 1; Attr 1; Attr 2]; [Access 1 "SafePoolManager"%string]], mkst (tinit pkg_mods pkg_las) ∅) = Some (ps, s) /\
  ps = [Ret [Fail ImportError; Fail AttributeError; Fail AttributeError]; Ret [Good (VVal 20)]] /\
  t_mods (dat s) !! 2 = Some m /\ t_run m = Over false /\ t_attrs m = ∅.
Proof. exact race_load. Qed.
Print Assumptions C97_load_refuted.
