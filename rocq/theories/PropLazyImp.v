(** * PropLazyImp: C104

    Proofs in LazyImpProofs.v. *)
From stdpp Require Import gmap strings.
From Coq Require Import String.
From Coq Require Import List Bool Arith Lia.
From Verif Require Import Prog ProcRun Lazy LazyImp LazyImpSpec LazyImpProofs.
Import ListNotations.
Local Open Scope nat_scope.

(** One thread alone: the calls are those of Lazy.v (so C61, C62, C72 and C74 are about them). *)
Theorem C104_one_thread : forall E t args w mk k, exists mk',
  run t (i_import E t args) (mkst (mkiw w mk) k) =
  (Good (fst (lazy_import E args w)), mkst (mkiw (snd (lazy_import E args w)) mk') k).
Proof. exact import_run. Qed.
Print Assumptions C104_one_thread.

(** Any number of threads, at any time: no code was run, existing modules are as they were,
    every new one was made by a thread that asks for its name and something is registered
    under its name; no thread makes two modules of one name. *)
Theorem C104_objects : forall E css w sch ps s, names_right w -> sched_run sch (i_pool E css, i_start w) = Some (ps, s) ->
  let w' := iw (dat s) in
  runs w' = runs w /\ lattrs w' = lattrs w /\
  exists new owners, heap w' = heap w ++ new /\
    Forall2 (fun t m => asks css t (m_name m) /\ registered (m_name m) w') owners new /\
    List.NoDup (combine owners (map m_name new)).
Proof. exact c104_objects. Qed.
Print Assumptions C104_objects.

(** A call returns or raises; a module that it returns has the name that was asked for, and
    something is registered under it. *)
Theorem C104_results : forall E css w sch ps s t k args r, names_right w -> sched_run sch (i_pool E css, i_start w) = Some (ps, s) ->
  called css ps t k args r ->
  exists x, r = Good x /\ forall i, x = Ok i ->
    (exists m, heap (iw (dat s)) !! i = Some m /\ m_name m = full_name args) /\ registered (full_name args) (iw (dat s)).
Proof. exact c104_results. Qed.
Print Assumptions C104_results.

(** When all calls have ended, every new module is lazy or a placeholder. *)
Theorem C104_complete : forall E css w sch ps s i m, names_right w -> sched_run sch (i_pool E css, i_start w) = Some (ps, s) ->
  Forall (fun p => finished p = true) ps -> heap (iw (dat s)) !! i = Some m -> heap w !! i = None -> m_class m <> CModule.
Proof. exact c104_complete. Qed.
Print Assumptions C104_complete.

(** What is registered before the threads start stays registered, and every call gives it. *)
Theorem C104_known : forall E css w sch ps s n i, mods w !! n = Some (EMod i) -> sched_run sch (i_pool E css, i_start w) = Some (ps, s) ->
  mods (iw (dat s)) !! n = Some (EMod i) /\
  forall t k args r, called css ps t k args r -> full_name args = n -> r = Good (Ok i).
Proof. exact c104_known. Qed.
Print Assumptions C104_known.

(** If only one thread asks for a name, its calls that succeed all give the module that is
    registered, whatever the other threads import. *)
Theorem C104_alone : forall E css w sch ps s t n, (forall u, asks css u n -> u = t) -> sched_run sch (i_pool E css, i_start w) = Some (ps, s) ->
  forall k args i, called css ps t k args (Good (Ok i)) -> full_name args = n -> mods (iw (dat s)) !! n = Some (EMod i).
Proof. exact c104_alone. Qed.
Print Assumptions C104_alone.

(** If everything that the threads ask for can be found, no call fails. *)
Theorem C104_found : forall E css w sch ps s t k args r, names_right w -> (forall cs a, In cs css -> In a cs -> plain_args E w a) ->
  sched_run sch (i_pool E css, i_start w) = Some (ps, s) -> called css ps t k args r -> exists i, r = Good (Ok i).
Proof. exact c104_found. Qed.
Print Assumptions C104_found.

(** ** Examples and refutations *)
(** "m" and "dep" can be found, "opt" cannot. *)
Definition i_env : penv := mkpenv
  (fun n => if existsb (String.eqb n) ["m"; "dep"]%string then Found LdGood else NotFound)
  (fun n => if String.eqb n "m" then [SDef "a" (VObj 1)] else []).
Definition i_call (n : string) (req : bool) : iargs := mkargs n None req ["dep"%string] RelNone.
Definition i_begin : world := mkw ∅ [] [] [].
Definition i_go (pl : list (nat * nat)) (css : list (list iargs)) := plan pl (i_pool i_env css, i_start i_begin).
Definition i_results (c : config (C:=icmd) (D:=iworld) (list (outcome (res nat)))) : list (option (list (outcome (res nat)))) :=
  map (fun p => match p with Ret r => Some r | _ => None end) (fst c).
Lemma i_begin_right : names_right i_begin.
Proof. intros n i H. discriminate. Qed.

(** Refuted: two threads that import one module get the same object.  The one whose object is
    not registered gets ValueError when it uses the module, although the code of the module was
    run; it is run again for the other one. *)
Theorem C104_same_module_refuted : exists E w args sch ps s, names_right w /\ plain_args E w args /\
  sched_run sch (i_pool E [[args]; [args]], i_start w) = Some (ps, s) /\ ps = [Ret [Good (Ok 1)]; Ret [Good (Ok 0)]] /\
  mods (iw (dat s)) !! full_name args = Some (EMod 1) /\
  (let '(r, w1) := getattr E 5 0 "a" (iw (dat s)) in let '(r2, w2) := getattr E 5 1 "a" w1 in
   r = Err ValueErr /\ r2 = Ok (VObj 1) /\ runs w2 = [0; 1]).
Proof.
  exists i_env, i_begin, (i_call "m" true). eexists ([0; 0; 0; 0; 0] ++ repeat 1 7 ++ [0; 0]), _, _. split; [exact i_begin_right|]. split.
  { split; [discriminate|]. split; [split; reflexivity|]. split; [repeat constructor|exact I]. }
  split; [vm_compute; reflexivity|]. vm_compute. repeat split; reflexivity.
Qed.
Print Assumptions C104_same_module_refuted.

(** Refuted: with required=False a module that is missing never makes lazy_import fail. *)
Theorem C104_optional_refuted : exists E w args sch sch' ps s ps' s', i_required args = false /\ finder E (full_name args) = NotFound /\
  sched_run sch (i_pool E [[args]; [args]], i_start w) = Some (ps, s) /\ ps = [Ret [Good (Ok 0)]; Ret [Good (Err ModuleReplace)]] /\
  sched_run sch' (i_pool E [[args]; [args]], i_start w) = Some (ps', s') /\ ps' = [Ret [Good (Ok 0)]; Ret [Good (Err ValueErr)]].
Proof.
  exists i_env, i_begin, (i_call "opt" false). eexists ([1; 1; 1; 1] ++ repeat 0 6 ++ [1]), ([1; 1; 1] ++ repeat 0 6 ++ [1]), _, _, _, _.
  split; [reflexivity|]. split; [reflexivity|]. split; [vm_compute; reflexivity|]. split; [vm_compute; reflexivity|].
  split; vm_compute; reflexivity.
Qed.
Print Assumptions C104_optional_refuted.

(** Refuted: what lazy_import returns can be used.  A thread may get the object that another
    one has registered but not made lazy yet; then nothing loads the module. *)
Theorem C104_usable_refuted : exists E w args sch ps s, plain_args E w args /\
  sched_run sch (i_pool E [[args]; [args]], i_start w) = Some (ps, s) /\ called [[args]; [args]] ps 1 0 args (Good (Ok 0)) /\
  (exists s2, sched_run [0] (ps, s) = Some ([Ret [Good (Ok 0)]; Ret [Good (Ok 0)]], s2) /\ fst (getattr E 5 0 "a" (iw (dat s2))) = Ok (VObj 1)) /\
  forall fuel, getattr E fuel 0 "a" (iw (dat s)) = (Err AttributeErr, iw (dat s)).
Proof.
  exists i_env, i_begin, (i_call "m" true). eexists (repeat 0 6 ++ [1]), _, _. split.
  { split; [discriminate|]. split; [split; reflexivity|]. split; [repeat constructor|exact I]. }
  split; [vm_compute; reflexivity|]. split; [eexists _, _; repeat split; reflexivity|].
  split; [eexists; split; vm_compute; reflexivity|]. intros fuel. reflexivity.
Qed.
Print Assumptions C104_usable_refuted.

(** Two threads: "m" is made twice, or once. *)
Example C104_case :
  let css := [[i_call "m" true; i_call "opt" false; i_call "m" false]; [i_call "m" true; i_call "opt" true]] in
  i_results (i_go [(0, 4); (1, 3); (0, 100); (1, 100)] css) =
    [Some [Good (Ok 0); Good (Ok 1); Good (Ok 0)]; Some [Good (Ok 2); Good (Ok 1)]] /\
  i_results (i_go [(0, 9); (1, 1); (0, 100); (1, 100)] css) =
    [Some [Good (Ok 0); Good (Ok 1); Good (Ok 0)]; Some [Good (Ok 0); Good (Ok 1)]].
Proof. split; vm_compute; reflexivity. Qed.
Example C104_case_alone : (forall u, asks [[i_call "m" true]; [i_call "opt" false; i_call "opt" true]] u "opt"%string -> u = 1) /\
  names_right i_begin /\ plain_args i_env i_begin (i_call "m" true).
Proof.
  split; [|split; [exact i_begin_right|]].
  - intros [|[|u]] (cs & args & Hu & Ha & Hn); [|reflexivity|discriminate]. injection Hu as <-. destruct Ha as [<-|[]]. discriminate.
  - split; [discriminate|]. split; [split; reflexivity|]. split; [repeat constructor|exact I].
Qed.
