(** * PropLazyCls: C84, C85 *)
From stdpp Require Import gmap strings.
From Coq Require Import String.
From Coq Require Import List Bool Arith Lia.
From Verif Require Import Lazy LazySpec LazyProofs LazyCls LazyClsProofs LazyInit LazyInitProofs.
Import ListNotations.
Local Open Scope nat_scope.

(** ** An example: the set-up of /repo/syncstream/__init__.py:42-52 *)
(** Module 0 is the package, module 1 is syncstream.file, which defines the class VObj 1
    (with parse_lines); "broken" raises when it is loaded. *)
Definition cls_env : penv := mkpenv
  (fun n => if existsb (String.eqb n) ["syncstream"; "syncstream.file"; "syncstream.broken"; "fasteners"]%string then Found LdGood else NotFound)
  (fun n => if String.eqb n "syncstream.file" then [SDef "LineFileBuffer" (VObj 1)]
            else if String.eqb n "syncstream.broken" then [SRaise 0] else [])%string.
Definition cls_objs : cenv := mkcenv
  (fun v => match v with VObj _ => true | _ => false end)
  (fun v a => match v with VObj 1 => String.eqb a "parse_lines" || String.eqb a "write" | _ => false end)
  (fun v => []).
Definition cls_setup : list dop :=
  [DPackage (LPlain "syncstream" ∅);
   DPackage (LImport (mkargs "file" (Some "syncstream") false ["fasteners"] RelNone));
   DPackage (LAttr 1 "LineFileBuffer" "syncstream")]%string.
Definition cls_start : dstate := mkd (mkw ∅ [] [] []) [] [].
Definition cls_results (os : list dop) : list (res dout) := skipn 3 (fst (drun cls_env cls_objs 5 (cls_setup ++ os) cls_start)).

(** ** C84 *)
(** A class statement with a lazy attribute among the bases: if it does not raise, then
    what it makes is no class.  At any later time calling it raises, every attribute of it
    raises (also those defined in its body), isinstance() with it raises, and a class
    statement that has it among the bases raises. *)
Theorem C84_not_a_class : forall E C fuel d name ks body d1 k j, In k ks -> d_names d !! k = Some (KLazy j) ->
  dstep E C fuel (DClass name ks body) d = (Ok DBound, d1) ->
  forall os, let d2 := snd (drun E C fuel os d1) in let n := length (d_names d) in
  fst (dstep E C fuel (DCall n) d2) = Err AttributeErr /\
  (forall a, la_protected a = false -> fst (dstep E C fuel (DGet n a) d2) = Err AttributeErr) /\
  (forall x, exists e, fst (dstep E C fuel (DIs x n) d2) = Err e) /\
  (forall name' ks' body', In n ks' -> exists e, fst (dstep E C fuel (DClass name' ks' body') d2) = Err e).
Proof. exact not_a_class. Qed.
Print Assumptions C84_not_a_class.
(** With one lazy attribute as base it raises only if loading the module does (and not if
    that raises AttributeError); the module is loaded. *)
Theorem C84_class_statement : forall E C fuel name j body w, (forall v, member C v "__mro_entries__" = false) ->
  class_stmt E C fuel name [KLazy j] body w =
  (match fst (load_module E fuel j w) with
   | Ok _ | Err AttributeErr => Ok (KText name [KLazy j] body)
   | Err e => Err e
   end, snd (load_module E fuel j w)).
Proof. exact class_of_lazy. Qed.
Print Assumptions C84_class_statement.
(** In no program isinstance() with a lazy attribute is true. *)
Theorem C84_isinstance : forall E C fuel os w x k j, let d := snd (drun E C fuel os (mkd w [] [])) in
  d_names d !! k = Some (KLazy j) -> fst (dstep E C fuel (DIs x k) d) <> Ok (DBool true).
Proof. exact never_instance. Qed.
Print Assumptions C84_isinstance.
(** Calls and attributes work: once the lazy attribute is loaded, with the class [v], every
    call at any later time makes an instance of [v], and the attributes are those of [v]. *)
Theorem C84_calls : forall E C fuel d k j v w1, d_names d !! k = Some (KLazy j) ->
  load_module E fuel j (d_world d) = (Ok v, w1) -> is_type C v = true -> v <> VNone ->
  forall os, let d2 := snd (drun E C fuel os (with_world w1 d)) in
  dstep E C fuel (DCall k) d2 = (Ok DNew, mkd (d_world d2) (d_names d2) (d_insts d2 ++ [Inst (KObj v)])) /\
  (forall a, la_protected a = false -> member C v a = true -> dstep E C fuel (DGet k a) d2 = (Ok (DGave (MOf (KObj v) a)), d2)) /\
  isinstance E C fuel (Inst (KObj v)) (KObj v) (d_world d2) = (Ok true, d_world d2).
Proof. exact call_lazy. Qed.
Print Assumptions C84_calls.
(** The class itself can be inherited from, and its methods overridden. *)
Theorem C84_afterwards : forall E C fuel name body v w, is_type C v = true ->
  let k := KClass name [KObj v] body in
  class_stmt E C fuel name [KObj v] body w = (Ok k, w) /\
  la_call E C fuel k w = (Ok (New (Inst k)), w) /\
  (forall a, In a body -> resolve C k a = Some k) /\
  (forall a, ~ In a body -> member C v a = true -> resolve C k a = Some (KObj v)) /\
  isinstance E C fuel (Inst k) (KObj v) w = (Ok true, w).
Proof. exact class_afterwards. Qed.
Print Assumptions C84_afterwards.
(** The docstring of LineFileBuffer.parse_lines (file.py:375-376): "Users could inherit this
    method and override it".  With the name exported by the package, before it is used in
    another way: the class statement is accepted, the class cannot be used. *)
Theorem C84_inherit_refuted : exists E C fuel d m, lattrs (d_world d) !! 0 = Some (mkla m "LineFileBuffer" "syncstream" VNone) /\
  fst (drun E C fuel [DName 0; DClass "Searching" [0] ["parse_lines"]; DCall 1]%string d) = [Ok DBound; Ok DBound; Err AttributeErr].
Proof. exists cls_env, cls_objs, 5, (snd (drun cls_env cls_objs 5 cls_setup cls_start)), 1. split; vm_compute; reflexivity. Qed.
Print Assumptions C84_inherit_refuted.
(** An instance made by calling the exported name is no instance of it. *)
Theorem C84_isinstance_refuted : exists E C fuel d m, lattrs (d_world d) !! 0 = Some (mkla m "LineFileBuffer" "syncstream" VNone) /\
  fst (drun E C fuel [DName 0; DCall 0; DIs 0 0]%string d) = [Ok DBound; Ok DNew; Ok (DBool false)].
Proof. exists cls_env, cls_objs, 5, (snd (drun cls_env cls_objs 5 cls_setup cls_start)), 1. split; vm_compute; reflexivity. Qed.
Print Assumptions C84_isinstance_refuted.
(** The same class statement once more, with the name read from the package again. *)
Example C84_case :
  cls_results [DName 0; DClass "Searching" [0] ["parse_lines"]; DRead 0 "LineFileBuffer"; DClass "Searching" [2] ["parse_lines"]; DCall 3;
               DIs 0 2; DIs 0 0; DGet 1 "parse_lines"; DGet 0 "parse_lines"; DClass "More" [1] []; DClass "Both" [0; 2] []; DCall 0]%string
  = [Ok DBound; Ok DBound; Ok DBound; Ok DBound; Ok DNew; Ok (DBool true); Ok (DBool false); Err AttributeErr;
     Ok (DGave (MOf (KObj (VObj 1)) "parse_lines")); Err AttributeErr; Err TypeErr; Ok DNew].
Proof. vm_compute. reflexivity. Qed.
Example C84_broken_case :
  cls_results [DPackage (LImport (mkargs "broken" (Some "syncstream") false [] RelNone)); DPackage (LAttr 2 "X" "syncstream"); DName 1;
               DClass "Sub" [0] []; DClass "Sub" [0] []; DCall 1]%string
  = [Ok (DDone (LMod 2)); Ok (DDone (LHandle (Some 1))); Ok DBound; Err (BodyErr 0); Ok DBound; Err AttributeErr].
Proof. vm_compute. reflexivity. Qed.

(** ** C85 *)
(** Importing the package with any choice of installed dependencies: never raises, runs no
    code of file.py, webtools.py and host.py, changes nothing else in sys.modules; an
    exported name is None exactly if a dependency of its module is missing, and otherwise a
    lazy attribute for this name. *)
Theorem C85_init : forall E present w, modules_exist w -> installed E w present -> not_imported E w ->
  let pf := present "fasteners"%string in let pw := present "urllib3"%string && present "packaging"%string in let ph := pw && present "flask"%string in
  exists x w1, package_init E w = (Ok x, w1) /\ runs w1 = runs w /\
  mods w1 = <["syncstream.host"%string := EMod (x_host x)]> (<["syncstream.webtools"%string := EMod (x_webtools x)]> (<["syncstream.file"%string := EMod (x_file x)]> (mods w))) /\
  class_of (x_file x) w1 = Some (state_of pf) /\ class_of (x_webtools x) w1 = Some (state_of pw) /\ class_of (x_host x) w1 = Some (state_of ph) /\
  exported pf (x_file x) "LineFileBuffer" (x_LineFileBuffer x) w1 /\ exported ph (x_host x) "LineHostBuffer" (x_LineHostBuffer x) w1 /\
  exported ph (x_host x) "LineHostMirror" (x_LineHostMirror x) w1 /\ exported ph (x_host x) "LineHostReader" (x_LineHostReader x) w1.
Proof. exact init_ok. Qed.
Print Assumptions C85_init.
(** A dependency that is imported but has no __spec__ makes the import of the whole package
    fail, though every dependency is optional (required=False). *)
Theorem C85_optional_refuted : exists E w, modules_exist w /\ not_imported E w /\
  (forall n, In n ["urllib3"; "packaging"; "flask"]%string -> exists_spec E n w) /\
  mods w !! "fasteners"%string = Some (EMod 0) /\ class_of 0 w = Some CModule /\ fst (package_init E w) = Err ValueErr.
Proof.
  exists (mkpenv (fun n => Found LdGood) (fun n => [])), (mkw {["fasteners"%string := EMod 0]} [mkmod "fasteners" CModule ∅ [] false] [] []).
  split. { intros d j H. cbn in H. apply lookup_singleton_Some in H. destruct H as [_ H]. injection H as <-. discriminate. }
  split. { intros n H. split; [|reflexivity]. cbn in H |- *. apply lookup_singleton_ne. intros <-. intuition discriminate. }
  split. { intros n H. exists LdGood. unfold find_spec. cbn [mods]. rewrite lookup_singleton_ne by (intros <-; cbn in H; intuition discriminate). reflexivity. }
  split; [apply lookup_singleton|]. split; reflexivity.
Qed.
Print Assumptions C85_optional_refuted.
(** flask is missing: the names of host.py are None, webtools and file can be used. *)
Definition no_flask : penv := mkpenv (fun n => if String.eqb n "flask" then NotFound else Found LdGood)
  (fun n => if String.eqb n "syncstream.file" then [SDef "LineFileBuffer" (VObj 1)] else [])%string.
Example C85_case :
  let r := package_init no_flask (mkw {["syncstream"%string := EMod 0]} [mkmod "syncstream" CModule ∅ [] true] [] []) in
  fst r = Ok (mkexp 1 2 3 (Some 0) None None None) /\ fst (load_module no_flask 5 0 (snd r)) = Ok (VObj 1) /\
  runs (snd (load_module no_flask 5 0 (snd r))) = [1].
Proof. vm_compute. repeat split; reflexivity. Qed.
Example C85_hyps : let w := mkw {["syncstream"%string := EMod 0]} [mkmod "syncstream" CModule ∅ [] true] [] [] in
  modules_exist w /\ installed no_flask w (fun d => negb (String.eqb d "flask")) /\ not_imported no_flask w.
Proof.
  split. { intros d j H. cbn in H. apply lookup_singleton_Some in H. destruct H as [_ H]. injection H as <-. discriminate. }
  split.
  - intros d H. cbn in H. destruct H as [<-|[<-|[<-|[<-|[]]]]]; cbn; try (exists LdGood; reflexivity); reflexivity.
  - intros n H. cbn in H. destruct H as [<-|[<-|[<-|[]]]]; split; reflexivity.
Qed.
