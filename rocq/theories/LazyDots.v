(** * LazyDots: lazy_import of modules in packages (/repo/syncstream/utils.py:391-412, 499-552)

    Lazy.v has names without dots.  importlib.util.find_spec("a.b") first imports "a" in the
    ordinary way and then asks it for __path__; this file has this part.  A name is the list of
    its components; with a package argument ("."+name, package) it is the full name.
    Left out, because Lazy.v has it: rel_dependencies, loaders, attributes of modules.  The code
    of a module does not import anything here; it may raise.  An ordinary import of a module
    whose code raises leaves no entry; a lazy module whose code raises stays registered and
    behaves like a loaded one for importlib (its class is importlib's, with "is_loading"). *)
From stdpp Require Import gmap strings.
From Coq Require Import String.
From Coq Require Import List Bool Arith.
From Verif Require Import Lazy.
Import ListNotations.
Local Open Scope nat_scope.

Notation name := (list string).
(** Entries of sys.modules: a lazy module that is not loaded, a loaded module (that is a
    package or not), a placeholder, None. *)
Inductive kind := KLazy | KModule (pkg : bool) | KPlaceholder | KNone.
(** [ran]: the modules whose code was started, in this order. *)
Record dworld := mkdw { reg : gmap name kind; ran : list name }.
(** The files: [Some true]: a package, [Some false]: another module; [fails]: its code raises. *)
Record disk := mkdisk { on_disk : name -> option bool; fails : name -> bool }.

(** The name of the package of a module. *)
Definition parent (n : name) : name := removelast n.
Definition put (n : name) (k : kind) (w : dworld) : dworld := mkdw (<[n := k]> (reg w)) (ran w).
(** getattr(module, "__path__") works: not for lazy modules and placeholders
    (utils.py:83, 147-152, 265, 330-335). *)
Definition has_path (n : name) (w : dworld) : bool := match reg w !! n with Some (KModule true) => true | _ => false end.

Section Disk.
  Variable D : disk.

  (** _load_unlocked of importlib: the code is run. *)
  Definition run_code (n : name) (pkg : bool) (w : dworld) : res unit * dworld :=
    let w1 := mkdw (reg w) (ran w ++ [n]) in
    if fails D n then (Err (BodyErr 0), w1) else (Ok tt, put n (KModule pkg) w1).

  (** An ordinary import; [r] is the name backwards.  importlib._bootstrap._find_and_load. *)
  Fixpoint import_rev (r : list string) (w : dworld) : res unit * dworld :=
    match reg w !! rev r with
    | Some KNone => (Err ModuleNotFound, w)
    | Some _ => (Ok tt, w)
    | None =>
        match r with
        | [] => (Err ValueErr, w)
        | c :: up =>
            let '(o, w1) :=
              match up with
              | [] => (Ok tt, w)
              | _ => match reg w !! rev up with None => import_rev up w | Some _ => (Ok tt, w) end
              end in
            match o with
            | Err e => (Err e, w1)
            | Ok _ =>
                if match up with [] => true | _ => has_path (rev up) w1 end then
                  match on_disk D (rev r) with
                  | None => (Err ModuleNotFound, w1)
                  | Some pkg => run_code (rev r) pkg w1
                  end
                else (Err ModuleNotFound, w1)
            end
        end
    end.
  Definition import_plain (n : name) (w : dworld) : res unit * dworld := import_rev (rev n) w.

  (** importlib.util.find_spec *)
  Definition find_dots (n : name) (w : dworld) : res bool * dworld :=
    match reg w !! n with
    | Some KNone => (Ok false, w)
    | Some KPlaceholder => (Err ValueErr, w)
    | Some _ => (Ok true, w)
    | None =>
        let found := match on_disk D n with Some _ => true | None => false end in
        match parent n with
        | [] => (Ok found, w)
        | p =>
            let '(o, w1) := import_plain p w in
            match o with
            | Err e => (Err e, w1)
            | Ok _ => if has_path p w1 then (Ok found, w1) else (Err ModuleNotFound, w1)
            end
        end
    end.

  (** utils.py:391-412 *)
  Fixpoint deps_missing (deps : list name) (w : dworld) : res bool * dworld :=
    match deps with
    | [] => (Ok false, w)
    | d :: deps' =>
        let '(o, w1) := find_dots d w in
        match o with
        | Err e => (Err e, w1)
        | Ok false => (Ok true, w1)
        | Ok true => deps_missing deps' w1
        end
    end.

  (** utils.py:480-497; the class of the result *)
  Definition placeholder_dots (n : name) (required : bool) (w : dworld) : res kind * dworld :=
    if required then (Err ModuleNotFound, w)
    else match reg w !! n with
         | None | Some KNone => (Ok KPlaceholder, put n KPlaceholder w)
         | Some _ => (Err ModuleReplace, w)
         end.

  (** utils.py:499-552; the class of the module that is returned *)
  Definition import_dots (n : name) (required : bool) (deps : list name) (w : dworld) : res kind * dworld :=
    match reg w !! n with
    | Some ((KLazy | KModule _ | KPlaceholder) as k) => (Ok k, w)
    | _ =>
        let '(o, w1) := deps_missing deps w in
        match o with
        | Err e => (Err e, w1)
        | Ok miss =>
            let '(f, w2) := find_dots n w1 in
            match f with
            | Err e => (Err e, w2)
            | Ok found => if miss || negb found then placeholder_dots n required w2 else (Ok KLazy, put n KLazy w2)
            end
        end
    end.

  (** The first access to a lazy module (C73): its code is run. *)
  Definition use_dots (n : name) (w : dworld) : res unit * dworld :=
    match reg w !! n with
    | Some KLazy =>
        let w1 := put n (KModule (match on_disk D n with Some true => true | _ => false end)) (mkdw (reg w) (ran w ++ [n])) in
        (if fails D n then Err (BodyErr 0) else Ok tt, w1)
    | _ => (Ok tt, w)
    end.

  Inductive dop := DImport (n : name) (required : bool) (deps : list name) | DUse (n : name) | DPlain (n : name).
  Definition dstep (o : dop) (w : dworld) : res unit * dworld :=
    match o with
    | DImport n required deps => let '(r, w') := import_dots n required deps w in (match r with Ok _ => Ok tt | Err e => Err e end, w')
    | DUse n => use_dots n w
    | DPlain n => import_plain n w
    end.
  Fixpoint drun_dots (os : list dop) (w : dworld) : list (res unit) * dworld :=
    match os with
    | [] => ([], w)
    | o :: os' => let '(r, w1) := dstep o w in let '(rs, w2) := drun_dots os' w1 in (r :: rs, w2)
    end.
End Disk.
