(** * Lazy: model of /repo/syncstream/utils.py (lazy_import, placeholders, lazy attributes)

    One thread.  [importlib] is the one of CPython 3.11.9 and later (a lazy module has the
    flag "is_loading", which is never reset).  Names are strings without leading dots.
    Not modelled: the texts of exceptions, __doc__, __repr__ (see LazyRepr), custom loaders with a
    create_module of their own, finders that change sys.modules (importing the parent of a
    dotted name), code that deletes entries of sys.modules. *)
From stdpp Require Import gmap strings.
From Coq Require Import String.
From Coq Require Import List Bool Arith.
Import ListNotations.
Local Open Scope nat_scope.

Inductive perr :=
| ModuleNotFound | ModuleReplace | ImportErr | AttributeErr | TypeErr | ValueErr | KeyErr
| BodyErr (n : nat)      (* an exception of the code of a module *)
| NoFuel.                (* not an exception: the bound on the recursion was too small *)
Inductive res (X : Type) := Ok (x : X) | Err (e : perr).
Arguments Ok {X} x.
Arguments Err {X} e.

(** Attribute values; [VMeta]: attributes that every module has (__name__, __spec__, ...). *)
Inductive val := VNone | VObj (n : nat) | VMeta.

(** The class of a module object: utils._LazyModule, importlib's _LazyModule (while the
    code of the module is running, and for ever if that raised), ModuleType,
    utils._ModulePlaceholder. *)
Inductive mclass := CLazy | CLoading | CModule | CPlaceholder.
(** [m_attrs]: the attributes set by code; [m_deps]: __dep_modules__ (utils.py:382);
    [m_spec]: whether __spec__ is set. *)
Record modobj := mkmod { m_name : string; m_class : mclass; m_attrs : gmap string val; m_deps : list nat; m_spec : bool }.

(** Entries of sys.modules: None, a module object, something else. *)
Inductive entry := ENone | EMod (i : nat) | EOther (has_spec : bool).
(** [_LazyAttribute] objects (utils.py:188-207). *)
Record lattr := mkla { la_mod : nat; la_attr : string; la_parent : string; la_obj : val }.

(** [runs]: the module objects whose code was started, in this order. *)
Record world := mkw { mods : gmap string entry; heap : list modobj; lattrs : list lattr; runs : list nat }.

(** ** Arguments of lazy_import (utils.py:554-561) *)
(** rel_dependencies: None, a text (not allowed), or modules, given by the name they are
    registered under ([None]: some other object). *)
Inductive relarg := RelNone | RelStr | RelMods (l : list (option string)).
(** [i_deps]: dependencies as a sequence of names ([] for None, one name for a single text). *)
Record iargs := mkargs { i_name : string; i_package : option string; i_required : bool; i_deps : list string; i_rel : relarg }.

(** ** The environment: the finders of Python for names that are not in sys.modules, and
    the code of the modules. *)
Inductive loader := LdNone | LdBad (* no exec_module *) | LdGood.
Inductive found := NotFound | Found (l : loader) | FindRaises (e : perr).
Inductive stmt :=
| SUse (n a : string)                             (* access attribute a of the module registered as n *)
| SDef (a : string) (v : val)                     (* define an attribute of this module *)
| SRaise (n : nat)
| SLazy (args : iargs)                            (* call lazy_import *)
| SPlain (n : string) (attrs : gmap string val).  (* an ordinary import of a module that is not lazy *)
Record penv := mkpenv { finder : string -> found; code : string -> list stmt }.

Section Env.
  Variable E : penv.

  (** [full_name = ".".join(map(str, filter(bool, (package, name))))], utils.py:523 *)
  Definition full_name (args : iargs) : string :=
    match i_package args with
    | None | Some ""%string => i_name args
    | Some p => match i_name args with ""%string => p | n => (p +:+ "." +:+ n)%string end
    end.

  Definition class_of (i : nat) (w : world) : option mclass := option_map m_class (heap w !! i).
  Definition set_mod (i : nat) (f : modobj -> modobj) (w : world) : world :=
    mkw (mods w) (alter f i (heap w)) (lattrs w) (runs w).
  Definition set_class (c : mclass) (m : modobj) : modobj := mkmod (m_name m) c (m_attrs m) (m_deps m) (m_spec m).
  Definition set_attrs (f : gmap string val -> gmap string val) (m : modobj) : modobj :=
    mkmod (m_name m) (m_class m) (f (m_attrs m)) (m_deps m) (m_spec m).
  Definition no_deps (m : modobj) : modobj := mkmod (m_name m) (m_class m) (m_attrs m) [] (m_spec m).
  (** A new module object, registered in sys.modules. *)
  Definition register (n : string) (m : modobj) (w : world) : nat * world :=
    (length (heap w), mkw (<[n := EMod (length (heap w))]> (mods w)) (heap w ++ [m]) (lattrs w) (runs w)).

  (** importlib.util.find_spec(fullname) *)
  Definition find_spec (n : string) (w : world) : found :=
    match mods w !! n with
    | None => finder E n
    | Some ENone => NotFound
    | Some (EMod i) => match heap w !! i with Some m => if m_spec m then Found LdGood else FindRaises ValueErr | None => NotFound end
    | Some (EOther has) => if has then Found LdGood else FindRaises ValueErr
    end.

  (** utils.py:391-412 *)
  Fixpoint check_is_dep_missing (deps : list string) (w : world) : res bool :=
    match deps with
    | [] => Ok false
    | dep :: deps' =>
        match find_spec dep w with
        | NotFound => Ok true
        | Found _ => check_is_dep_missing deps' w
        | FindRaises e => Err e
        end
    end.

  (** The modules of rel_dependencies, if all of them are modules. *)
  Fixpoint rel_mods (l : list (option string)) (w : world) : option (list nat) :=
    match l with
    | [] => Some []
    | Some n :: l' =>
        match mods w !! n, rel_mods l' w with Some (EMod i), Some r => Some (i :: r) | _, _ => None end
    | None :: _ => None
    end.
  Definition is_lazy (i : nat) (w : world) : bool := match class_of i w with Some CLazy => true | _ => false end.
  (** utils.py:414-450 *)
  Definition gather (rel : relarg) (missing : bool) (w : world) : res (list nat) :=
    if missing then Ok []
    else match rel with
         | RelNone => Ok []
         | RelStr => Err TypeErr
         | RelMods l =>
             match rel_mods l w with
             | None => Err ModuleNotFound
             | Some r => Ok (List.filter (fun i => is_lazy i w) r)
             end
         end.

  (** utils.py:452-497 *)
  Definition create_module_placeholder (n : string) (required : bool) (w : world) : res nat * world :=
    if required then (Err ModuleNotFound, w)
    else match mods w !! n with
         | None | Some ENone => let '(i, w') := register n (mkmod n CPlaceholder ∅ [] false) w in (Ok i, w')
         | Some _ => (Err ModuleReplace, w)
         end.

  (** utils.py:499-552 *)
  Definition lazy_import (args : iargs) (w : world) : res nat * world :=
    let n := full_name args in
    match mods w !! n with
    | Some (EMod i) => (Ok i, w)                                        (* 525-527 *)
    | _ =>
        match check_is_dep_missing (i_deps args) w with                 (* 530 *)
        | Err e => (Err e, w)
        | Ok missing =>
            match gather (i_rel args) missing w with                    (* 532-534 *)
            | Err e => (Err e, w)
            | Ok deps =>
                match match i_package args with                         (* 536-539 *)
                      | Some ""%string => FindRaises ImportErr
                      | _ => find_spec n w
                      end with
                | FindRaises e => (Err e, w)
                | NotFound => create_module_placeholder n (i_required args) w     (* 540-541 *)
                | Found l =>
                    if missing then create_module_placeholder n (i_required args) w
                    else match l with
                         | LdNone => (Err TypeErr, w)                   (* 542-546 *)
                         | LdBad => (Err TypeErr, w)                    (* LazyLoader.__init__ *)
                         | LdGood =>                                    (* 547-552 *)
                             let '(i, w') := register n (mkmod n CLazy ∅ deps true) w in (Ok i, w')
                         end
                end
            end
        end
    end.

  (** ** Attributes of modules *)

  (** Attributes that a module object has without any code (of the methods of [object],
      only the one that is used below). *)
  Definition provided (a : string) : bool :=
    existsb (String.eqb a) ["__repr__"; "__str__"; "__name__"; "__annotations__"; "__spec__"; "__class__"; "__dict__";
                            "__doc__"; "__loader__"; "__package__"; "__getattribute__"]%string.
  (** Those of them in [protected_kw] (utils.py:85-103), and the methods. *)
  Definition protected (a : string) : bool :=
    existsb (String.eqb a) ["__repr__"; "__str__"; "__name__"; "__annotations__"; "__spec__"; "__class__"; "__dict__";
                            "force_load"; "load_deps"]%string.
  (** ModuleType.__getattribute__ *)
  Definition plain_attr (m : modobj) (a : string) : res val :=
    match m_attrs m !! a with
    | Some v => Ok v
    | None => if provided a then Ok VMeta else Err AttributeErr
    end.
  (** utils.py:330-349; the class also has force_load and __all__ *)
  Definition placeholder_attr (m : modobj) (a : string) : res val :=
    if String.eqb a "__path__" then Err AttributeErr
    else match m_attrs m !! a with
         | Some v => Ok v
         | None => if provided a || existsb (String.eqb a) ["force_load"; "__all__"; "__file__"]%string then Ok VMeta else Err ImportErr
         end.

  (** utils.py:105-128: load_deps() calls force_load() of the lazy dependencies.
      force_load() calls importlib's __getattribute__ with the class still
      utils._LazyModule, so nothing is loaded (only __dep_modules__ is emptied). *)
  Fixpoint load_deps (fuel : nat) (i : nat) (w : world) : world :=
    match fuel with
    | O => w
    | S fuel' =>
        match heap w !! i with
        | None => w
        | Some m =>
            set_mod i no_deps
              (fold_left (fun w d => if is_lazy d w then load_deps fuel' d w else w) (m_deps m) w)
        end
    end.

  (** The attribute [a] of the module object [i]; [load]: run the code of a lazy module. *)
  Definition getattr_with (load : nat -> world -> res unit * world) (i : nat) (a : string) (w : world) : res val * world :=
    match heap w !! i with
    | None => (Err AttributeErr, w)
    | Some m =>
        match m_class m with
        | CModule | CLoading => (plain_attr m a, w)
        | CPlaceholder => (placeholder_attr m a, w)
        | CLazy =>                                                      (* utils.py:139-164 *)
            if String.eqb a "__path__" then (Err AttributeErr, w)
            else if protected a then (Ok (match m_attrs m !! a with Some v => v | None => VMeta end), w)
            else
              let w1 := load_deps (length (heap w)) i w in
              let '(r, w2) := load i w1 in
              match r with
              | Err e => (Err e, w2)
              | Ok _ => match heap w2 !! i with Some m2 => (plain_attr m2 a, w2) | None => (Err AttributeErr, w2) end
              end
        end
    end.

  (** An ordinary import of a module that is not lazy. *)
  Definition plain_import (n : string) (attrs : gmap string val) (w : world) : res unit * world :=
    match mods w !! n with
    | None => (Ok tt, snd (register n (mkmod n CModule attrs [] true) w))
    | Some ENone => (Err ModuleNotFound, w)
    | Some _ => (Ok tt, w)
    end.

  (** The code of the module object [i]. *)
  Definition stmt_with (load : nat -> world -> res unit * world) (i : nat) (s : stmt) (w : world) : res unit * world :=
    match s with
    | SRaise n => (Err (BodyErr n), w)
    | SDef a v => (Ok tt, set_mod i (set_attrs (insert a v)) w)
    | SUse n a =>
        match mods w !! n with
        | Some (EMod j) =>
            let '(r, w') := getattr_with load j a w in (match r with Ok _ => Ok tt | Err e => Err e end, w')
        | _ => (Err ModuleNotFound, w)
        end
    | SLazy args => let '(r, w') := lazy_import args w in (match r with Ok _ => Ok tt | Err e => Err e end, w')
    | SPlain n attrs => plain_import n attrs w
    end.
  Fixpoint body_with (load : nat -> world -> res unit * world) (i : nat) (ss : list stmt) (w : world) : res unit * world :=
    match ss with
    | [] => (Ok tt, w)
    | s :: ss' =>
        let '(r, w') := stmt_with load i s w in
        match r with Ok _ => body_with load i ss' w' | Err e => (Err e, w') end
    end.

  (** importlib.util._LazyModule.__getattribute__ for a module that was not loaded: the code
      runs with the class importlib._LazyModule; attributes that were set before keep their
      values; at the end the class is ModuleType. *)
  Definition begin_load (i : nat) (w : world) : world :=
    set_mod i (set_class CLoading) (mkw (mods w) (heap w) (lattrs w) (runs w ++ [i])).
  Definition end_load (i : nat) (m : modobj) (w : world) : res unit * world :=
    let ok := (Ok tt, set_mod i (fun m' => set_class CModule (set_attrs (union (m_attrs m)) m')) w) in
    match mods w !! m_name m with
    | Some (EMod j) => if j =? i then ok else (Err ValueErr, w)
    | Some _ => (Err ValueErr, w)
    | None => ok
    end.
  Fixpoint load (fuel : nat) (i : nat) (w : world) : res unit * world :=
    match fuel with
    | O => (Err NoFuel, w)
    | S fuel' =>
        match heap w !! i with
        | None => (Err AttributeErr, w)
        | Some m =>
            let '(r, w2) := body_with (load fuel') i (code E (m_name m)) (begin_load i w) in
            match r with Err e => (Err e, w2) | Ok _ => end_load i m w2 end
        end
    end.
  Definition getattr (fuel : nat) (i : nat) (a : string) (w : world) : res val * world := getattr_with (load fuel) i a w.

  (** utils.py:627-640 *)
  Definition is_module_invalid (i : nat) (w : world) : bool :=
    match class_of i w with Some CPlaceholder => true | _ => false end.
  (** utils.py:614-624 *)
  Definition get_lazy_attribute (i : nat) (a parent : string) (w : world) : option nat * world :=
    if is_module_invalid i w then (None, w)
    else (Some (length (lattrs w)), mkw (mods w) (heap w) (lattrs w ++ [mkla i a parent VNone]) (runs w)).

  (** utils.py:216-232, called by every access and every call: [mobj.__getattribute__] is
      not protected, so a lazy module is always loaded. *)
  Definition load_module (fuel : nat) (j : nat) (w : world) : res val * world :=
    match lattrs w !! j with
    | None => (Err AttributeErr, w)
    | Some l =>
        match la_obj l with
        | VNone =>
            let '(r, w1) :=
              match class_of (la_mod l) w with
              | Some CLazy => getattr fuel (la_mod l) "__getattribute__" w
              | _ => (Ok VMeta, w)
              end in
            match r with
            | Ok _ =>
                match heap w1 !! la_mod l with
                | None => (Err AttributeErr, w1)
                | Some m =>
                    match plain_attr m (la_attr l) with
                    | Err e => (Err e, w1)
                    | Ok v =>
                        match mods w1 !! la_parent l with
                        | None => (Err KeyErr, w1)
                        | Some ENone => (Err AttributeErr, w1)
                        | Some (EOther _) => (Ok v, mkw (mods w1) (heap w1) (alter (fun l => mkla (la_mod l) (la_attr l) (la_parent l) v) j (lattrs w1)) (runs w1))
                        | Some (EMod p) =>
                            let w2 := set_mod p (set_attrs (insert (la_attr l) v)) w1 in
                            (Ok v, mkw (mods w2) (heap w2) (alter (fun l => mkla (la_mod l) (la_attr l) (la_parent l) v) j (lattrs w2)) (runs w2))
                        end
                    end
                end
            | Err e => (Err e, w1)
            end
        | v => (Ok v, w)
        end
    end.

  (** ** What a program can do with the package *)
  Inductive lop :=
  | LImport (args : iargs) | LGet (i : nat) (a : string) | LSet (i : nat) (a : string) (v : val)
  | LAttr (i : nat) (a parent : string) | LUse (j : nat) | LPlain (n : string) (attrs : gmap string val).
  Inductive lout := LMod (i : nat) | LVal (v : val) | LHandle (j : option nat) | LUnit.
  Definition as_lout {X} (f : X -> lout) (r : res X * world) : res lout * world :=
    (match fst r with Ok x => Ok (f x) | Err e => Err e end, snd r).
  Definition lstep (fuel : nat) (o : lop) (w : world) : res lout * world :=
    match o with
    | LImport args => as_lout LMod (lazy_import args w)
    | LGet i a => as_lout LVal (getattr fuel i a w)
    | LSet i a v => (Ok LUnit, set_mod i (set_attrs (insert a v)) w)
    | LAttr i a parent => let '(j, w') := get_lazy_attribute i a parent w in (Ok (LHandle j), w')
    | LUse j => as_lout LVal (load_module fuel j w)
    | LPlain n attrs => as_lout (fun _ => LUnit) (plain_import n attrs w)
    end.
  Fixpoint lrun (fuel : nat) (os : list lop) (w : world) : list (res lout) * world :=
    match os with
    | [] => ([], w)
    | o :: os' => let '(r, w1) := lstep fuel o w in let '(rs, w2) := lrun fuel os' w1 in (r :: rs, w2)
    end.
End Env.
