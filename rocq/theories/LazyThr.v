(** * LazyThr: threads that use lazy modules (/repo/syncstream/utils.py:73-164, 216-257)

    Lazy.v models one thread.  Here the methods of utils._LazyModule, of importlib's
    _LazyModule (CPython 3.11.9 and later: Lib/importlib/util.py, with the RLock and the flag
    "is_loading" of loader_state) and of utils._LazyAttribute are programs of atomic commands:
    one command is one look at or one change of a shared object.
    The modules were registered by lazy_import before (they are numbered); the finders,
    placeholders and the replacement of entries of sys.modules are in Lazy.v and not here;
    the parents of lazy attributes are ordinary modules.  The code of a module does not
    define the names load_deps and force_load and does not touch __class__. *)
From stdpp Require Import gmap strings.
From Coq Require Import String.
From Coq Require Import List Bool Arith Lia.
From Verif Require Import Prog Lazy.
Import ListNotations.
Local Open Scope nat_scope.
Local Open Scope prog_scope.

(** The class of a module object: utils._LazyModule, importlib's _LazyModule, ModuleType. *)
Inductive tcls := KUtils | KImp | KMod.
Definition tcls_eqb (a b : tcls) : bool :=
  match a, b with KUtils, KUtils | KImp, KImp | KMod, KMod => true | _, _ => false end.

(** Values of attributes: objects (the code of the module defines them), classes, the
    method __getattribute__ of a class bound to the module, other attributes that every
    module has (__name__, ...).  An object is not None. *)
Inductive lval := VVal (n : nat) | VCls (c : tcls) | VMeth (c : tcls) | VInfo.

(** What has happened to the code of a module: not started, running, returned ([Over true])
    or raised ([Over false]).  Not a Python object; for the statements only. *)
Inductive trun := Fresh | Running | Over (ok : bool).
(** [t_loading]: loader_state['is_loading']; [t_attrs]: the attributes in __dict__ that are
    not those of every module; [t_deps]: __dep_modules__ (utils.py:382). *)
Record tmod := mkt { t_cls : tcls; t_loading : bool; t_run : trun; t_attrs : gmap string nat; t_deps : list nat }.
(** A _LazyAttribute (utils.py:188-207); [la_pub]: the attribute of the parent module,
    [None] while it is the lazy attribute. *)
Record tla := mkla { la_mod : nat; la_attr : string; la_obj : option lval; la_pub : option lval }.
(** [begun]: the modules whose code was started, in this order. *)
Record tworld := mktw { t_mods : list tmod; t_las : list tla; begun : list nat }.

(** The code of modules. *)
Inductive tstmt :=
| TDef (a : string) (n : nat)    (* define an attribute of this module *)
| TUse (j : nat) (a : string)    (* access an attribute of another lazy module, or of this one *)
| TFrom (j : nat) (a : string)   (* from module import a: ImportError instead of AttributeError; the
                                    interpreter also looks at __spec__ and __path__ before, left out *)
| TRaise (e : exn).

Inductive tcmd : Type -> Type :=
| TType (i : nat) : tcmd tcls                        (* type(self): which __getattribute__ is used *)
| TGet (i : nat) (a : string) : tcmd lval            (* object.__getattribute__(self, a), ModuleType.__getattribute__ *)
| TMeth (i : nat) : tcmd unit                        (* object.__getattribute__(self, "load_deps") *)
| TDeps (i : nat) : tcmd (list nat)                  (* self_dict.get("__dep_modules__") *)
| TNoDeps (i : nat) : tcmd unit                      (* self_dict["__dep_modules__"] = tuple() *)
| TToImp (i : nat) : tcmd unit                       (* self.__class__ = importlib's _LazyModule *)
| TIsLoading (i : nat) : tcmd bool                   (* loader_state['is_loading'] *)
| TBegin (i : nat) : tcmd (gmap string nat)          (* is_loading = True; attrs_updated *)
| TPut (i : nat) (a : string) (n : nat) : tcmd unit  (* a definition in the code of the module *)
| TFail (i : nat) : tcmd unit                        (* the code of the module raises *)
| TFinish (i : nat) (up : gmap string nat) : tcmd unit (* __dict__.update(attrs_updated); self.__class__ = ModuleType *)
| TLa (k : nat) : tcmd (nat * string * option lval)  (* the fields of a _LazyAttribute *)
| TPub (k : nat) (v : lval) : tcmd unit              (* setattr(sys.modules[parent], attr_name, obj) *)
| TSetLa (k : nat) (v : lval) : tcmd unit.           (* setattr(self, "_LazyAttribute__obj", obj) *)

(** The attribute [a], looked up in the type and in __dict__ (no __getattribute__ of the class). *)
Definition tget (m : tmod) (a : string) : outcome lval :=
  if String.eqb a "__class__" then Good (VCls (t_cls m))
  else match t_attrs m !! a with
       | Some n => Good (VVal n)
       | None =>
           if String.eqb a "__getattribute__" then Good (VMeth (t_cls m))
           else if Lazy.provided a then Good VInfo
           else if existsb (String.eqb a) ["force_load"; "load_deps"]%string && tcls_eqb (t_cls m) KUtils then Good VInfo
           else Fail AttributeError
       end.

Definition on_mod {X} (i : nat) (f : tmod -> outcome X * tmod) (w : tworld) : outcome X * tworld :=
  match t_mods w !! i with
  | None => (Fail AttributeError, w)
  | Some m => let '(r, m') := f m in (r, mktw (<[i := m']> (t_mods w)) (t_las w) (begun w))
  end.
Definition on_la {X} (k : nat) (f : tla -> outcome X * tla) (w : tworld) : outcome X * tworld :=
  match t_las w !! k with
  | None => (Fail AttributeError, w)
  | Some l => let '(r, l') := f l in (r, mktw (t_mods w) (<[k := l']> (t_las w)) (begun w))
  end.

Definition texec {X} (c : tcmd X) : tworld -> outcome X * tworld :=
  match c in tcmd X return tworld -> outcome X * tworld with
  | TType i => on_mod i (fun m => (Good (t_cls m), m))
  | TGet i a => on_mod i (fun m => (tget m a, m))
  | TMeth i => on_mod i (fun m => (if tcls_eqb (t_cls m) KUtils then Good tt else Fail AttributeError, m))
  | TDeps i => on_mod i (fun m => (Good (t_deps m), m))
  | TNoDeps i => on_mod i (fun m => (Good tt, mkt (t_cls m) (t_loading m) (t_run m) (t_attrs m) []))
  | TToImp i => on_mod i (fun m => (Good tt, mkt KImp (t_loading m) (t_run m) (t_attrs m) (t_deps m)))
  | TIsLoading i => on_mod i (fun m => (Good (t_loading m), m))
  | TBegin i => fun w =>
      let '(r, w') := on_mod i (fun m => (Good (t_attrs m), mkt (t_cls m) true Running (t_attrs m) (t_deps m))) w in
      (r, mktw (t_mods w') (t_las w') (match r with Good _ => begun w' ++ [i] | _ => begun w' end))
  | TPut i a n => on_mod i (fun m => (Good tt, mkt (t_cls m) (t_loading m) (t_run m) (<[a := n]> (t_attrs m)) (t_deps m)))
  | TFail i => on_mod i (fun m => (Good tt, mkt (t_cls m) (t_loading m) (Over false) (t_attrs m) (t_deps m)))
  | TFinish i up => on_mod i (fun m => (Good tt, mkt KMod (t_loading m) (Over true) (up ∪ t_attrs m) (t_deps m)))
  | TLa k => on_la k (fun l => (Good (la_mod l, la_attr l, la_obj l), l))
  | TPub k v => on_la k (fun l => (Good tt, mkla (la_mod l) (la_attr l) (la_obj l) (Some v)))
  | TSetLa k v => on_la k (fun l => (Good tt, mkla (la_mod l) (la_attr l) (Some v) (la_pub l)))
  end.
#[global] Instance tsem : Sem tcmd tworld := {| cexec := @texec |}.

(** loader_state['lock'] of module [i], an RLock. *)
Definition lk (i : nat) : nat := 2 * i + 1.

(** [try: p except BaseException as e: h e]. *)
Fixpoint catch {C A} (p : prog C A) (f : exn -> prog C A) : prog C A :=
  match p with
  | Ret a => Ret a
  | Raise e => f e
  | Act c k h => Act c (fun x => catch (k x) f) (fun e => catch (h e) f)
  end.
Definition is_attr_err (e : exn) : bool := match e with AttributeError => true | _ => false end.

Section Code.
  (** The code of the modules. *)
  Variable code : nat -> list tstmt.

  (** The methods that call each other. *)
  Inductive pcall :=
  | PGet (i : nat) (a : string)              (* getattr(module, a) *)
  | PCall (c : tcls) (i : nat) (a : string)  (* the method __getattribute__ of class [c] *)
  | PForce (i : nat).                        (* the body of force_load *)

  Section With.
    Variable rec : pcall -> prog tcmd lval.

    (** The code of module [i]. *)
    Fixpoint tbody (i : nat) (ss : list tstmt) : prog tcmd unit :=
      match ss with
      | [] => Ret tt
      | TDef a n :: ss' => op (TPut i a n) ;; tbody i ss'
      | TUse j a :: ss' => rec (PGet j a) ;; tbody i ss'
      | TFrom j a :: ss' => catch (rec (PGet j a)) (fun e => Raise (if is_attr_err e then ImportError else e)) ;; tbody i ss'
      | TRaise e :: _ => Raise e
      end.

    (** The part of importlib.util._LazyModule.__getattribute__ under the lock; [None]: go on
        with getattr(self, attr).  [TFail] only notes that the code raised. *)
    Definition timp_locked (i : nat) (a : string) : prog tcmd (option lval) :=
      c <- op (TType i) ;;
      match c with
      | KImp =>
          l <- op (TIsLoading i) ;;
          if l : bool then v <- op (TGet i a) ;; Ret (Some v)
          else
            up <- op (TBegin i) ;;
            catch (tbody i (code i)) (fun e => op (TFail i) ;; Raise e) ;;
            op (TFinish i up) ;; Ret None
      | _ => Ret None
      end.
    Definition timp (i : nat) (a : string) : prog tcmd lval :=
      r <- with_lock (lk i) Ex (timp_locked i a) ;;
      match r with Some v => Ret v | None => rec (PGet i a) end.

    (** isinstance(dep, _LazyModule): the type of [dep], and if that is not a subclass, the
        attribute __class__ of [dep]. *)
    Definition tisinst (d : nat) : prog tcmd bool :=
      c <- op (TType d) ;;
      match c with
      | KUtils => Ret true
      | _ => catch (rec (PGet d "__class__"%string) ;; Ret false) (fun e => if is_attr_err e then Ret false else Raise e)
      end.

    (** utils.py:118-127 *)
    Fixpoint teach (ds : list nat) : prog tcmd unit :=
      match ds with
      | [] => Ret tt
      | d :: ds' =>
          b <- tisinst d ;;
          (if b : bool then rec (PGet d "force_load"%string) ;; rec (PForce d) ;; Ret tt else Ret tt) ;;
          teach ds'
      end.
    Definition tload_deps (i : nat) : prog tcmd unit :=
      ds <- op (TDeps i) ;; teach ds ;; op (TNoDeps i).

    (** utils.py:105-116 *)
    Definition tforce (i : nat) : prog tcmd lval :=
      op (TMeth i) ;; tload_deps i ;; timp i "__name__"%string.

    (** utils.py:139-164, from line 159 *)
    Definition tutils_rest (i : nat) (a : string) : prog tcmd lval :=
      op (TMeth i) ;;
      tload_deps i ;;
      c <- rec (PGet i "__class__"%string) ;;
      match c with VCls KImp => Ret tt | _ => op (TToImp i) end ;;
      timp i a.
    (** utils.py:139-164 *)
    Definition tutils (i : nat) (a : string) : prog tcmd lval :=
      if String.eqb a "__path__" then Raise AttributeError
      else if Lazy.protected a then
        Act (Op (TGet i a)) Ret (fun e => if is_attr_err e then tutils_rest i a else Raise e)
      else tutils_rest i a.

    Definition tmeth (c : tcls) (i : nat) (a : string) : prog tcmd lval :=
      match c with
      | KUtils => tutils i a
      | KImp => timp i a
      | KMod => op (TGet i a)
      end.

    Definition tstep (c : pcall) : prog tcmd lval :=
      match c with
      | PGet i a => c <- op (TType i) ;; tmeth c i a
      | PCall c i a => tmeth c i a
      | PForce i => tforce i
      end.
  End With.

  (** [fuel] bounds the depth of the calls. *)
  Fixpoint tgo (fuel : nat) (c : pcall) : prog tcmd lval :=
    match fuel with
    | O => Raise OutOfFuel
    | S fuel' => tstep (tgo fuel') c
    end.

  (** What threads do: access an attribute, call force_load(), use a lazy attribute. *)
  Inductive tcall := Access (i : nat) (a : string) | Force (i : nat) | Attr (k : nat).

  (** utils.py:216-232.  [mobj.__getattribute__] is looked up by getattr and then called. *)
  Definition tload_module (fuel k : nat) : prog tcmd lval :=
    f <- op (TLa k) ;;
    let '(i, a, o) := f in
    match o with
    | Some v => Ret v
    | None =>
        g <- tgo fuel (PGet i "__getattribute__"%string) ;;
        v <- match g with
             | VMeth c => tgo fuel (PCall c i a)
             | _ => Raise TypeError  (* the code of the module defined this name *)
             end ;;
        op (TPub k v) ;;
        op (TSetLa k v) ;;
        Ret v
    end.

  Definition tcall_prog (fuel : nat) (c : tcall) : prog tcmd lval :=
    match c with
    | Access i a => tgo fuel (PGet i a)
    | Force i => tgo fuel (PGet i "force_load"%string) ;; tgo fuel (PForce i)
    | Attr k => tload_module fuel k
    end.
  Definition tthread (fuel : nat) (cs : list tcall) : prog tcmd (list (outcome lval)) :=
    thread (map (tcall_prog fuel) cs).
End Code.

(** Modules that lazy_import has just registered: [ats]: attributes that were set from
    outside since; [deps]: their lazy dependencies; [las]: the lazy attributes. *)
Definition tfresh (ats : gmap string nat) (deps : list nat) : tmod := mkt KUtils false Fresh ats deps.
Definition tinit (mods : list (gmap string nat * list nat)) (las : list (nat * string)) : tworld :=
  mktw (map (fun x => tfresh (fst x) (snd x)) mods) (map (fun x => mkla (fst x) (snd x) None None) las) [].
