(** * LazyCls: the lazy attributes of /repo/syncstream/utils.py:167-258 used as classes

    /repo/syncstream/__init__.py:42-75 exports the classes of file.py and host.py as
    [_LazyAttribute] objects.  Besides the methods of [_LazyAttribute] this models what
    CPython 3.11 does with an object that is not a class in a class statement
    (__build_class__, _PyType_CalculateMetaclass) and in isinstance(); both are part of the
    trusted base.  Not modelled: metaclass=..., classes with a metaclass other than [type],
    classes defining __mro_entries__, classes whose bases have no common order, the texts of
    exceptions. *)
From stdpp Require Import gmap strings.
From Coq Require Import String.
From Coq Require Import List Bool Arith.
From Verif Require Import Lazy.
Import ListNotations.
Local Open Scope nat_scope.

(** What the values of module attributes are: [is_type v]: a class; [member v a]: the
    attribute [a] exists; [supers v]: the classes that the class [v] inherits from. *)
Record cenv := mkcenv { is_type : val -> bool; member : val -> string -> bool; supers : val -> list val }.

(** The objects that names are bound to: a lazy attribute of the package, given by its
    number; a lazy attribute whose "module" is a text (made by a class statement, see
    below); the value of a module attribute; a class made by a class statement, with the
    names defined in its body. *)
Inductive cval :=
| KLazy (j : nat)
| KText (name : string) (bases : list cval) (body : list string)
| KObj (v : val)
| KClass (name : string) (bases : list cval) (body : list string).
(** An instance, given by its class. *)
Inductive inst := Inst (c : cval).

(** What an attribute lookup gives: a method of the lazy attribute object itself, or the
    attribute of the object that it stands for. *)
Inductive member_of := MOwn (a : string) | MOf (k : cval) (a : string).

(** utils.py:175-186 *)
Definition la_protected (a : string) : bool :=
  existsb (String.eqb a) ["__repr__"; "__str__"; "__call__"; "_LazyAttribute__mobj"; "_LazyAttribute__attr";
                          "_LazyAttribute__parent"; "_LazyAttribute__load_module"; "_LazyAttribute__obj"]%string.

Section Cls.
  Variable E : penv.
  Variable C : cenv.

  (** utils.py:216-232.  A text as "module": the attribute (called
      "(<LazyAttribute ...>,)") does not exist. *)
  Definition la_load (fuel : nat) (k : cval) (w : world) : res cval * world :=
    match k with
    | KLazy j => let '(r, w1) := load_module E fuel j w in (match r with Ok v => Ok (KObj v) | Err e => Err e end, w1)
    | KText _ _ _ => (Err AttributeErr, w)
    | _ => (Ok k, w)
    end.
  (** Attributes of objects that are no lazy attributes.  Classes also have those of [type];
      only the one that is used here. *)
  Fixpoint has_member (k : cval) (a : string) : bool :=
    match k with
    | KObj v => member C v a || (is_type C v && String.eqb a "__bases__")
    | KClass _ bs body => existsb (String.eqb a) body || existsb (fun b => has_member b a) bs || String.eqb a "__bases__"
    | _ => false
    end.
  (** utils.py:243-258 *)
  Definition la_getattr (fuel : nat) (k : cval) (a : string) (w : world) : res member_of * world :=
    match k with
    | KLazy _ | KText _ _ _ =>
        if la_protected a then (Ok (MOwn a), w)
        else
          let '(r, w1) := la_load fuel k w in
          match r with
          | Err e => (Err e, w1)
          | Ok o => (if has_member o a then Ok (MOf o a) else Err AttributeErr, w1)
          end
    | _ => (if has_member k a then Ok (MOf k a) else Err AttributeErr, w)
    end.
  (** What a call gives: an instance of a class, or what the object's own __call__ gives. *)
  Inductive called := New (i : inst) | Result (k : cval).
  Definition call_obj (k : cval) : res called :=
    match k with
    | KClass _ _ _ => Ok (New (Inst k))
    | KObj v => if is_type C v then Ok (New (Inst k)) else if member C v "__call__" then Ok (Result k) else Err AttributeErr
    | _ => Err TypeErr
    end.
  (** utils.py:234-241.  (An object without __call__ that is called directly raises
      TypeError, not AttributeError.) *)
  Definition la_call (fuel : nat) (k : cval) (w : world) : res called * world :=
    match k with
    | KLazy _ | KText _ _ _ =>
        let '(r, w1) := la_load fuel k w in
        (match r with Err e => Err e | Ok o => call_obj o end, w1)
    | KObj v => (if is_type C v || member C v "__call__" then call_obj k else Err TypeErr, w)
    | KClass _ _ _ => (call_obj k, w)
    end.
  (** Whether repr() works, utils.py:209-214: a text has no __name__. *)
  Definition repr_ok (k : cval) : bool := match k with KText _ _ _ => false | _ => true end.

  Definition is_class (k : cval) : bool :=
    match k with KObj v => is_type C v | KClass _ _ _ => true | _ => false end.
  Definition is_lattr (k : cval) : bool := match k with KLazy _ | KText _ _ _ => true | _ => false end.

  (** The class statement, first part: for every base that is not a class the attribute
      __mro_entries__ is looked up; AttributeError means that there is none. *)
  Fixpoint mro_entries (fuel : nat) (bs : list cval) (w : world) : res unit * world :=
    match bs with
    | [] => (Ok tt, w)
    | b :: bs' =>
        if is_class b then mro_entries fuel bs' w
        else
          let '(r, w1) := la_getattr fuel b "__mro_entries__" w in
          match r with
          | Ok _ | Err AttributeErr => mro_entries fuel bs' w1
          | Err e => (Err e, w1)
          end
    end.
  (** Making the class [name] with the given bases and the names defined in its body.
      The type of the first base is called with (name, bases, body); if this is
      [_LazyAttribute], the constructor (utils.py:188-207) makes a lazy attribute that has
      [name] as its "module" and str(bases) as its attribute; str(bases) is the __repr__ of
      the bases.  Bases of both kinds: metaclass conflict.  Other objects as bases: their
      type does not accept these arguments. *)
  Definition class_stmt (fuel : nat) (name : string) (bs : list cval) (body : list string) (w : world) : res cval * world :=
    let '(r, w1) := mro_entries fuel bs w in
    match r with
    | Err e => (Err e, w1)
    | Ok _ =>
        if forallb is_class bs then (Ok (KClass name bs body), w1)
        else if forallb is_lattr bs then
          (if forallb repr_ok bs then Ok (KText name bs body) else Err AttributeErr, w1)
        else (Err TypeErr, w1)
    end.

  (** Whether the class [c] is or inherits from [k].  (Classes made by class statements with
      the same name, bases and body are not told apart.) *)
  Definition val_eqb (v v' : val) : bool :=
    match v, v' with VNone, VNone | VMeta, VMeta => true | VObj a, VObj b => a =? b | _, _ => false end.
  Fixpoint cval_eqb (k k' : cval) : bool :=
    match k, k' with
    | KLazy j, KLazy j' => j =? j'
    | KObj v, KObj v' => val_eqb v v'
    | KText n bs b, KText n' bs' b' | KClass n bs b, KClass n' bs' b' =>
        String.eqb n n' && (if list_eq_dec String.string_dec b b' then true else false) &&
        (fix go l l' := match l, l' with [], [] => true | x :: l, x' :: l' => cval_eqb x x' && go l l' | _, _ => false end) bs bs'
    | _, _ => false
    end.
  Fixpoint inherits (c k : cval) : bool :=
    cval_eqb c k ||
    match c with
    | KObj v => match k with KObj v' => existsb (val_eqb v') (supers C v) | _ => false end
    | KClass _ bs _ => existsb (fun b => inherits b k) bs
    | _ => false
    end.
  (** isinstance(x, k): for a [k] that is no class, __bases__ of [k] is looked up
      (TypeError, if there is none), and then [k] is searched among the classes of [x]. *)
  Definition isinstance (fuel : nat) (x : inst) (k : cval) (w : world) : res bool * world :=
    let 'Inst c := x in
    if is_class k then (Ok (inherits c k), w)
    else
      let '(r, w1) := la_getattr fuel k "__bases__" w in
      match r with
      | Ok _ => (Ok (inherits c k), w1)
      | Err AttributeErr => (Err TypeErr, w1)
      | Err e => (Err e, w1)
      end.
  (** Which class defines the method [a] of an instance of [c] (bases from left to right;
      not the order of CPython if bases have a common superclass). *)
  Fixpoint resolve (c : cval) (a : string) : option cval :=
    match c with
    | KClass _ bs body =>
        if existsb (String.eqb a) body then Some c
        else (fix go l := match l with [] => None | b :: l' => match resolve b a with Some d => Some d | None => go l' end end) bs
    | KObj v => if member C v a then Some c else None
    | _ => None
    end.

  (** ** Programs *)
  (** Names are numbered in the order in which they are bound.  [DPackage op]: any use of
      utils.py as in Lazy.v; [DName j]: read the lazy attribute [j] from the package, before
      it is replaced; [DRead i a]: read the attribute [a] of the module [i]. *)
  Inductive dop :=
  | DPackage (o : lop) | DName (j : nat) | DRead (i : nat) (a : string)
  | DClass (name : string) (bs : list nat) (body : list string)
  | DCall (k : nat) | DGet (k : nat) (a : string) | DIs (x k : nat).
  Inductive dout := DDone (o : lout) | DBound | DNew | DGave (m : member_of) | DBool (b : bool).
  Record dstate := mkd { d_world : world; d_names : list cval; d_insts : list inst }.
  Definition bind (k : cval) (w : world) (d : dstate) : dstate := mkd w (d_names d ++ [k]) (d_insts d).
  Definition with_world (w : world) (d : dstate) : dstate := mkd w (d_names d) (d_insts d).
  (** The objects of the names (unbound names: NameError, here KeyErr). *)
  Fixpoint names_of (d : dstate) (ks : list nat) : option (list cval) :=
    match ks with
    | [] => Some []
    | k :: ks' => match d_names d !! k, names_of d ks' with Some c, Some cs => Some (c :: cs) | _, _ => None end
    end.
  Definition dstep (fuel : nat) (o : dop) (d : dstate) : res dout * dstate :=
    let w := d_world d in
    match o with
    | DPackage o => let '(r, w1) := lstep E fuel o w in (match r with Ok x => Ok (DDone x) | Err e => Err e end, with_world w1 d)
    | DName j => match lattrs w !! j with Some _ => (Ok DBound, bind (KLazy j) w d) | None => (Err KeyErr, d) end
    | DRead i a =>
        let '(r, w1) := getattr E fuel i a w in
        match r with Ok v => (Ok DBound, bind (KObj v) w1 d) | Err e => (Err e, with_world w1 d) end
    | DClass name ks body =>
        match names_of d ks with
        | None => (Err KeyErr, d)
        | Some bs =>
            let '(r, w1) := class_stmt fuel name bs body w in
            match r with Ok k => (Ok DBound, bind k w1 d) | Err e => (Err e, with_world w1 d) end
        end
    | DCall k =>
        match d_names d !! k with
        | None => (Err KeyErr, d)
        | Some c =>
            let '(r, w1) := la_call fuel c w in
            match r with
            | Ok (New x) => (Ok DNew, mkd w1 (d_names d) (d_insts d ++ [x]))
            | Ok (Result _) => (Ok DBound, with_world w1 d)
            | Err e => (Err e, with_world w1 d)
            end
        end
    | DGet k a =>
        match d_names d !! k with
        | None => (Err KeyErr, d)
        | Some c =>
            let '(r, w1) := la_getattr fuel c a w in
            (match r with Ok m => Ok (DGave m) | Err e => Err e end, with_world w1 d)
        end
    | DIs x k =>
        match d_insts d !! x, d_names d !! k with
        | Some i, Some c =>
            let '(r, w1) := isinstance fuel i c w in
            (match r with Ok b => Ok (DBool b) | Err e => Err e end, with_world w1 d)
        | _, _ => (Err KeyErr, d)
        end
    end.
  Fixpoint drun (fuel : nat) (os : list dop) (d : dstate) : list (res dout) * dstate :=
    match os with
    | [] => ([], d)
    | o :: os' => let '(r, d1) := dstep fuel o d in let '(rs, d2) := drun fuel os' d1 in (r :: rs, d2)
    end.
End Cls.
