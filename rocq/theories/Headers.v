(** * Headers: the HTTP headers of the clients, host.py:96-106, 139-147, 824-835, 866-874

    LineHostMirror and LineHostReader keep two mappings of default headers and give each
    request, and each user that asks for it, a new ChainMap over one of them.  Model: a heap
    of dicts; a ChainMap (collections/__init__.py of CPython 3.11) is a tree over dicts.
    Simplifications: a user does not change the list [maps] of a ChainMap itself (assigning
    to [c.maps[i]] or [c.maps]); [update], [setdefault], [|=] are sequences of the operations
    below.  What urllib3 and http.client add (Host, Content-Length, ...) is not modelled. *)
From Coq Require Import String.
From Coq Require Import List NArith Bool Arith.
From Verif Require Import PyStr Prog.
Import ListNotations.
Local Open Scope nat_scope.

(** ** dict (ordered by insertion) *)
Definition hdict := list (text * text).
Fixpoint dget (k : text) (d : hdict) : option text :=
  match d with [] => None | (k', v) :: d' => if text_eqb k' k then Some v else dget k d' end.
Fixpoint dput (k v : text) (d : hdict) : hdict :=
  match d with
  | [] => [(k, v)]
  | (k', w) :: d' => if text_eqb k' k then (k', v) :: d' else (k', w) :: dput k v d'
  end.
Fixpoint ddel (k : text) (d : hdict) : hdict :=
  match d with [] => [] | (k', w) :: d' => if text_eqb k' k then d' else (k', w) :: ddel k d' end.
Fixpoint put_dict (n : nat) (x : hdict) (ds : list hdict) : list hdict :=
  match ds, n with
  | [], _ => []
  | _ :: ds', 0 => x :: ds'
  | y :: ds', S n' => y :: put_dict n' x ds'
  end.

(** ** ChainMap *)
Inductive view := VDict (n : nat) | VChain (maps : list view).
Definition maps_of (v : view) : list view := match v with VDict _ => [] | VChain vs => vs end.

(** [__getitem__]: the first mapping that has the key. *)
Fixpoint look (ds : list hdict) (v : view) (k : text) : option text :=
  match v with
  | VDict n => dget k (nth n ds [])
  | VChain vs =>
      (fix go vs := match vs with
                    | [] => None
                    | v :: vs' => match look ds v k with Some x => Some x | None => go vs' end
                    end) vs
  end.
(** [__iter__]: the keys of the last mapping first, each key once. *)
Definition add_keys (a b : list text) : list text :=
  a ++ filter (fun k => negb (existsb (text_eqb k) a)) b.
Fixpoint keys (ds : list hdict) (v : view) : list text :=
  match v with
  | VDict n => map fst (nth n ds [])
  | VChain vs =>
      (fix go vs := match vs with [] => [] | v :: vs' => add_keys (go vs') (keys ds v) end) vs
  end.
Definition items (ds : list hdict) (v : view) : list (text * text) :=
  map (fun k => (k, match look ds v k with Some x => x | None => [] end)) (keys ds v).
(** [__setitem__], [__delitem__], [pop], [popitem], [clear] work on [self.maps[0]]. *)
Fixpoint top (v : view) : option nat :=
  match v with
  | VDict n => Some n
  | VChain vs => match vs with [] => None | v :: _ => top v end
  end.

(** ** The clients *)
Definition h_accept := txt "Accept".
Definition h_agent := txt "User-Agent".
Definition h_ctype := txt "Content-Type".
Definition v_json := txt "application/json".
Definition v_agent := txt "cainmagi/syncstream".

(** host.py:97-106: [__headers_get] is dict 0, [__headers] a ChainMap over dict 1 and it;
    host.py:825-834: the same with the names [__headers] and [__headers_post]. *)
Record hst := mkhst { dicts : list hdict; handles : list view }.
Definition h_new : hst := mkhst [[(h_accept, v_json); (h_agent, v_agent)]; [(h_ctype, v_json)]] [].
Definition stored (post : bool) : view := if post then VChain [VDict 1; VDict 0] else VDict 0.

(** What a user can do with the mappings ([h]: the number of a mapping that was obtained
    before), and the requests of the client. *)
Inductive hact :=
| OTake (post : bool)                     (* client.headers, client.headers_get / headers_post *)
| OGet (h : nat) (k : text)               (* h.get(k), h[k] *)
| OItems (h : nat)                        (* h.items() *)
| OSet (h : nat) (k v : text)             (* h[k] = v *)
| ODel (h : nat) (k : text)               (* del h[k], h.pop(k) *)
| OPopitem (h : nat)                      (* h.popitem() *)
| OClear (h : nat)                        (* h.clear() *)
| OChild (h : nat)                        (* h.new_child() *)
| OCopy (h : nat)                         (* h.copy() *)
| OMap (h i : nat)                        (* h.maps[i] *)
| OParents (h : nat)                      (* h.parents *)
| OSend (post : bool).                    (* a request of the client *)
Inductive hans := AOk | AVal (v : option text) | AItems (l : list (text * text)).

Definition on_top (s : hst) (h : nat) (f : hdict -> outcome (hans * hdict)) : outcome hans * hst :=
  match nth_error (handles s) h with
  | None => (Fail IndexError, s)
  | Some v =>
      match top v with
      | None => (Fail IndexError, s)
      | Some n =>
          match f (nth n (dicts s) []) with
          | Good (a, x) => (Good a, mkhst (put_dict n x (dicts s)) (handles s))
          | Fail e => (Fail e, s)
          | Block => (Block, s)
          end
      end
  end.
Definition with_handle (s : hst) (h : nat) (f : view -> outcome hans * hst) : outcome hans * hst :=
  match nth_error (handles s) h with None => (Fail IndexError, s) | Some v => f v end.
(** A new dict with the content [x]; the new mapping [g n], [n] the number of the dict. *)
Definition alloc (s : hst) (x : hdict) (g : nat -> view) : hst :=
  mkhst (dicts s ++ [x]) (handles s ++ [g (length (dicts s))]).

Definition hact_run (a : hact) (s : hst) : outcome hans * hst :=
  match a with
  | OTake post => (Good AOk, alloc s [] (fun n => VChain [VDict n; stored post]))   (* 142, 147, 869, 874 *)
  | OGet h k => with_handle s h (fun v => (Good (AVal (look (dicts s) v k)), s))
  | OItems h => with_handle s h (fun v => (Good (AItems (items (dicts s) v)), s))
  | OSet h k x => on_top s h (fun d => Good (AOk, dput k x d))
  | ODel h k => on_top s h (fun d => match dget k d with Some x => Good (AVal (Some x), ddel k d) | None => Fail KeyError end)
  | OPopitem h => on_top s h (fun d => match rev d with (k, x) :: _ => Good (AVal (Some x), removelast d) | [] => Fail KeyError end)
  | OClear h => on_top s h (fun _ => Good (AOk, []))
  | OChild h => with_handle s h (fun v => (match v with
      | VChain vs => (Good AOk, alloc s [] (fun n => VChain (VDict n :: vs)))
      | VDict _ => (Fail AttributeError, s) end))
  | OCopy h => with_handle s h (fun v => (match v with
      | VChain (VDict m :: vs) => (Good AOk, alloc s (nth m (dicts s) []) (fun n => VChain (VDict n :: vs)))
      | VChain (VChain ws :: vs) =>      (* maps[0].copy() of a ChainMap copies its first dict *)
          match ws with
          | VDict m :: ws' => (Good AOk, alloc s (nth m (dicts s) []) (fun n => VChain (VChain (VDict n :: ws') :: vs)))
          | _ => (Fail AttributeError, s)   (* deeper trees do not arise *)
          end
      | VDict m => (Good AOk, alloc s (nth m (dicts s) []) VDict)
      | VChain [] => (Fail IndexError, s) end))
  | OMap h i => with_handle s h (fun v => match nth_error (maps_of v) i with
      | Some w => (Good AOk, mkhst (dicts s) (handles s ++ [w]))
      | None => (Fail (match v with VDict _ => AttributeError | VChain _ => IndexError end), s) end)
  | OParents h => with_handle s h (fun v => match v with
      | VDict _ => (Fail AttributeError, s)
      | VChain vs => match tl vs with
                     | [] => (Good AOk, alloc s [] (fun n => VChain [VDict n]))    (* ChainMap() *)
                     | ws => (Good AOk, mkhst (dicts s) (handles s ++ [VChain ws]))
                     end end)
  | OSend post =>                         (* headers=self.headers, 280, 308, 338, 376, 406, 1013, 1040, 1095, 1151, 1191 *)
      let ds := dicts s ++ [[]] in
      (Good (AItems (items ds (VChain [VDict (length (dicts s)); stored post]))), mkhst ds (handles s))
  end.
Fixpoint hacts (l : list hact) (s : hst) : list (outcome hans) * hst :=
  match l with
  | [] => ([], s)
  | a :: l' => let '(r, s1) := hact_run a s in let '(rs, s2) := hacts l' s1 in (r :: rs, s2)
  end.
