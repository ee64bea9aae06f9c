(** * HeadersSpec: vocabulary of the statements about the HTTP headers (C102) *)
From Coq Require Import String.
From Coq Require Import List NArith Bool Arith.
From Verif Require Import PyStr Prog Headers.
Import ListNotations.
Local Open Scope nat_scope.

(** The headers that every request should carry, with data ([post]) or without. *)
Definition defaults (post : bool) : list (text * text) :=
  [(txt "Accept", txt "application/json"); (txt "User-Agent", txt "cainmagi/syncstream")] ++
  if post then [(txt "Content-Type", txt "application/json")] else [].

(** Uses of a ChainMap that do not name the mappings it was made of. *)
Definition plain (a : hact) : Prop := match a with OMap _ _ | OParents _ => False | _ => True end.
(** The mapping that an operation works on. *)
Definition target (a : hact) : option nat :=
  match a with
  | OGet h _ | OItems h | OSet h _ _ | ODel h _ | OPopitem h | OClear h | OChild h | OCopy h | OMap h _ | OParents h => Some h
  | OTake _ | OSend _ => None
  end.
(** Answer of the last operation of a list. *)
Definition answer_after (l : list hact) (a : hact) : outcome hans := fst (hact_run a (snd (hacts l h_new))).
