(** * LazyDotsSpec: vocabulary for modules in packages *)
From stdpp Require Import gmap strings.
From Coq Require Import String.
From Coq Require Import List Bool Arith.
From Verif Require Import Lazy LazyDots.
Import ListNotations.
Local Open Scope nat_scope.

(** [m] is a package that contains [n], directly or not. *)
Definition above (m n : name) : Prop := m <> [] /\ exists c y, n = m ++ c :: y.
(** The packages that contain [n], from the outside. *)
Definition packages (n : name) : list name := map (fun k => firstn k n) (seq 1 (length n - 1)).
(** Something that is not None is registered and is not a package that was loaded. *)
Definition not_loaded_package (n : name) (w : dworld) : Prop :=
  reg w !! n = Some KLazy \/ reg w !! n = Some (KModule false) \/ reg w !! n = Some KPlaceholder.
(** find_spec succeeds without looking further. *)
Definition known (n : name) (w : dworld) : Prop := reg w !! n = Some KLazy \/ exists b, reg w !! n = Some (KModule b).
(** The package of [n] is loaded, or [n] is in no package. *)
Definition package_ready (n : name) (w : dworld) : Prop :=
  (exists c, n = [c]) \/ (exists p c, p <> [] /\ n = p ++ [c] /\ reg w !! p = Some (KModule true)).
(** No dependency is in the package that is to be imported lazily. *)
Definition own_packages_not_needed (o : dop) : Prop :=
  match o with DImport n _ deps => forall d, In d deps -> ~ above n d | _ => True end.
