(** * LazyInit: /repo/syncstream/__init__.py:42-75, the set-up of the package

    The part with lazy imports (the branches for TYPE_CHECKING = False).  The other modules
    of the package (utils, base, mproc) are imported in the ordinary way before. *)
From stdpp Require Import gmap strings.
From Coq Require Import String.
From Coq Require Import List Bool Arith.
From Verif Require Import Lazy.
Import ListNotations.
Local Open Scope nat_scope.

(** __init__.py:46-51 *)
Definition file_args : iargs := mkargs "file" (Some "syncstream") false ["fasteners"] RelNone.
(** __init__.py:60-65 *)
Definition webtools_args : iargs := mkargs "webtools" (Some "syncstream") false ["urllib3"; "packaging"] RelNone.
(** __init__.py:66-72 *)
Definition host_args : iargs := mkargs "host" (Some "syncstream") false ["urllib3"; "packaging"; "flask"] (RelMods [Some "syncstream.webtools"]).

(** The modules and the exported names (None, or the number of a lazy attribute). *)
Record exports := mkexp { x_file : nat; x_webtools : nat; x_host : nat;
                          x_LineFileBuffer : option nat; x_LineHostBuffer : option nat; x_LineHostMirror : option nat; x_LineHostReader : option nat }.
(** __init__.py:42-75 *)
Definition package_init (E : penv) (w : world) : res exports * world :=
  let '(rf, w) := lazy_import E file_args w in
  match rf with
  | Err e => (Err e, w)
  | Ok f =>
      let '(hf, w) := get_lazy_attribute f "LineFileBuffer" "syncstream" w in
      let '(rw, w) := lazy_import E webtools_args w in
      match rw with
      | Err e => (Err e, w)
      | Ok t =>
          let '(rh, w) := lazy_import E host_args w in
          match rh with
          | Err e => (Err e, w)
          | Ok h =>
              let '(h1, w) := get_lazy_attribute h "LineHostBuffer" "syncstream" w in
              let '(h2, w) := get_lazy_attribute h "LineHostMirror" "syncstream" w in
              let '(h3, w) := get_lazy_attribute h "LineHostReader" "syncstream" w in
              (Ok (mkexp f t h hf h1 h2 h3), w)
          end
      end
  end.
