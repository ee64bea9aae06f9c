(** * Print: code that prints inside the contexts of the package

    What happens to [print(...)] inside [with buffer:]: the streams of the interpreter
    (Ctx.v) decide which object gets the text, the classes of the package say what its
    write() and its __exit__() do.  Not modelled: other methods called inside the block
    (they are in the models of the classes). *)
From stdpp Require Import gmap.
From Coq Require Import List NArith Bool Arith.
From Verif Require Import PyStr Prog Base LineBuf Proc FileBuf Host HostCli Ctx.
Import ListNotations.
Local Open Scope nat_scope.

(** ** The classes of the objects, as seen by the interpreter *)
Record classes (W : Type) := mkcls {
  c_write : nat -> text -> W -> outcome nat * W;                     (* obj.write(data) *)
  c_exit : nat -> option excobj -> W -> outcome unit * W;            (* the rest of obj.__exit__, after the streams are restored *)
  c_event : nat -> W -> W;                                           (* something happens elsewhere *)
  c_exc : exn -> excobj                                              (* the exception object, with its traceback *)
}.
Arguments c_write {W}. Arguments c_exit {W}. Arguments c_event {W}. Arguments c_exc {W}.

(** ** Python code *)
Inductive code :=
| KPass
| KPut (to_err : bool) (data : text)     (* one text of a print() call goes to its file *)
| KEvent (n : nat)
| KRaise (e : excobj)
| KSeq (b1 b2 : code)
| KTry (b : code)                        (* try: b / except Exception: pass *)
| KWith (m : manager) (b : code).

(** The texts that [print( *args, sep=sep, end=end)] writes, one write() each (CPython,
    bltinmodule.c, builtin_print_impl). *)
Fixpoint print_args (sep : text) (args : list text) : list text :=
  match args with
  | [] => []
  | [a] => [a]
  | a :: args' => a :: sep :: print_args sep args'
  end.
Definition print_texts (sep end_ : text) (args : list text) : list text := print_args sep args ++ [end_].
Fixpoint put_all (to_err : bool) (ts : list text) : code :=
  match ts with [] => KPass | t :: ts' => KSeq (KPut to_err t) (put_all to_err ts') end.
(** [print(args...)], [print(args..., file=sys.stderr)] *)
Definition print (to_err : bool) (args : list text) : code := put_all to_err (print_texts [32%N] [LF] args).

(** The file of print(): [file=None] means sys.stdout, and nothing is printed if that is
    None as well (builtin_print_impl). *)
Definition target (to_err : bool) (x y : option nat) : option nat :=
  if to_err then match y with Some o => Some o | None => x end else x.

(** How a piece of code ends. *)
Inductive ending := Ends | Throws (e : excobj) | Hangs.
Definition exc_value (r : ending) : option excobj := match r with Throws e => Some e | _ => None end.

Fixpoint kexec {W} (C : classes W) (b : code) (s : sys) (w : W) : ending * sys * W :=
  match b with
  | KPass => (Ends, s, w)
  | KPut to_err data =>
      match target to_err (out s) (err s) with
      | None => (Ends, s, w)
      | Some o => match c_write C o data w with
                  | (Good _, w1) => (Ends, s, w1)
                  | (Fail x, w1) => (Throws (c_exc C x), s, w1)
                  | (Block, w1) => (Hangs, s, w1)
                  end
      end
  | KEvent n => (Ends, s, c_event C n w)
  | KRaise e => (Throws e, s, w)
  | KSeq b1 b2 =>
      match kexec C b1 s w with
      | (Ends, s1, w1) => kexec C b2 s1 w1
      | r => r
      end
  | KTry b =>
      match kexec C b s w with
      | (Throws _, s1, w1) => (Ends, s1, w1)
      | r => r
      end
  | KWith m b =>
      match kexec C b (enter m s) w with
      | (Hangs, s1, w1) => (Hangs, s1, w1)
      | (r, s1, w1) =>
          let s2 := leave m s1 in
          match m with
          | Buf o => match c_exit C o (exc_value r) w1 with
                     | (Good _, w2) => (r, s2, w2)
                     | (Fail x, w2) => (Throws (c_exc C x), s2, w2)
                     | (Block, w2) => (Hangs, s2, w2)
                     end
          | _ => (r, s2, w1)
          end
      end
  end.

(** ** Instances *)

(** One object [k] of a class of the package; every other stream always accepts the text
    and has nothing to do with the object.  [exc]: how the exceptions look. *)
Definition alone {W} (k : nat) (write : text -> W -> outcome nat * W)
    (exit_ : option excobj -> W -> outcome unit * W) (event : nat -> W -> W) (exc : exn -> excobj) : classes W :=
  mkcls W (fun o data w => if o =? k then write data w else (Good (length data), w))
          (fun o e w => if o =? k then exit_ e w else (Good tt, w)) event exc.
(** A call by thread 0 that finds the locks free. *)
Definition on {C : Type -> Type} {D A} `{!Sem C D} (p : prog C A) (d : D) : outcome A * D :=
  let '(r, s) := run 0 p (mkst d ∅) in (r, dat s).
(** LineProcMirror.__exit__ calls close(exc_value) (mproc.py:471). *)
Definition proc_mirror (k : nat) (event : nat -> menv -> menv) (exc : exn -> excobj) : classes menv :=
  alone k (fun data => on (lm_write data)) (fun e => on (lm_close e)) event exc.
(** The main process sets the stop signal: stop_all_mirrors() stores "closed" in the shared
    dict (mproc.py:816-828). *)
Definition stop_now (d : menv) : menv := mkmenv (e_mir d) (e_q d) (e_qmax d) (Some true).
(** LineFileBuffer.__exit__ calls new_line() or send_exc(exc_value) (file.py:136-140). *)
Definition file_buffer (k : nat) (b : fbuf) (event : nat -> fdir -> fdir) (exc : exn -> excobj) : classes fdir :=
  alone k (fun data => on (fb_write b data))
        (fun e => on match e with None => fb_new_line b | Some x => fb_send_exc b x end) event exc.
(** LineHostMirror.__exit__ calls close(exc_value) (host.py:136). *)
Definition host_mirror (k : nat) (E : henv) (M : hmir) (event : nat -> world -> world) (exc : exn -> excobj) : classes world :=
  alone k (fun data => @on ccmd world nat (clisem E) (hm_write M data)) (fun e => @on ccmd world unit (clisem E) (hm_close M e)) event exc.
(** The server sets the stop signal: LineHostBuffer.stop_all_mirrors() (host.py:747-758). *)
Definition stop_server (E : henv) (w : world) : world :=
  mkworld (dat (snd (run 0 (h_call E HStopAll) (mkst (w_srv w) ∅)))) (w_mir w) (w_faults w).

(** LineBuffers and consoles, any number of them.  LineBuffer.__exit__ does nothing more
    (mproc.py:371-382); the exit of a console is never called. *)
Inductive stream := Console (seen : text) | Lines (b : lbuf).
Definition stream_write (o : nat) (data : text) (w : nat -> stream) : outcome nat * (nat -> stream) :=
  match w o with
  | Console seen => (Good (length data), upd w o (Console (seen ++ data)))
  | Lines b => let '(r, b') := on (lb_write data) b in (r, upd w o (Lines b'))
  end.
Definition streams (exc : exn -> excobj) : classes (nat -> stream) :=
  mkcls _ stream_write (fun _ _ w => (Good tt, w)) (fun _ w => w) exc.
