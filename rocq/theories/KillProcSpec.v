(** * KillProcSpec: vocabulary of the statements about killed processes that use mirrors *)
From stdpp Require Import gmap.
From Coq Require Import List NArith ZArith Bool Arith.
From Verif Require Import PyStr Prog PyIO Base Spec LineBuf Proc ProcSpec CountSpec.
Import ListNotations.
Local Open Scope nat_scope.

(** Process [t] holds the lock [l]. *)
Definition holds (t l : nat) (k : locks) : Prop :=
  match k !! l with
  | Some (Excl o _) => o = t
  | Some (Shared os) => In t os
  | None => False
  end.

(** The state of the pool [processes work fuel] after some steps from [idle d].  [lg]: the
    messages that entered the queue, in order, each with its sender; [taken]: those that the
    main process took out.  Every sender sent a beginning of what it sends when alone, and
    all of it if it is finished; nothing was lost, and wait(), if it has returned, recorded
    exactly what it took out. *)
Definition sent_so_far (m : nat) (d : psys) (work : list (nat * list mcall))
    (ps : list (prog scmd presult)) (s : st psys) (lg : list (nat * msg)) (taken : list msg) : Prop :=
  Forall (fun x => fst x < length work) lg /\
  (forall k w, work !! k = Some w -> exists more, emitted d w = events_of k lg ++ more) /\
  inbox d ++ map snd lg = taken ++ inbox (dat s) /\
  (forall k w x, work !! k = Some w -> ps !! k = Some (Ret x) ->
     x = Produced (fst (alone d w)) /\ events_of k lg = emitted d w /\
     mir_at (dat s) (fst w) = e_mir (dat (snd (alone d w)))) /\
  (forall x, ps !! length work = Some (Ret x) ->
     x = Waited (Good tt) /\ wait_cut (inbox d ++ map snd lg) (s_n d) = Some (taken, inbox (dat s)) /\
     received m d (dat s) taken).

(** wait() has returned, or the main process can go on by itself. *)
Definition main_goes_on (work : list (nat * list mcall)) (ps : list (prog scmd presult)) (s : st psys) : Prop :=
  (exists x, ps !! length work = Some (Ret x)) \/ exists c, cstep (length work) (ps, s) = Some c.

(** The calls that acquire the lock of the shared state (mproc.py:697, 827, 843). *)
Definition locks_state (c : scall) : bool :=
  match c with ToMirror _ (CWrite _) | ToMain PStopAll | ToMain PReset => true | _ => false end.
