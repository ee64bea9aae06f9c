(** * PrintPool: processes that print into their mirrors while the main process waits

    [kprog]: the code of Print.v as a program whose steps can be interleaved with those of
    other processes: print() and leaving a context are calls of the object's methods, made
    of their commands; everything else is done by the interpreter of the process alone
    (sys.stdout and sys.stderr belong to the process).
    Not modelled: [KEvent] does nothing here. *)
From stdpp Require Import gmap.
From Coq Require Import List NArith ZArith Bool Arith.
From Verif Require Import PyStr Prog PyIO Base Spec LineBuf Proc ProcSpec Ctx Print PrintSpec.
Import ListNotations.
Local Open Scope prog_scope.
Local Open Scope nat_scope.

Section Code.
  Context {C : Type -> Type} (write : nat -> text -> prog C nat) (exit_ : nat -> option excobj -> prog C unit)
          (exc : exn -> excobj).
  Fixpoint kprog (b : code) (s : sys) : prog C (ending * sys) :=
    match b with
    | KPass | KEvent _ => Ret (Ends, s)
    | KPut to_err data =>
        match target to_err (out s) (err s) with
        | None => Ret (Ends, s)
        | Some o => r <- attempt (write o data) ;; Ret (after_call exc r Ends, s)
        end
    | KRaise e => Ret (Throws e, s)
    | KSeq b1 b2 =>
        x <- kprog b1 s ;;
        match fst x with Ends => kprog b2 (snd x) | r => Ret (r, snd x) end
    | KTry b =>
        x <- kprog b s ;;
        Ret (match fst x with Throws _ => Ends | r => r end, snd x)
    | KWith m b =>
        x <- kprog b (enter m s) ;;
        let s2 := leave m (snd x) in
        match m with
        | Buf o => r <- attempt (exit_ o (exc_value (fst x))) ;; Ret (after_call exc r (fst x), s2)
        | _ => Ret (fst x, s2)
        end
    end.
End Code.

(** The object [k] is a LineProcMirror; other streams accept every text.
    LineProcMirror.__exit__ calls close(exc_value) (mproc.py:471). *)
Definition mir_write (k : nat) (o : nat) (data : text) : prog mcmd nat :=
  if o =? k then lm_write data else Ret (length data).
Definition mir_exit (k : nat) (o : nat) (e : option excobj) : prog mcmd unit :=
  if o =? k then lm_close e else Ret tt.
Definition mir_code (k : nat) (exc : exn -> excobj) (b : code) (s : sys) : prog mcmd (ending * sys) :=
  kprog (mir_write k) (mir_exit k) exc b s.

(** A process: [with mirror: code], where [mirror] is the mirror [j_mir] of the system and
    the object [j_obj] in the process; [j_sys]: its streams at the beginning. *)
Record job := mkjob { j_mir : nat; j_obj : nat; j_code : code; j_sys : sys }.
Inductive kresult := Printed (r : ending) (s : sys) | PWaited (r : outcome unit).
Definition print_process (exc : exn -> excobj) (j : job) : prog scmd kresult :=
  sys_m (j_mir j) (x <- mir_code (j_obj j) exc (KWith (Buf (j_obj j)) (j_code j)) (j_sys j) ;;
                   Ret (Printed (fst x) (snd x))).
(** The processes and the main process in wait() (mproc.py:924-941). *)
Definition print_pool (exc : exn -> excobj) (jobs : list job) (fuel : nat) : list (prog scmd kresult) :=
  map (print_process exc) jobs ++ [sys_p (r <- attempt (lp_wait fuel) ;; Ret (PWaited r))].

(** ** Vocabulary of the statements *)

(** Different mirrors of the present queue, each new; the mirror is not entered again inside. *)
Definition jobs_ok (d : psys) (jobs : list job) : Prop :=
  List.NoDup (map j_mir jobs) /\
  forall j, In j jobs -> j_mir j < length (s_mirs d) /\ m_q (mir_at d (j_mir j)) = m_q (mir_at d (s_cur d)) /\
    ready d (j_mir j) /\ well_nested (j_code j) /\ ~ In (j_obj j) (entered (j_code j)).
(** More iterations than there are texts in the code, and two more for each process. *)
Definition enough (jobs : list job) (fuel : nat) : Prop :=
  list_sum (map (fun j => length (code_texts (j_code j)) + 2) jobs) < fuel.

(** What the process prints into its mirror [l], and how its block ends [r]. *)
Definition block_does (exc : exn -> excobj) (j : job) (l : list happened) (r : ending) : Prop :=
  told exc (Some (j_obj j)) (Some (j_obj j)) (j_code j) l r /\ all_good l.
(** The messages of a process: texts with a line break at once, together with what was held;
    at the end an unfinished line, then the end signal. *)
Definition sends_msgs (exc : exn -> excobj) (j : job) (xs : list msg) : Prop :=
  exists l r ds v, block_does exc j l r /\ sent_by [] (texts_to (j_obj j) l) ds v /\
    xs = map QStr ds ++ match v with [] => [] | _ => [QStr (v ++ [10%N])] end
         ++ [match exc_value r with None => QClose | Some e => QError (gm_init (GMExc e)) end].
(** The records of a process: the lines it prints, an unfinished one at the end, then the
    exception that left the block. *)
Definition prints (exc : exn -> excobj) (j : job) (items : list item) : Prop :=
  exists l r g dn p, block_does exc j l r /\ log_steps (map SWrite (texts_to (j_obj j) l)) slog0 g /\
    log_new_line g (mkslog dn p) /\
    items = dn ++ match exc_value r with Some e => [IMsg (gm_init (GMExc e))] | None => [] end.
