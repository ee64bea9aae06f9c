(** * PropPrint: printing inside the contexts of the package; LineBuffers and process mirrors
    (C75, C76)

    [kexec C b s w]: execute Python code that prints; [told exc x y b l r]: what it should do
    (PrintSpec.v).  Proofs are in PrintProofs.v and PrintProc.v. *)
From stdpp Require Import gmap.
From Coq Require Import String.
From Coq Require Import List NArith ZArith Bool Arith Lia.
From Verif Require Import PyStr Prog PyIO Base Spec LineBuf LineBufSpec Proc ProcSpec Ctx Print PrintSpec PrintProofs PrintProc PropProc.
From Verif Require HostSpec.
Import ListNotations.
Local Open Scope nat_scope.

(** ** C75 *)

(** Whatever the classes of the objects do: every text goes to the innermost target, each
    context is left once, the streams are restored. *)
Theorem C75_routing : forall W (C : classes W) b s w r s' w', well_nested b -> kexec C b s w = (r, s', w') ->
  exists l, told (c_exc C) (out s) (err s) b l r /\ effects C w l w' /\
    (r <> Hangs -> out s' = out s /\ err s' = err s).
Proof. exact @routing. Qed.
Print Assumptions C75_routing.

(** LineBuffers and consoles: each gets exactly the texts printed while it was the innermost
    target, in order; no print() fails. *)
Theorem C75_streams : forall exc b s w r s' w', well_nested b ->
  (forall o bf, w o = Lines bf -> exists m g, 1 <= m /\ HostSpec.holds m g bf) ->
  kexec (streams exc) b s w = (r, s', w') ->
  exists l, told exc (out s) (err s) b l r /\ all_good l /\ r <> Hangs /\ out s' = out s /\ err s' = err s /\
  forall o, match w o with
            | Console seen => w' o = Console (seen ++ concat (texts_to o l))
            | Lines bf => exists bf', w' o = Lines bf' /\
                forall m g, 1 <= m -> HostSpec.holds m g bf ->
                exists g', log_steps (map SWrite (texts_to o l)) g g' /\ HostSpec.holds m g' bf'
            end.
Proof. exact c_streams. Qed.
Print Assumptions C75_streams.

Definition std : sys := mksys (Some 100) (Some 101) (fun _ => (None, None)) (fun _ => []).
Definition show_exc (x : exn) : excobj :=
  match x with StopIteration => mkexc ExcStopIteration (txt "StopIteration" ++ lf) | _ => mkexc ExcOther (txt "E" ++ lf) end.
Definition empty_buf (n : nat) : lbuf := dat (fresh n).
Definition code1 : code :=
  KSeq (print false [txt "start"])
  (KSeq (KTry (KWith (Buf 1) (KSeq (print false [txt "a"; txt "b"])
           (KSeq (KWith (Buf 2) (KSeq (print true [txt "x"]) (KSeq (KWith (ROut 7 100) (print false [txt "out"])) (KPut false (txt "y")))))
           (KSeq (print true [txt "c"]) (KSeq (KRaise oops) (print false [txt "never"])))))))
        (print true [txt "end"])).
Definition world0 (o : nat) : stream := if o =? 1 then Lines (empty_buf 2) else if o =? 2 then Lines (empty_buf 3) else Console [].
Definition content (x : stream) : list item * text :=
  match x with Console s => ([], s) | Lines b => (dq (storage b), sval (last_line b)) end.
Example C75_demo :
  well_nested code1 /\
  let '(r, s', w') := kexec (streams show_exc) code1 std world0 in
  r = Ends /\ out s' = Some 100 /\ err s' = Some 101 /\
  content (w' 100) = ([], txt "start" ++ lf ++ txt "out" ++ lf) /\ content (w' 101) = ([], txt "end" ++ lf) /\
  content (w' 1) = ([IStr (txt "a b"); IStr (txt "c")], []) /\ content (w' 2) = ([IStr (txt "x")], txt "y").
Proof.
  split; [repeat split; intros H; repeat (destruct H as [H|H]; try discriminate); exact H|]. vm_compute. repeat split.
Qed.
Example C75_demo_holds : forall o bf, world0 o = Lines bf -> exists m g, 1 <= m /\ HostSpec.holds m g bf.
Proof.
  intros o bf. unfold world0. destruct (o =? 1); [intros [= <-]; exists 2, slog0|destruct (o =? 2); [intros [= <-]; exists 3, slog0|discriminate]];
    (split; [lia|split; reflexivity]).
Qed.

(** One print() call whose writes succeed: its target gets the arguments with the separator
    between them and then the end, other objects get nothing. *)
Theorem C75_print : forall exc x y to_err o sep end_ args l r,
  (to_err = false /\ x = Some o \/ to_err = true /\ (y = Some o \/ y = None /\ x = Some o)) ->
  told exc x y (put_all to_err (print_texts sep end_ args)) l r -> all_good l ->
  exists t, joined sep args t /\ concat (texts_to o l) = t ++ end_ /\ r = Ends /\ forall o', o' <> o -> texts_to o' l = [].
Proof. exact print_told. Qed.
Print Assumptions C75_print.
Theorem C75_print_default : forall exc x y to_err o args l r,
  (to_err = false /\ x = Some o \/ to_err = true /\ (y = Some o \/ y = None /\ x = Some o)) ->
  told exc x y (print to_err args) l r -> all_good l ->
  exists t, joined [32%N] args t /\ concat (texts_to o l) = t ++ [10%N].
Proof.
  exact (fun exc x y te o args l r H1 H2 H3 => match print_told exc x y te o [32%N] [10%N] args l r H1 H2 H3 with
    | ex_intro _ t (conj H4 (conj H5 _)) => ex_intro _ t (conj H4 H5) end).
Qed.
Print Assumptions C75_print_default.
Example C75_print_case :
  exists l, told show_exc (Some 1) None (print true [txt "a"; txt "b"]) l Ends /\ all_good l /\ concat (texts_to 1 l) = txt "a b" ++ lf.
Proof.
  exists [Wrote 1 (txt "a") (Good 1); Wrote 1 [32%N] (Good 1); Wrote 1 (txt "b") (Good 1); Wrote 1 lf (Good 1)].
  split; [|split; [repeat constructor; eexists; reflexivity|reflexivity]].
  assert (P : forall data b l, told show_exc (Some 1) None b l Ends ->
    told show_exc (Some 1) None (KSeq (KPut true data) b) (Wrote 1 data (Good 1) :: l) Ends).
  { intros data b l H. apply (t_seq show_exc _ _ _ _ [Wrote 1 data (Good 1)] l); [|exact H].
    exact (t_err_out show_exc _ _ 1 data (Good 1) eq_refl eq_refl). }
  do 4 apply P. constructor.
Qed.

(** ** C76 *)

(** [with mirror:] on an open, line-collecting mirror with room in the queue that is not
    stopped: what is printed arrives in order, each text with a line break together with
    what was held before, at the end an unfinished line, then exactly one end signal: the
    exception if the block raised one, else "close". *)
Theorem C76_with_mirror : forall k exc b s d r s' d', well_nested b -> ~ In k (entered b) ->
  mreach d -> is_closed (e_mir d) = false -> m_aggr (e_mir d) = false -> e_qmax d = 0 -> stop_seen d = false ->
  kexec (proc_mirror k (fun _ d => d) exc) (KWith (Buf k) b) s d = (r, s', d') ->
  exists l ds v, told exc (Some k) (Some k) b l r /\ all_good l /\ r <> Hangs /\ out s' = out s /\ err s' = err s /\
    sent_by (held (e_mir d)) (texts_to k l) ds v /\
    e_q d' = e_q d ++ map QStr ds ++ match v with [] => [] | _ => [QStr (v ++ [10%N])] end
                   ++ [match exc_value r with None => QClose | Some e => QError (gm_init (GMExc e)) end] /\
    is_closed (e_mir d') = true.
Proof. exact c_with_proc. Qed.
Print Assumptions C76_with_mirror.
(** Nothing printed is lost, doubled or reordered: all messages together are the text held
    before and what was printed, and a line break if the last line was unfinished. *)
Theorem C76_complete : forall k exc b s d r s' d', well_nested b -> ~ In k (entered b) ->
  mreach d -> is_closed (e_mir d) = false -> m_aggr (e_mir d) = false -> e_qmax d = 0 -> stop_seen d = false ->
  kexec (proc_mirror k (fun _ d => d) exc) (KWith (Buf k) b) s d = (r, s', d') ->
  exists l ts fin, told exc (Some k) (Some k) b l r /\
    e_q d' = e_q d ++ map QStr ts ++ [match exc_value r with None => QClose | Some e => QError (gm_init (GMExc e)) end] /\
    concat ts = held (e_mir d) ++ concat (texts_to k l) ++ fin /\ (fin = [] \/ fin = [10%N]) /\ Forall (fun t => ~ no_break t) ts.
Proof. exact c_complete. Qed.
Print Assumptions C76_complete.
Definition mir0 : menv := new_mirror 0 (Some false).
Definition code2 : code := KSeq (print false [txt "a"; txt "b"]) (KSeq (KWith (ROut 7 100) (print false [txt "x"]))
  (KSeq (KPut true (txt "tail")) (KRaise oops))).
Example C76_demo :
  well_nested code2 /\ ~ In 1 (entered code2) /\ mreach mir0 /\ is_closed (e_mir mir0) = false /\ m_aggr (e_mir mir0) = false /\ e_qmax mir0 = 0 /\ stop_seen mir0 = false /\
  let '(r, s', d') := kexec (proc_mirror 1 (fun _ d => d) show_exc) (KWith (Buf 1) code2) std mir0 in
  r = Throws oops /\ out s' = Some 100 /\
  e_q d' = [QStr (txt "a b" ++ lf); QStr (txt "tail" ++ lf); QError (gm_init (GMExc oops))].
Proof.
  split; [repeat split|]. split; [intros []|]. split; [|vm_compute; repeat split].
  exists 0, 0, false, None, true, [], 0, (Some false). apply rtc_refl.
Qed.

(** The stop signal arrives inside the block.  Afterwards every print() into the mirror
    raises StopIteration.  If the mirror holds an unfinished line then, leaving the block
    raises StopIteration and sends no end signal, however the block ended; if it holds
    nothing, the end signal is sent and the block ends as it would have. *)
Theorem C76_stop_inside : forall k exc b s d r s' d', well_nested b -> ~ In k (entered b) ->
  mreach d -> is_closed (e_mir d) = false -> m_aggr (e_mir d) = false -> e_qmax d = 0 ->
  m_has (e_mir d) = true -> stop_seen d = false ->
  kexec (proc_mirror k (fun _ => stop_now) exc) (KWith (Buf k) b) s d = (r, s', d') ->
  exists l r0, told exc (Some k) (Some k) b l r0 /\ r <> Hangs /\ out s' = out s /\ err s' = err s /\
  forall l1 n l2, l = l1 ++ Happened n :: l2 -> quiet l1 ->
  exists ds v, sent_by (held (e_mir d)) (texts_to k l1) ds v /\ all_good l1 /\
    (forall o data x, In (Wrote o data x) l2 -> x = if o =? k then Fail StopIteration else Good (length data)) /\
    (v <> [] -> r = Throws (exc StopIteration) /\ e_q d' = e_q d ++ map QStr ds /\
                held (e_mir d') = v /\ is_closed (e_mir d') = false) /\
    (v = [] -> r = r0 /\
               e_q d' = e_q d ++ map QStr ds ++ [match exc_value r0 with None => QClose | Some e => QError (gm_init (GMExc e)) end] /\
               is_closed (e_mir d') = true).
Proof. exact c_stop_inside. Qed.
Print Assumptions C76_stop_inside.

(** mproc.py:823-825 says: catch StopIteration, otherwise the main process is stuck in
    wait().  Both directions are wrong.  Here it is caught inside the block, and still no
    end signal is sent: the signal comes between the two writes of one print(). *)
Theorem C76_catching_helps_refuted :
  exists b, well_nested b /\ ~ In 1 (entered b) /\
  b = KTry (KSeq (print false [txt "done"]) (KSeq (KPut false (txt "work")) (KSeq (KEvent 0) (KPut false lf)))) /\
  let '(r, _, d') := kexec (proc_mirror 1 (fun _ => stop_now) show_exc) (KWith (Buf 1) b) std mir0 in
  r = Throws (show_exc StopIteration) /\ e_q d' = [QStr (txt "done" ++ lf)] /\ is_closed (e_mir d') = false.
Proof. eexists. split; [|split; [|split; [reflexivity|]]]; [repeat split|intros []|]. vm_compute. repeat split. Qed.
Print Assumptions C76_catching_helps_refuted.
(** Here it is not caught, and the end signal is sent. *)
Theorem C76_not_catching_hurts_refuted :
  exists b, well_nested b /\ ~ In 1 (entered b) /\
  b = KSeq (print false [txt "done"]) (KSeq (KEvent 0) (print false [txt "more"])) /\
  let '(r, _, d') := kexec (proc_mirror 1 (fun _ => stop_now) show_exc) (KWith (Buf 1) b) std mir0 in
  r = Throws (show_exc StopIteration) /\
  e_q d' = [QStr (txt "done" ++ lf); QError (gm_init (GMExc (show_exc StopIteration)))] /\ is_closed (e_mir d') = true.
Proof. eexists. split; [|split; [|split; [reflexivity|]]]; [repeat split|intros []|]. vm_compute. repeat split. Qed.
Print Assumptions C76_not_catching_hurts_refuted.
