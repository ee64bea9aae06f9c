(** * PropPrintHost: printing inside [with LineHostMirror:] (C78)

    Proofs are in PrintHost.v. *)
From stdpp Require Import gmap.
From Coq Require Import String.
From Coq Require Import List NArith ZArith Bool Arith Lia.
From Verif Require Import PyStr Prog PyIO Base Spec LineBuf Json JsonSpec Host HostSpec HostCli HostCliSpec HostCliProofs
  Ctx Print PrintSpec PrintProofs PrintHost PropHostCli.
Import ListNotations.
Local Open Scope nat_scope.

(** ** C78 *)

(** [with mirror:], the server being reachable and not stopped: the server gets what the
    calls write(text), ..., close(exception or None) should post, in this order. *)
Theorem C78_with_mirror : forall E M m g0 v0, has_rlock M -> 1 <= m ->
  forall k exc b s w r s' w', well_nested b -> ~ In k (entered b) ->
  server E m (w_srv w) g0 false -> w_faults w = [] -> mirror_is M (Some v0) w -> (hm_aggr M = true -> v0 = []) ->
  kexec (host_mirror k E M (fun _ w => w) exc) (KWith (Buf k) b) s w = (r, s', w') ->
  exists l ms rs g, told exc (Some k) (Some k) b l r /\ all_good l /\ r <> Hangs /\ out s' = out s /\ err s' = err s /\
    mcalls_do (hm_aggr M) (map HWrite (texts_to k l) ++ [HClose (exc_value r)]) (Some v0) ms rs None /\
    hmsg_steps E ms g0 g /\ server E m (w_srv w') g false /\ mirror_is M None w' /\ others_same M w w'.
Proof. exact c_with_host. Qed.
Print Assumptions C78_with_mirror.

(** The stop signal arrives inside the block.  Afterwards every print() into the mirror
    raises StopIteration.  If the mirror holds an unfinished line then and the block does
    not end with StopIteration, leaving it raises StopIteration and sends nothing; in all
    other cases the held line and the end signal are sent. *)
Theorem C78_stop_inside : forall E M m g0 v0, has_rlock M -> 1 <= m ->
  forall k exc b s w r s' w', well_nested b -> ~ In k (entered b) ->
  server E m (w_srv w) g0 false -> w_faults w = [] -> mirror_is M (Some v0) w -> (hm_aggr M = true -> v0 = []) ->
  kexec (host_mirror k E M (fun _ => stop_server E) exc) (KWith (Buf k) b) s w = (r, s', w') ->
  exists l r0, told exc (Some k) (Some k) b l r0 /\ r <> Hangs /\ out s' = out s /\ err s' = err s /\
  forall l1 n l2, l = l1 ++ Happened n :: l2 -> quiet l1 ->
  exists v ms rs g, mcalls_do (hm_aggr M) (map HWrite (texts_to k l1)) (Some v0) ms rs (Some v) /\ hmsg_steps E ms g0 g /\ all_good l1 /\
    (forall o data x, In (Wrote o data x) l2 -> x = if o =? k then Fail StopIteration else Good (length data)) /\
    (v <> [] -> (forall e, exc_value r0 = Some e -> ex_cls e <> ExcStopIteration) ->
       r = Throws (exc StopIteration) /\ server E m (w_srv w') g true /\ mirror_is M (Some v) w') /\
    (v = [] \/ (exists e, exc_value r0 = Some e /\ ex_cls e = ExcStopIteration) ->
       r = r0 /\ mirror_is M None w' /\
       exists ms' g', mcall_does (hm_aggr M) (HClose (exc_value r0)) (Some v) ms' (Good CUnit) None /\
         hmsg_steps E ms' g g' /\ server E m (w_srv w') g' true).
Proof. exact c_stop_host. Qed.
Print Assumptions C78_stop_inside.

Definition lf : text := [10%N].
Definition std : sys := mksys (Some 100) (Some 101) (fun _ => (None, None)) (fun _ => []).
Definition show_exc (x : exn) : excobj :=
  match x with StopIteration => stop_exc | _ => mkexc ExcOther (txt "E" ++ lf) end.
Definition world0 : world := mkworld (dat (hfresh 4)) (<[0 := mksio [] 0 false]> (<[1 := mksio [] 0 false]> ∅)) [].
Definition after_block (M : hmir) (ev : nat -> world -> world) (b : code) : ending * (list item * text) * option sio :=
  let '(r, _, w') := kexec (host_mirror 1 E1 M ev show_exc) (KWith (Buf 1) b) std world0 in (r, shown w', w_mir w' !! hm_id M).
Definition told_error (s : text) : item := IMsg (mkgmsg (JStr (txt "error")) [JStr s]).
Definition code1 : code := KSeq (print false [txt "a"; txt "b"]) (KSeq (KPut true (txt "tail")) (KRaise exc1)).
Example C78_demo_server : server E1 4 (w_srv world0) slog0 false /\ mirror_is M0 (Some []) world0 /\ mirror_is M1 (Some []) world0.
Proof. split; [exact (server_msgs E1 4 [] slog0 ltac:(lia) ltac:(constructor))|]. split; reflexivity. Qed.
Example C78_demo :
  well_nested code1 /\ ~ In 1 (entered code1) /\
  fst (fst (after_block M0 (fun _ w => w) code1)) = Throws exc1 /\
  snd (fst (after_block M0 (fun _ w => w) code1)) = ([IStr (txt "a b"); IStr (txt "tail"); told_error (txt "boom")], []) /\
  snd (fst (after_block M1 (fun _ w => w) code1)) = ([IStr (txt "a b"); IStr (txt "tail"); told_error (txt "boom")], []).
Proof. split; [repeat split|]. split; [intros []|]. vm_compute. auto. Qed.

(** host.py:754-755 says: catch StopIteration; the error is not sent back to the buffer.
    Not caught, it is sent back, and the mirror is closed properly ... *)
Definition code2 : code := KSeq (print false [txt "done"]) (KSeq (KPut false (txt "work")) (KSeq (KEvent 0) (KPut false lf))).
Theorem C78_error_not_sent_refuted :
  let '(r, shown, m) := after_block M0 (fun _ => stop_server E1) code2 in
  r = Throws stop_exc /\ shown = ([IStr (txt "done"); IStr (txt "work"); told_error (txt "stop")], []) /\ option_map sclosed m = Some true.
Proof. vm_compute. auto. Qed.
Print Assumptions C78_error_not_sent_refuted.
(** ... but caught inside the block, the text is not sent, there is no end signal, and
    leaving the block raises StopIteration all the same. *)
Theorem C78_catching_helps_refuted :
  let '(r, shown, m) := after_block M0 (fun _ => stop_server E1) (KTry code2) in
  r = Throws stop_exc /\ shown = ([IStr (txt "done")], []) /\ m = Some (mksio (txt "work") 4 false).
Proof. vm_compute. auto. Qed.
Print Assumptions C78_catching_helps_refuted.
