(** * PropFlakyServer: exceptions inside the service of LineHostBuffer (C103)

    An exception may come before any command of a view function or method in the server
    process (KeyboardInterrupt, MemoryError, SystemExit of a worker that is stopped); the
    calls are those of PropFlaky.v.  [served E m s], [HostSpec.holds m g]: as in PropHost.v.
    [srv_left E t c s fs P Q]: the call [c], left by the first of [fs] that comes or not,
    leaves no lock held, [P] is true of the buffer and [Q] of the dict of states;
    [write_cut], [read_cut], [clear_cut]: as in PropFlakyBuf.v; [recs m g], [pend g]: the
    records and the unfinished text before the call (FlakySpec.v, FlakyServerSpec.v).
    Proofs are in FlakyServer.v and FlakyServerProofs.v. *)
From stdpp Require Import gmap.
From Coq Require Import String.
From Coq Require Import List NArith ZArith Bool Arith.
From Verif Require Import PyStr Prog PyIO Base Spec LineBuf Host HostSpec Flaky FlakySpec FlakyServer FlakyServerSpec FlakyServerProofs ProcRun.
Import ListNotations.
Local Open Scope nat_scope.

(** ** C103 *)
(** POST of a text: what write() of it may leave. *)
Theorem C103_text : forall E m s g t fs, 1 <= m -> served E m s -> HostSpec.holds m g (h_buf (dat s)) ->
  forall args data x, type_word E args (txt "str") -> field (txt "data") args (JObj data) -> field (txt "value") data x -> x <> JNull ->
  srv_left E t (HReq (PostMsg (BJson (JObj args)))) s fs (write_cut m (recs m g) (pend g) (py_str E x)) (eq (h_state (dat s))).
Proof. exact c103_text. Qed.
Print Assumptions C103_text.
(** POST of an error or a warning: nothing happened, or the current line is ended as by
    write("\n"), or all is done. *)
Theorem C103_message : forall E m s g t fs, 1 <= m -> served E m s -> HostSpec.holds m g (h_buf (dat s)) ->
  forall args data, type_word E args (txt "error") \/ type_word E args (txt "warning") -> field (txt "data") args (JObj data) ->
  srv_left E t (HReq (PostMsg (BJson (JObj args)))) s fs
    (fun b => b = h_buf (dat s) \/ (pend g <> [] /\ write_cut m (recs m g) (pend g) [10%N] b) \/
              exists i g', deserialize (JObj data) = Good i /\ log_note i g g' /\ HostSpec.holds m g' b)
    (eq (h_state (dat s))).
Proof. exact c103_message. Qed.
Print Assumptions C103_message.
Theorem C103_close : forall E m s g t fs, 1 <= m -> served E m s -> HostSpec.holds m g (h_buf (dat s)) ->
  forall args, type_word E args (txt "close") ->
  srv_left E t (HReq (PostMsg (BJson (JObj args)))) s fs
    (fun b => b = h_buf (dat s) \/ (pend g <> [] /\ write_cut m (recs m g) (pend g) [10%N] b)) (eq (h_state (dat s))).
Proof. exact c103_close. Qed.
Print Assumptions C103_close.
Theorem C103_get : forall E m s g t fs, 1 <= m -> served E m s -> HostSpec.holds m g (h_buf (dat s)) ->
  forall n, srv_left E t (HReq (GetMsg n)) s fs (read_cut m (recs m g) (pend g)) (eq (h_state (dat s))).
Proof. exact c103_get. Qed.
Print Assumptions C103_get.
Theorem C103_delete : forall E m s g t fs, 1 <= m -> served E m s -> HostSpec.holds m g (h_buf (dat s)) ->
  srv_left E t (HReq DelMsg) s fs (clear_cut m (recs m g) (pend g)) (eq (h_state (dat s))).
Proof. exact c103_delete. Qed.
Print Assumptions C103_delete.
(** The states: reading changes nothing; setting the flag happens at once or not at all;
    resetting them may leave none of them. *)
Theorem C103_get_state : forall E s t fs, lks s = ∅ ->
  forall name, srv_left E t (HReq (GetState name)) s fs (eq (h_buf (dat s))) (eq (h_state (dat s))).
Proof. exact c103_get_state. Qed.
Print Assumptions C103_get_state.
Theorem C103_post_state : forall E s t fs, lks s = ∅ ->
  forall b, srv_left E t (HReq (PostState b)) s fs (eq (h_buf (dat s)))
    (fun sd => sd = h_state (dat s) \/ sd = h_state (dat (snd (run t (h_call E (HReq (PostState b))) s)))).
Proof. exact c103_post_state. Qed.
Print Assumptions C103_post_state.
Theorem C103_stop : forall E s t fs, lks s = ∅ ->
  srv_left E t HStopAll s fs (eq (h_buf (dat s)))
    (fun sd => sd = h_state (dat s) \/ sd = h_state (dat (snd (run t (h_call E HStopAll) s)))).
Proof. exact c103_stop. Qed.
Print Assumptions C103_stop.
Theorem C103_reset : forall E s t fs, lks s = ∅ ->
  forall c, c = HReset \/ c = HReq DelState ->
  srv_left E t c s fs (eq (h_buf (dat s)))
    (fun sd => sd = h_state (dat s) \/ sd = [] \/ sd = [(txt "closed", JBool false)]).
Proof. exact c103_reset. Qed.
Print Assumptions C103_reset.

(** Any requests and calls, one after the other, any of them left by exceptions: none waits
    for a lock, the locks are free, there are at most [m] records, those that are texts
    without line breaks, the flag is true or false if it is there, and the service can be
    used ([srv_usable]). *)
Theorem C103_always : forall E m fs, 1 <= m -> forall h, let o := srv_hist E h (mkst (dat (hfresh m), fs) ∅) in
  Forall (fun r => r <> Block) (fst o) /\ lks (snd o) = ∅ /\
  srv_sound m (fst (dat (snd o))) /\ srv_usable E m (fst (dat (snd o))).
Proof. exact c103_always. Qed.
Print Assumptions C103_always.
(** Threads of the server: at every moment. *)
Theorem C103_concurrent : forall E m fs css sch ps' s', 1 <= m ->
  sched_run sch (fl_pool (map (map (h_call E)) css), mkst (dat (hfresh m), fs) ∅) = Some (ps', s') ->
  srv_sound m (fst (dat s')) /\ srv_usable E m (fst (dat s')).
Proof. exact c103_concurrent. Qed.
Print Assumptions C103_concurrent.

(** ** What does not hold *)
Definition env0 : henv := mkhenv (fun _ => []) (fun _ => (500, None)).
Definition hit_at (n : nat) : faults := repeat None n ++ [Some KeyboardInterrupt].
Definition text_post (s : text) : hcall := HReq (req_of (HText (JStr s))).
Definition err_post : hcall := HReq (req_of (HNote true (mkgmsg (JStr (txt "error")) [JStr (txt "boom")]))).
Definition lf1 (s : string) : text := txt s ++ [10%N].
(** A request that fails may have been stored: sent again, the line is there twice. *)
Theorem C103_failed_is_nothing_refuted :
  exists n, fst (srv_hist env0 [(0, text_post (lf1 "a")); (0, text_post (lf1 "a")); (0, HBase (Read None))] (mkst (dat (hfresh 5), hit_at n) ∅)) =
    [Fail KeyboardInterrupt; Good (HAnswer (success 201)); Good (HRes (RItems [IStr (txt "a"); IStr (txt "a")]))].
Proof. exists 9. vm_compute. reflexivity. Qed.
Print Assumptions C103_failed_is_nothing_refuted.
(** The current line is ended, but the message is not there. *)
Theorem C103_message_all_or_nothing_refuted :
  exists n, fst (srv_hist env0 [(0, text_post (txt "ab")); (0, err_post); (0, text_post (txt "c")); (0, HBase (Read None))] (mkst (dat (hfresh 5), hit_at n) ∅)) =
    [Good (HAnswer (success 201)); Fail KeyboardInterrupt; Good (HAnswer (success 201)); Good (HRes (RItems [IStr (txt "ab"); IStr (txt "c")]))].
Proof. exists 13. vm_compute. reflexivity. Qed.
Print Assumptions C103_message_all_or_nothing_refuted.
(** reset_states() that is left loses the flag: GET of "closed" then answers null. *)
Theorem C103_flag_exists_refuted :
  exists n, fst (srv_hist env0 [(0, HReset); (0, HReq (GetState (Some (txt "closed"))))] (mkst (dat (hfresh 5), hit_at n) ∅)) =
    [Fail KeyboardInterrupt; Good (HAnswer (state_answer JNull))].
Proof. exists 2. vm_compute. reflexivity. Qed.
Print Assumptions C103_flag_exists_refuted.

(** ** Cases *)
Definition some_served : st hdata := snd (h_hist env0 [(0, text_post (lf1 "a" ++ lf1 "b" ++ txt "c"))] (hfresh 2)).
Example C103_case_served : served env0 2 some_served /\ HostSpec.holds 2 (mkslog [IStr (txt "a"); IStr (txt "b")] (txt "c")) (h_buf (dat some_served)) /\ lks some_served = ∅.
Proof.
  assert (H : served env0 2 some_served) by (eexists; reflexivity). split; [exact H|]. split; [split; vm_compute; reflexivity|].
  destruct (HostProofs.served_good env0 2 some_served (le_S 1 1 (le_n 1)) H) as (a & sd & -> & _). reflexivity.
Qed.
Definition after_call (c : hcall) (n : nat) := let s' := snd (srv_run env0 0 c some_served (hit_at n)) in (fst (srv_run env0 0 c some_served (hit_at n)), h_buf (fst (dat s')), h_state (fst (dat s'))).
Example C103_case_text :
  after_call (text_post (lf1 "d")) 6 =
    (Fail KeyboardInterrupt, FlakySpec.holds 2 [IStr (txt "b"); IStr (txt "cd")] (txt "c") 1, [(txt "closed", JBool false); (txt "maxlen", JNum 2)]) /\
  type_word env0 [(txt "type", JStr (txt "str"))] (txt "str").
Proof. split; [vm_compute; reflexivity|]. exists (JStr (txt "str")). split; [constructor|]. apply Strip.strip_iff. vm_compute. reflexivity. Qed.
Example C103_case_message :
  after_call err_post 7 =
    (Fail KeyboardInterrupt, FlakySpec.holds 2 [IStr (txt "b"); IStr (txt "c")] [] 0, [(txt "closed", JBool false); (txt "maxlen", JNum 2)]).
Proof. vm_compute. reflexivity. Qed.
Example C103_case_get :
  after_call (HReq (GetMsg (Some (txt "2")))) 8 =
    (Fail KeyboardInterrupt, FlakySpec.holds 2 [IStr (txt "b")] (txt "c") 1, [(txt "closed", JBool false); (txt "maxlen", JNum 2)]).
Proof. vm_compute. reflexivity. Qed.
Example C103_case_reset :
  map (fun n => snd (after_call HReset n)) [1; 2; 3] =
    [[(txt "closed", JBool false); (txt "maxlen", JNum 2)]; []; [(txt "closed", JBool false)]].
Proof. vm_compute. reflexivity. Qed.
(** Two threads; the first request is left while it holds both locks. *)
Example C103_case_threads :
  let c := plan [(0, 12); (1, 1); (0, 100); (1, 100)]
    (fl_pool (map (map (h_call env0)) [[text_post (lf1 "a"); err_post]; [text_post (lf1 "b")]]), mkst (dat (hfresh 3), hit_at 7) ∅) in
  map finished (fst c) = [true; true] /\ map (fun i => match i with IStr _ => true | _ => false end) (dq (storage (h_buf (fst (dat (snd c)))))) = [true; false; true].
Proof. split; vm_compute; reflexivity. Qed.
