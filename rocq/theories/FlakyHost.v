(** * FlakyHost: the methods of LineHostMirror and LineHostReader under exceptions *)
From stdpp Require Import gmap.
From Coq Require Import List NArith ZArith Bool Arith Lia.
From Verif Require Import PyStr Prog ProgFacts PyIO Base Locks Json Host HostCli HostCliFacts Flaky FlakySpec FlakyFacts FlakyCalls.
Import ListNotations.
Local Open Scope prog_scope.
Local Open Scope nat_scope.

(** Programs that use the re-entrant lock [L] only. *)
Section One.
  Variable L : nat.
  Hypothesis HL : reent L = true.
  Definition uwl {A} (p : prog ccmd A) : Prop := forall n, uw may_acq (repeat L n) (repeat L n) p.
  Lemma ul_ret {A} (a : A) : uwl (Ret a). Proof. intros n. constructor. Qed.
  Lemma ul_raise {A} e : uwl (Raise e : prog ccmd A). Proof. intros n. constructor. Qed.
  Lemma ul_op {X} (c : ccmd X) : uwl (cop c). Proof. intros n. apply uw_one. Qed.
  Lemma ul_bind {A B} (p : prog ccmd A) (f : A -> prog ccmd B) : uwl p -> (forall a, uwl (f a)) -> uwl (bind p f).
  Proof. intros Hp Hf n. apply uw_bind; [apply Hp|]. intros a. apply Hf. Qed.
  Lemma ul_with {A} (p : prog ccmd A) : uwl p -> uwl (with_lock L Ex p).
  Proof.
    intros Hp n. apply uw_with; [|apply (Hp (S n))]. split; [discriminate|].
    destruct n; [left; constructor|]. right. split; [reflexivity|]. split; [exact HL|left; reflexivity].
  Qed.
  Lemma ul_then {A} r (f : option json -> prog ccmd A) : (forall b, uwl (f b)) -> uwl (request_then r f).
  Proof.
    intros Hf. unfold request_then. apply ul_bind; [apply ul_op|]. intros a. destruct (_ <? _); [apply Hf|].
    unfold raise_answer, json_load. destruct (snd a) as [v|]; [|apply ul_raise]. cbn [bind]. destruct v; apply ul_raise.
  Qed.
End One.
Ltac ul := repeat first
  [ apply ul_ret | apply ul_raise | apply ul_op
  | apply ul_with; [assumption|]
  | apply ul_then; intros ?
  | apply ul_bind; [|intros ?]
  | match goal with
    | |- uwl _ (if ?b then _ else _) => destruct b
    | |- uwl _ (match ?b with _ => _ end) => destruct b
    | |- uwl _ (json_load ?b) => destruct b
    | |- uwl _ (the_dict ?b) => destruct b
    | |- uwl _ (index _ ?b) => destruct b; cbn [index]
    | |- uwl _ (of_out' ?o) => destruct o
    end ].
Lemma ul_m_call M c : reent (hm_lock M) = true -> uwl (hm_lock M) (m_call M c).
Proof.
  intros HL.
  assert (Hd : forall data, uwl (hm_lock M) (hm_send_data M data)) by (intros data; unfold hm_send_data; ul).
  assert (Hk : uwl (hm_lock M) (hm_check_states M)) by (unfold hm_check_states; ul).
  assert (Hw : forall ck data, uwl (hm_lock M) (hm_write_body M ck data)).
  { intros ck data. unfold hm_write_body. apply ul_bind; [destruct ck; [exact Hk|apply ul_ret]|]. intros _. cbv zeta.
    destruct (hm_aggr M); [apply ul_bind; [apply Hd|intros; apply ul_ret]|].
    destruct (_ || _)%bool; [|ul]. apply ul_bind; [ul|]. intros res. apply ul_bind; [ul|]. intros v.
    apply ul_bind; [apply Hd|]. intros _. ul. }
  assert (Hn : forall ck, uwl (hm_lock M) (hm_new_line M ck)).
  { intros ck. unfold hm_new_line. apply ul_with; [exact HL|]. apply ul_bind; [ul|]. intros n. destruct (0 <? n)%nat; [|apply ul_ret].
    apply ul_bind; [apply Hw|intros; apply ul_ret]. }
  assert (He : uwl (hm_lock M) (hm_send_eof M)).
  { unfold hm_send_eof. apply ul_bind; [ul|]. intros [|]; [apply ul_ret|]. apply ul_bind; [apply Hn|]. intros _. ul. }
  assert (Hr : forall e, uwl (hm_lock M) (hm_send_error M e)).
  { intros e. unfold hm_send_error. apply ul_bind; [ul|]. intros [|]; [apply ul_ret|]. apply ul_bind; [apply Hn|]. intros _. ul. }
  assert (Hg : forall e, uwl (hm_lock M) (hm_send_warning M e)).
  { intros e. unfold hm_send_warning. apply ul_bind; [ul|]. intros [|]; [apply ul_ret|]. apply ul_bind; [apply Hn|]. intros _. ul. }
  destruct c; cbn [m_call]; unfold as_cres; (apply ul_bind; [|intros; apply ul_ret]); auto;
    try solve [unfold hm_clear, hm_flush, hm_read, hm_readable, hm_closed, hm_writable, hm_fileno, hm_seek, hm_isatty, hm_seekable; ul].
  - unfold hm_write. apply ul_bind; [unfold hm_writable; ul|]. intros [|]; [|apply ul_raise]. cbn [negb]. apply ul_with; [exact HL|apply Hw].
  - unfold hm_close. apply ul_bind; [ul|]. intros [|]; [apply ul_ret|]. apply ul_bind; [destruct exc; auto|]. intros _.
    unfold hm_clear. ul.
Qed.
Lemma ul_r_call L c : uwl L (r_call c).
Proof.
  destruct c; cbn [r_call]; unfold as_cres, rd_read, rd_get_states, rd_clear, rd_reset_states, rd_stop_all, rd_done; ul.
Qed.
Definition rlock (c : ccall) : Prop := match c with OnMir M _ => reent (hm_lock M) = true | OnRd _ => True end.
Lemma uw_c_call c : rlock c -> uw may_acq [] [] (c_call c).
Proof. destruct c as [M c|c]; cbn [c_call rlock]; intros H; [apply (ul_m_call M c H 0)|apply (ul_r_call 0 c 0)]. Qed.

(** ** C88 *)
(** A call of a client, with the exceptions [fs]. *)
Definition host_run (E : henv) (t : nat) (c : ccall) (w : world) (fs : faults) (k : locks) :=
  @run _ _ (flsem ccmd world (Sem0 := clisem E)) _ t (flaky_call (c_call c)) (mkst (w, fs) k).
Definition host_cut (E : henv) (t : nat) (c : ccall) := @cut _ _ (clisem E) _ t (c_call c).
Lemma c88_host E c t w fs k : rlock c -> wfk k ->
  host_cut E t c w k k fs (fst (host_run E t c w fs k)) (snd (host_run E t c w fs k)).
Proof. intros H Hk. apply run_flaky_call; [eapply uw_any, uw_c_call, H|exact Hk]. Qed.
Lemma c88_host_hit E c t w k j e a s1 : rlock c -> wfk k -> @run _ _ (clisem E) _ t (c_call c) (mkst w k) = (Good a, s1) ->
  exists n, host_run E t c w (repeat None n ++ [Some e]) k = (Fail e, mkst (dat (@prefix_run _ _ (clisem E) _ t j (c_call c) (mkst w k)), []) k).
Proof. intros H Hk. apply hit_call; [eapply uw_any, uw_c_call, H|exact Hk]. Qed.
Lemma c88_host_progress E css w sch ps' s' : Forall (Forall rlock) css ->
  @sched_run _ _ (flsem ccmd world (Sem0 := clisem E)) _ sch (fl_pool (map (map c_call) css), mkst w ∅) = Some (ps', s') ->
  (Forall (fun p => finished p = true) ps' /\ lks s' = ∅) \/ exists i c', @cstep _ _ (flsem ccmd world (Sem0 := clisem E)) _ i (ps', s') = Some c'.
Proof.
  intros H. apply (@no_deadlock _ _ (clisem E)); [intros X c d; apply cli_nb|]. apply List.Forall_map. eapply List.Forall_impl; [|exact H]. intros cs Hcs. cbv beta.
  apply List.Forall_map. eapply List.Forall_impl; [|exact Hcs]. intros c. apply uw_c_call.
Qed.
