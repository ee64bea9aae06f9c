(** * FlakyServer: the service and the methods of LineHostBuffer under exceptions (C88) *)
From stdpp Require Import gmap.
From Coq Require Import List NArith ZArith Bool Arith Lia.
From Verif Require Import PyStr Prog ProgFacts PyIO Base LineBuf LineBufConc Locks Json Host HostFacts Flaky FlakySpec FlakyFacts FlakyCalls.
Import ListNotations.
Local Open Scope prog_scope.
Local Open Scope nat_scope.

Section Server.
  Variable E : henv.
  Variable Q : list nat -> nat -> lmode -> Prop.
  Hypothesis Qc : Q [] CL Ex.
  Hypothesis Ql : Q [] LL Ex.
  Hypothesis Qs : Q [] SL Ex.
  Hypothesis Qcl : Q [CL] LL Ex.
  Hypothesis Qcs : Q [CL] SL Ex.

  Lemma uw_of_out h {X} (o : outcome X) : uw Q h h (of_out o).
  Proof. destruct o; constructor. Qed.
  Lemma uw_read_ser h size : Q h LL Ex -> uw Q h h (h_read_serialized size).
  Proof. intros H. unfold h_read_serialized. apply uw_bind; [apply uw_lift, uw_lb_read, H|]. intros. apply uw_of_out. Qed.
  Lemma uw_handle r : uw Q [] [] (handle E r).
  Proof.
    destruct r as [b|n| |name|b|]; cbn [handle].
    - unfold h_post. destruct b as [| |v]; try solve [constructor]. destruct v; try solve [constructor]. cbv zeta. apply uw_with; [exact Qc|].
      apply uw_bind; [|intros; constructor].
      destruct (text_eqb _ _).
      { destruct (jget _ _) as [[]|]; try solve [constructor]. destruct (jget _ _) as [[]|]; try solve [constructor];
          (apply uw_bind; [apply uw_lift, uw_lb_write, Qcl|intros; constructor]). }
      destruct (_ || _)%bool.
      { destruct (jget _ _) as [[]|]; try solve [constructor]. apply uw_bind; [apply uw_lift, uw_lb_new_line, Qcl|]. intros _.
        apply uw_bind; [apply uw_of_out|]. intros. apply uw_one. }
      destruct (text_eqb _ _); [apply uw_lift, uw_lb_new_line, Qcl|constructor].
    - unfold h_get. match goal with |- uw _ _ _ (match ?x with _ => _ end) => destruct x as [z|]; [|constructor] end. apply uw_bind; [|intros; constructor].
      apply uw_with; [exact Qc|]. apply uw_read_ser, Qcl.
    - unfold h_delete. apply uw_bind; [|intros; constructor]. apply uw_with; [exact Qc|]. apply uw_lift, uw_lb_clear, Qcl.
    - unfold s_get. destruct (strip _); [constructor|]. apply uw_bind; [|intros; constructor]. apply uw_with; [exact Qc|].
      destruct (text_eqb _ _).
      + apply uw_bind; [|intros; constructor]. apply uw_lift. unfold lb_len, lb_maxlen. uwt.
      + apply uw_with; [exact Qcs|apply uw_one].
    - unfold s_post. destruct b as [| |v]; try solve [constructor]. destruct v; try solve [constructor]. destruct (strip _); [constructor|].
      apply uw_bind; [|intros; constructor]. apply uw_with; [exact Qc|]. apply uw_with; [exact Qcs|]. cbv zeta.
      destruct (text_eqb _ _); [apply uw_one|constructor].
    - unfold s_delete, h_reset_states. apply uw_bind; [|intros; constructor]. apply uw_with; [exact Qs|].
      apply uw_bind; [apply uw_one|]. intros. apply uw_one.
  Qed.
  Lemma uw_h_call c : uw Q [] [] (h_call E c).
  Proof.
    destruct c as [r|c|size| |]; cbn [h_call].
    - apply uw_bind; [apply uw_handle|intros; constructor].
    - destruct c; try (apply uw_bind; [apply uw_lift, uw_lb_call, Ql|intros; constructor]). apply uw_bind; [constructor|intros; constructor].
    - apply uw_bind; [apply uw_read_ser, Ql|intros; constructor].
    - apply uw_bind; [|intros; constructor]. unfold h_stop_all. apply uw_with; [exact Qs|apply uw_one].
    - apply uw_bind; [|intros; constructor]. unfold h_reset_states. apply uw_with; [exact Qs|]. apply uw_bind; [apply uw_one|]. intros. apply uw_one.
  Qed.
End Server.

Lemma uw_server E c : uw may_acq [] [] (h_call E c).
Proof.
  assert (H0 : forall l, may_acq [] l Ex) by (intros l; split; [discriminate|left; constructor]).
  apply uw_h_call; auto; (split; [discriminate|left; repeat constructor]).
Qed.
Lemma c88_server E c t d fs k : wfk k ->
  let o := run t (flaky_call (h_call E c)) (mkst (d, fs) k) in cut t (h_call E c) d k k fs (fst o) (snd o).
Proof. intros H. apply run_flaky_call; [eapply uw_any, uw_server|exact H]. Qed.
Lemma c88_server_hit E c t d k j e a s1 : wfk k -> run t (h_call E c) (mkst d k) = (Good a, s1) ->
  exists n, run t (flaky_call (h_call E c)) (mkst (d, repeat None n ++ [Some e]) k) = (Fail e, mkst (dat (prefix_run t j (h_call E c) (mkst d k)), []) k).
Proof. intros H. apply hit_call; [eapply uw_any, uw_server|exact H]. Qed.
Lemma c88_server_progress E css d sch ps' s' : sched_run sch (fl_pool (map (map (h_call E)) css), mkst d ∅) = Some (ps', s') ->
  (Forall (fun p => finished p = true) ps' /\ lks s' = ∅) \/ exists i c', cstep i (ps', s') = Some c'.
Proof.
  apply no_deadlock; [apply hexec_nb|]. apply List.Forall_map, List.Forall_forall. intros cs _. apply List.Forall_map, List.Forall_forall. intros c _.
  apply uw_server.
Qed.
