(** * HostConc: concurrent requests on the host service (lemmas for C56) *)
From stdpp Require Import gmap.
From Coq Require Import String.
From Coq Require Import List NArith ZArith Bool Arith Lia.
From Verif Require Import PyStr Prog ProgFacts PyIO Base Spec LineBuf LineBufFacts LineBufConcProofs
  Conc Locks Atomic Serial Host HostFacts.
Import ListNotations.
Local Open Scope prog_scope.
Local Open Scope nat_scope.

(** One thread per element: it makes these calls on the object one after the other. *)
Definition h_pool (E : henv) (css : list (list hcall)) : list (prog hcmd (list (outcome hres))) :=
  map (fun cs => thread (map (h_call E) cs)) css.
(** Requests and the two calls that change the state (each uses the locks of the service). *)
Definition service_call (c : hcall) : Prop := match c with HBase _ | HReadSer _ => False | _ => True end.

(** ** The two parts of the data and their locks *)
Definition hS (l : nat) (d d' : hdata) : Prop :=
  (l = CL -> h_buf d = h_buf d') /\ (l = SL -> h_state d = h_state d').
Definition hP (i : nat) (d d' : hdata) : Prop := True.
Definition hmain (l : nat) : Prop := l = CL \/ l = SL.
Lemma hmain_plain l : hmain l -> reent l = false.
Proof. intros [-> | ->]; reflexivity. Qed.
Lemma hS_equiv l : Equivalence (hS l).
Proof.
  split.
  - intros d. split; reflexivity.
  - intros d d' [H1 H2]. split; intros H; symmetry; auto.
  - intros d d' d'' [H1 H2] [G1 G2]. split; intros H; [rewrite H1 by exact H; auto|rewrite H2 by exact H; auto].
Qed.
Lemma hP_equiv i : Equivalence (hP i).
Proof. split; repeat intro; exact I. Qed.

Notation sharC := (shar hS hP CL Ex).
Notation sharS := (shar hS hP SL Ex).
Lemma shar_HB i {X} (c : bcmd X) : sharC i (HB c).
Proof.
  split; [|split; [|split]].
  - intros d1 d2 [H _] _. specialize (H eq_refl). cbn [cexec hsem hexec]. rewrite H.
    destruct (bexec c (h_buf d2)) as [r b]. cbn [fst snd]. split; [reflexivity|].
    split; [|exact I]. split; [reflexivity|discriminate].
  - intros; exact I.
  - discriminate.
  - intros l d Hl. cbn [cexec hsem hexec]. destruct (bexec c (h_buf d)) as [r b]. cbn [snd].
    split; [congruence|reflexivity].
Qed.
Lemma shar_get i name : sharS i (HStGet name).
Proof.
  split; [|split; [|split]].
  - intros d1 d2 [_ H] _. specialize (H eq_refl). cbn [cexec hsem hexec fst snd]. rewrite H.
    split; [reflexivity|]. split; [|exact I]. split; [discriminate|auto].
  - intros; exact I.
  - discriminate.
  - intros l d Hl. split; reflexivity.
Qed.
Lemma shar_set i name v : sharS i (HStSet name v).
Proof.
  split; [|split; [|split]].
  - intros d1 d2 [_ H] _. specialize (H eq_refl). cbn [cexec hsem hexec fst snd]. rewrite H.
    split; [reflexivity|]. split; [|exact I]. split; [discriminate|reflexivity].
  - intros; exact I.
  - discriminate.
  - intros l d Hl. split; [reflexivity|congruence].
Qed.
Lemma shar_clear i : sharS i HStClear.
Proof.
  split; [|split; [|split]].
  - intros d1 d2 [_ H] _. split; [reflexivity|]. split; [|exact I]. split; [discriminate|reflexivity].
  - intros; exact I.
  - discriminate.
  - intros l d Hl. split; [reflexivity|congruence].
Qed.

(** ** Shape of the requests *)
Notation bodyC := (Serial.body hS hP CL Ex).
Notation bodyS := (Serial.body hS hP SL Ex).
Lemma body_ofout {X} i (o : outcome X) : bodyC i (of_out o).
Proof. destruct o; constructor. Qed.
(** Programs on the buffer that use only its own lock. *)
Inductive onlyLL {A} : prog bcmd A -> Prop :=
| oll_ret a : onlyLL (Ret a)
| oll_raise e : onlyLL (Raise e)
| oll_op X (c : bcmd X) k h : (forall x, onlyLL (k x)) -> (forall e, onlyLL (h e)) -> onlyLL (Act (Op c) k h)
| oll_acq m k h : onlyLL (k tt) -> onlyLL (Act (Acq LL m) k h)
| oll_rel k h : onlyLL (k tt) -> onlyLL (Act (Rel LL) k h).
Lemma oll_bind {A B} (p : prog bcmd A) (f : A -> prog bcmd B) : onlyLL p -> (forall a, onlyLL (f a)) -> onlyLL (bind p f).
Proof. intros H Hf. induction H; simpl; auto; constructor; auto. Qed.
Lemma oll_nolock {A} (p : prog bcmd A) : nolock p -> onlyLL p.
Proof. induction 1; constructor; auto. Qed.
Lemma oll_try {A} (p : prog bcmd A) : onlyLL p -> onlyLL (try_finally p (release LL)).
Proof. induction 1; simpl; try (constructor; auto); constructor. Qed.
Lemma oll_with {A} m (p : prog bcmd A) : nolock p -> onlyLL (with_lock LL m p).
Proof. intros H. apply oll_acq, oll_try, oll_nolock, H. Qed.
Lemma oll_clear : onlyLL lb_clear.
Proof. apply oll_bind; [apply oll_with; nolock_tac|]. intros _. apply oll_nolock; nolock_tac. Qed.
Lemma oll_write data : onlyLL (lb_write data).
Proof.
  apply oll_bind; [apply oll_with; nolock_tac|]. intros [|]; simpl; [|constructor].
  apply oll_with, nolock_write_body, nolock_parse.
Qed.
Lemma oll_new_line : onlyLL lb_new_line.
Proof. apply oll_with, nolock_new_line_body, nolock_parse. Qed.
Lemma oll_read size : onlyLL (lb_read size).
Proof.
  apply oll_bind; [apply oll_with; nolock_tac|]. intros [|]; simpl; [|constructor].
  apply oll_with. destruct size as [z|]; [|apply nolock_read_all].
  destruct (0 <? z)%Z; [apply nolock_read_n|constructor].
Qed.
Lemma oll_len : onlyLL lb_len.
Proof.
  apply oll_bind; [apply oll_nolock; nolock_tac|]. intros n.
  apply oll_bind; [apply oll_nolock; nolock_tac|]. intros n'.
  apply oll_bind; [apply oll_with; nolock_tac|]. intros x. constructor.
Qed.
Lemma body_oll {A} i (p : prog bcmd A) : onlyLL p -> bodyC i (hlift p).
Proof.
  induction 1; simpl; [constructor|constructor|constructor; [apply shar_HB|auto..]|apply body_acq; [discriminate|auto]|apply body_rel; [discriminate|auto]].
Qed.

Notation wB := (wfB hmain hS hP).
Lemma wB_A {X} i (x : X) : wfA hS hP i (Ret x : prog hcmd X).
Proof. constructor. Qed.
Lemma wB_C {X} i (p : prog hcmd X) : bodyC i p -> wB i (with_lock CL Ex p).
Proof. apply wfB_with. left. reflexivity. Qed.
Lemma wB_S {X} i (p : prog hcmd X) : bodyS i p -> wB i (with_lock SL Ex p).
Proof. apply wfB_with. right. reflexivity. Qed.

Lemma wB_handle E i r : wB i (handle E r).
Proof.
  destruct r as [b|n| |name|b|]; cbn [handle].
  - destruct b as [| |v]; [constructor..|]. destruct v as [|bb|z|s|l|args]; try solve [constructor].
    unfold h_post. cbv beta iota zeta. apply wB_C. apply body_bind; [|intros; constructor].
    destruct (text_eqb _ s_str); [|destruct (text_eqb _ s_error || text_eqb _ s_warning); [|destruct (text_eqb _ s_close)]].
    + destruct (jget k_data args) as [[| | | | |data]|]; try solve [constructor].
      destruct (jget k_value data) as [[]|]; try solve [constructor];
        (apply body_bind; [apply body_oll, oll_write|intros; constructor]).
    + destruct (jget k_data args) as [[| | | | |data]|]; try solve [constructor].
      apply body_bind; [apply body_oll, oll_new_line|]. intros _.
      apply body_bind; [apply body_ofout|]. intros x. apply body_one, shar_HB.
    + apply body_oll, oll_new_line.
    + constructor.
  - unfold h_get.
    assert (H : forall size, wB i (data <- with_lock CL Ex (h_read_serialized size) ;;
        Ret (200, JObj [(k_message, JStr s_success); (k_data, JArr data)]))).
    { intros size. apply wfB_bind; [|intros; apply wB_A]. apply wB_C.
      apply body_bind; [apply body_oll, oll_read|intros; apply body_ofout]. }
    destruct n as [s|]; [destruct (py_int s)|]; try apply H. constructor.
  - unfold h_delete. apply wfB_bind; [|intros; apply wB_A]. apply wB_C, body_oll, oll_clear.
  - unfold s_get. destruct (strip _) as [|c l]; [constructor|]. apply wfB_bind; [|intros; apply wB_A].
    destruct (text_eqb _ _).
    + apply wB_C. apply body_bind; [apply body_oll, oll_len|intros; constructor].
    + apply wfB_around, wB_S, body_one, shar_get.
  - destruct b as [| |v]; [constructor..|]. destruct v as [|bb|z|s|l|args]; try solve [constructor].
    unfold s_post. cbv beta iota zeta. destruct (strip _) as [|c l]; [constructor|].
    apply wfB_bind; [|intros; apply wB_A]. apply wfB_around, wB_S.
    destruct (text_eqb _ _); [apply body_one, shar_set|constructor].
  - unfold s_delete, h_reset_states. apply wfB_bind; [|intros; apply wB_A].
    apply wB_S, body_bind; [apply body_one, shar_clear|intros; apply body_one, shar_set].
Qed.
Lemma wB_call E i c : service_call c -> wB i (h_call E c).
Proof.
  intros Hc. destruct c as [r|c|size| |]; cbn [h_call service_call] in *; try contradiction.
  - apply wfB_bind; [apply wB_handle|intros; apply wB_A].
  - apply wfB_bind; [|intros; apply wB_A]. apply wB_S, body_one, shar_set.
  - apply wfB_bind; [|intros; apply wB_A].
    apply wB_S, body_bind; [apply body_one, shar_clear|intros; apply body_one, shar_set].
Qed.

Lemma h_pool_imap E css : h_pool E css = pool (fun _ => h_call E) css.
Proof.
  unfold h_pool, pool. symmetry. rewrite (imap_const (fun cs => thread (map (h_call E) cs))). reflexivity.
Qed.
Notation seqrun E := (sseq (fun _ : nat => h_call E)).
Lemma h_hist_sseq E order : forall d,
  h_hist E order (mkst d ∅) = (map snd (fst (seqrun E order d)), mkst (snd (seqrun E order d)) ∅) /\
  map fst (fst (seqrun E order d)) = map fst order.
Proof.
  induction order as [|[i c] order IH]; intros d; [split; reflexivity|].
  cbn [h_hist sseq]. rewrite run_h_call.
  destruct (srun (h_call E c) d) as [r d1]. cbn [fst snd].
  destruct (IH d1) as [H1 H2]. rewrite H1.
  destruct (seqrun E order d1) as [rs d2]. cbn [fst snd map] in *. rewrite H2. auto.
Qed.
Lemma events_combine {Y} i (l : list (nat * Y)) : events_of i (combine (map fst l) (map snd l)) = events_of i l.
Proof.
  f_equal. induction l as [|[j y] l IH]; [reflexivity|]. cbn [map combine fst snd]. rewrite IH. reflexivity.
Qed.

Theorem host_serializable E css d0 sch ps' s' :
  Forall (Forall service_call) css ->
  sched_run sch (h_pool E css, mkst d0 ∅) = Some (ps', s') -> Forall (fun p => finished p = true) ps' ->
  exists order : list (nat * hcall),
    order_of css order /\
    snd (h_hist E order (mkst d0 ∅)) = s' /\
    (forall i p, nth_error ps' i = Some p ->
       p = Ret (events_of i (combine (map fst order) (fst (h_hist E order (mkst d0 ∅)))))).
Proof.
  intros Hok Hr Hfin. rewrite h_pool_imap in Hr.
  destruct (serial (fun _ => h_call E) hmain hmain_plain hexec_nb hS hP hS_equiv hP_equiv
              (fun _ c => service_call c)) with (css := css) (d0 := d0) (sch := sch) (ps' := ps') (s' := s')
    as (order & H1 & H2 & H3 & H4 & H5 & H6); auto.
  - intros i c Hc. apply wB_call, Hc.
  - intros i cs Hcs. rewrite List.Forall_forall in Hok. apply Hok, elem_of_list_In, elem_of_list_lookup. eauto.
  - intros i c _. apply wlk_h_call.
  - exists order. destruct (h_hist_sseq E order d0) as [G1 G2].
    split; [split; [exact H1|]|split].
    + intros i cs Hcs. rewrite lookup_nth_error in Hcs. apply H2, Hcs.
    + rewrite G1. cbn [snd]. destruct s' as [d' k']. cbn [dat lks] in *. subst k'. f_equal. symmetry.
      destruct (H4 CL) as [E1 _], (H4 SL) as [_ E2]. specialize (E1 eq_refl). specialize (E2 eq_refl).
      destruct d', (snd (seqrun E order d0)); simpl in *; congruence.
    + intros i p Hp. rewrite lookup_nth_error in Hp. rewrite (H3 i p Hp), G1. cbn [fst].
      rewrite <- G2, events_combine. reflexivity.
Qed.

Theorem host_no_deadlock E css d0 sch ps' s' :
  sched_run sch (h_pool E css, mkst d0 ∅) = Some (ps', s') ->
  (Forall (fun p => finished p = true) ps' /\ lks s' = ∅) \/ (exists i c', cstep i (ps', s') = Some c').
Proof.
  intros Hr. apply (lock_progress hexec_nb (h_pool E css) d0 sch ps' s'); [|exact Hr].
  unfold h_pool. apply List.Forall_map, List.Forall_forall. intros cs _.
  apply wlk_thread, List.Forall_map, List.Forall_forall. intros c _. apply wlk_h_call.
Qed.
