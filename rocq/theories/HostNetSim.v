(** * HostNetSim: pools and responses change nothing of what is sent and returned (C87)

    [sim p q U]: the program [p] with connections does what [q] does without them, when the
    attributes [__http_] of [U] are filled. *)
From stdpp Require Import gmap.
From Coq Require Import String.
From Coq Require Import List NArith ZArith Bool Arith Lia.
From Verif Require Import PyStr Prog ProgFacts PyIO Base LineBuf Json Host HostCli HostLazy HostLazySpec HostNet HostNetSpec.
Import ListNotations.
Local Open Scope prog_scope.
Local Open Scope nat_scope.

Notation attrs := (list (nat + nat)).
Definition simn {X} (c : ncmd X) {A} (k : X -> prog lcmd A -> attrs -> Prop) (h : exn -> prog lcmd A -> attrs -> Prop) (q : prog lcmd A) (U : attrs) : Prop :=
  match c in ncmd X return (X -> prog lcmd A -> attrs -> Prop) -> Prop with
  | NL c => fun k => exists k' h', q = Act (Op c) k' h' /\ (forall x, k x (k' x) U) /\ (forall e, h e (h' e) U)
  | NReq n r => fun k => exists k' h', q = Act (Op (LC (CReq r))) k' h' /\ (forall i code b, k (mkresp n i code b) (k' (code, b)) U) /\ (forall e, h e (h' e) U)
  | NHttp u => fun k => forall x, (In u U -> x <> None) -> k x q (match x with Some _ => u :: U | None => U end)
  | NSet u n => fun k => k tt q (u :: U)
  | NPool => fun k => forall n, k n q U
  | NStack j => fun k => forall z, k z q U
  | NFin _ _ | NLoad _ _ | NRelease _ _ | NClose _ _ | NClear _ | NStackSet _ _ | NDie _ => fun k => k tt q U
  end k.
Fixpoint sim {A} (p : prog ncmd A) : prog lcmd A -> attrs -> Prop :=
  match p with
  | Ret a => fun q _ => q = Ret a
  | Raise e => fun q _ => q = Raise e
  | Act c k h => fun q U =>
      match c in cmd _ X return (X -> prog lcmd A -> attrs -> Prop) -> Prop with
      | Acq l m => fun k => exists k' h', q = Act (Acq l m) k' h' /\ (forall x, k x (k' x) U) /\ (forall e, sim (h e) (h' e) U)
      | Rel l => fun k => exists k' h', q = Act (Rel l) k' h' /\ (forall x, k x (k' x) U) /\ (forall e, sim (h e) (h' e) U)
      | Op c => fun k => simn c k (fun e => sim (h e)) q U
      end (fun x => sim (k x))
  end.

Lemma sim_more {A} (p : prog ncmd A) : forall q U U', (forall u, In u U -> In u U') -> sim p q U -> sim p q U'.
Proof.
  induction p as [a|e|X c k IHk h IHh]; intros q U U' HU; [auto|auto|]. destruct c as [l m|l|X c]; cbn.
  - intros (k' & h' & -> & H1 & H2). eauto 8.
  - intros (k' & h' & -> & H1 & H2). eauto 8.
  - destruct c; cbn; eauto.
    + intros (k' & h' & -> & H1 & H2). exists k', h'. eauto.
    + intros H x Hx. eapply IHk; [|apply H; auto]. destruct x; cbn; intuition.
    + apply IHk. cbn. intuition.
    + intros (k' & h' & -> & H1 & H2). exists k', h'. eauto.
Qed.
Lemma sim_bind {A B} (p : prog ncmd A) (f : A -> prog ncmd B) g : forall q U, sim p q U -> (forall a, sim (f a) (g a) U) -> sim (bind p f) (bind q g) U.
Proof.
  induction p as [a|e|X c k IHk h IHh]; intros q U H Hf; [cbn in H; subst q; apply Hf|cbn in H; subst q; reflexivity|].
  assert (Hf' : forall U', (forall u, In u U -> In u U') -> forall a, sim (f a) (g a) U') by (intros U' HU a; eapply sim_more; eauto).
  destruct c as [l m|l|X c]; cbn in H |- *.
  - destruct H as (k' & h' & -> & H1 & H2). cbn. do 2 eexists. split; [reflexivity|]. eauto.
  - destruct H as (k' & h' & -> & H1 & H2). cbn. do 2 eexists. split; [reflexivity|]. eauto.
  - destruct c; cbn in H |- *; eauto.
    + destruct H as (k' & h' & -> & H1 & H2). cbn. do 2 eexists. split; [reflexivity|]. eauto.
    + intros x Hx. apply IHk; [auto|]. apply Hf'. destruct x; cbn; auto.
    + apply IHk; [auto|]. apply Hf'. cbn. auto.
    + destruct H as (k' & h' & -> & H1 & H2). cbn. do 2 eexists. split; [reflexivity|]. eauto.
Qed.
(** Programs that do nothing but what is hidden. *)
Definition silent (p : prog ncmd unit) : Prop := forall U, sim p (Ret tt) U.
Lemma sim_after {A B} (p : prog ncmd A) (f : A -> prog ncmd B) a : forall q U, sim p (Ret a) U -> sim (f a) q U -> sim (bind p f) q U.
Proof.
  induction p as [a'|e|X c k IHk h IHh]; intros q U H Hf; [injection H as ->; exact Hf|discriminate|].
  destruct c as [l m|l|X c]; cbn in H |- *; [destruct H as (? & ? & [=] & _)|destruct H as (? & ? & [=] & _)|].
  destruct c; cbn in H |- *; eauto; try (destruct H as (? & ? & [=] & _); fail).
  - intros x Hx. apply IHk; [auto|]. eapply sim_more; [|exact Hf]. destruct x; cbn; auto.
  - apply IHk; [auto|]. eapply sim_more; [|exact Hf]. cbn. auto.
Qed.
Lemma sim_try {A} (p : prog ncmd A) fin fin' : forall q U, sim p q U -> (forall U, sim fin fin' U) -> sim (try_finally p fin) (try_finally q fin') U.
Proof.
  induction p as [a|e|X c k IHk h IHh]; intros q U H Hf.
  - cbn in H. subst q. cbn [try_finally]. apply sim_bind; [apply Hf|reflexivity].
  - cbn in H. subst q. cbn [try_finally]. apply sim_bind; [apply Hf|reflexivity].
  - destruct c as [l m|l|X c]; cbn in H |- *.
    + destruct H as (k' & h' & -> & H1 & H2). cbn. do 2 eexists. split; [reflexivity|]. eauto.
    + destruct H as (k' & h' & -> & H1 & H2). cbn. do 2 eexists. split; [reflexivity|]. eauto.
    + destruct c; cbn in H |- *; eauto.
      * destruct H as (k' & h' & -> & H1 & H2). cbn. do 2 eexists. split; [reflexivity|]. eauto.
      * destruct H as (k' & h' & -> & H1 & H2). cbn. do 2 eexists. split; [reflexivity|]. eauto.
Qed.
Lemma sim_finally {A} (p : prog ncmd A) fin : forall q U, sim p q U -> silent fin -> sim (try_finally p fin) q U.
Proof.
  induction p as [a|e|X c k IHk h IHh]; intros q U H Hf.
  - cbn [try_finally]. eapply sim_after; [apply Hf|]. exact H.
  - cbn [try_finally]. eapply sim_after; [apply Hf|]. exact H.
  - destruct c as [l m|l|X c]; cbn in H |- *.
    + destruct H as (k' & h' & -> & H1 & H2). do 2 eexists. split; [reflexivity|]. eauto.
    + destruct H as (k' & h' & -> & H1 & H2). do 2 eexists. split; [reflexivity|]. eauto.
    + destruct c; cbn in H |- *; eauto.
      * destruct H as (k' & h' & -> & H1 & H2). do 2 eexists. split; [reflexivity|]. eauto.
      * destruct H as (k' & h' & -> & H1 & H2). do 2 eexists. split; [reflexivity|]. eauto.
Qed.
Lemma sim_attempt {A} (p : prog ncmd A) : forall q U, sim p q U -> sim (attempt p) (attempt q) U.
Proof.
  induction p as [a|e|X c k IHk h IHh]; intros q U H; [cbn in H; subst q; reflexivity|cbn in H; subst q; reflexivity|].
  destruct c as [l m|l|X c]; cbn in H |- *.
  - destruct H as (k' & h' & -> & H1 & H2). cbn. do 2 eexists. split; [reflexivity|]. eauto.
  - destruct H as (k' & h' & -> & H1 & H2). cbn. do 2 eexists. split; [reflexivity|]. eauto.
  - destruct c; cbn in H |- *; eauto.
    + destruct H as (k' & h' & -> & H1 & H2). cbn. do 2 eexists. split; [reflexivity|]. eauto.
    + destruct H as (k' & h' & -> & H1 & H2). cbn. do 2 eexists. split; [reflexivity|]. eauto.
Qed.

Lemma sim_ret {A} (a : A) U : sim (Ret a) (Ret a) U. Proof. reflexivity. Qed.
Lemma sim_raise {A} e U : sim (A:=A) (Raise e) (Raise e) U. Proof. reflexivity. Qed.
Lemma sim_op {X} (c : lcmd X) U : sim (op (NL c)) (op c) U.
Proof. cbn. do 2 eexists. split; [reflexivity|]. split; reflexivity. Qed.
Lemma sim_lift {A} (p : prog lcmd A) U : sim (lift (fun _ c => NL c) p) p U.
Proof.
  induction p as [a|e|X c k IHk h IHh]; [reflexivity|reflexivity|]. destruct c as [l m|l|X c]; cbn; do 2 eexists; (split; [reflexivity|]); auto.
Qed.
Lemma sim_with j {A} (p : prog ncmd A) q U : (forall U, sim p q U) -> sim (n_with j A p) (hl_with j q) U.
Proof.
  intros H. apply sim_bind; [apply sim_lift|]. intros l. cbn. do 2 eexists. split; [reflexivity|]. split; [|reflexivity].
  intros _. apply sim_try; [apply H|]. intros U'. cbn. do 2 eexists. split; [reflexivity|]. split; reflexivity.
Qed.

(** *** Requests *)
Definition keeps_load {A} (f : prog ncmd json -> prog ncmd A) (f' : prog lcmd json -> prog lcmd A) : Prop :=
  forall load load' U, sim load load' U -> sim (f load) (f' load') U.
Definition lop X (c : ccmd X) : prog lcmd X := op (LC c).
Lemma sim_request k {A} r (f : prog ncmd json -> prog ncmd A) f' U : keeps_load f f' -> sim (n_request k r f) (coarse lop A r f') U.
Proof.
  intros Hf. unfold n_request, coarse. cbn [op bind sim simn]. do 2 eexists. split; [reflexivity|]. split; [|reflexivity].
  intros i code b. cbn [rs_pool rs_id rs_code rs_body fst snd bind]. apply sim_finally; [|intros U'; reflexivity].
  assert (Hl : forall U, sim (bind (op (NLoad k i)) (fun _ => g_load b)) (g_load b) U) by (intros U'; destruct b; reflexivity).
  destruct (code <? 400); [apply Hf, Hl|]. apply sim_bind; [apply Hl|]. intros v. apply sim_bind; [destruct v; reflexivity|]. reflexivity.
Qed.
Lemma sim_m_req j {A} r (f : prog ncmd json -> prog ncmd A) f' U : keeps_load f f' -> sim (m_req j A r f) (coarse lop A r f') U.
Proof.
  intros Hf. unfold m_req, m_http. cbn [op bind sim simn]. intros [k|] _; cbn [op bind sim simn].
  - intros [k2|] H2; [apply sim_request, Hf|]. destruct H2; [left; reflexivity|reflexivity].
  - intros n [k2|] H2; [|destruct H2; [left; reflexivity|reflexivity]]. cbn [op bind sim simn n_some].
    intros [k3|] H3; [apply sim_request, Hf|]. destruct H3; [left; reflexivity|reflexivity].
Qed.
Lemma sim_r_req j {A} r (f : prog ncmd json -> prog ncmd A) f' U : keeps_load f f' -> sim (r_req j A r f) (coarse lop A r f') U.
Proof.
  intros Hf. unfold r_req. cbn [op bind sim simn]. intros [k|] _; cbn [op bind sim simn].
  - intros [k2|] H2; [apply sim_request, Hf|]. destruct H2; [left; reflexivity|reflexivity].
  - intros n. apply sim_finally; [apply sim_request, Hf|]. intros U'. reflexivity.
Qed.
Lemma keeps_ret {A} (a : A) : keeps_load (fun _ => Ret a) (fun _ => Ret a). Proof. intros load load' U _. reflexivity. Qed.
Lemma keeps_bind {A} (G : json -> prog ncmd A) G' : (forall v U, sim (G v) (G' v) U) -> keeps_load (fun load => bind load G) (fun load => bind load G').
Proof. intros H load load' U Hl. apply sim_bind; [exact Hl|]. intros v. apply H. Qed.
Lemma sim_dict v U : sim (g_dict v) (g_dict v) U. Proof. destruct v; reflexivity. Qed.
Lemma sim_index key v U : sim (n_index key v) (n_index key v) U.
Proof. unfold n_index. destruct v; try reflexivity. destruct (jget key _); reflexivity. Qed.
Lemma sim_out {X} (x : outcome X) U : sim (n_out x) (n_out x) U. Proof. destruct x; reflexivity. Qed.

Section Mirror.
  Variables (J : nat) (ag : bool).
  Notation wl := (n_with J).
  Notation wl' := (fun A => @hl_with J A).
  Notation req := (m_req J).
  Notation req' := (coarse lop).
  Lemma sim_closed U : sim (wl _ (n_op _ (MClosed J))) (hl_with J (lop bool (MClosed J))) U. Proof. apply sim_with. intros. apply sim_op. Qed.
  Lemma sim_open U : sim (wl _ (bind (n_op _ (MClosed J)) (fun c => Ret (negb c)))) (hl_with J (bind (lop bool (MClosed J)) (fun c => Ret (negb c)))) U.
  Proof. apply sim_with. intros. apply sim_bind; [apply sim_op|reflexivity]. Qed.
  Lemma sim_send data U : sim (n_send_data n_op wl req J data) (n_send_data lop wl' req' J data) U.
  Proof. apply sim_bind; [apply sim_closed|]. intros [|]; [reflexivity|apply sim_m_req, keeps_ret]. Qed.
  Lemma sim_check U : sim (n_check_states n_op wl req J) (n_check_states lop wl' req' J) U.
  Proof.
    apply sim_bind; [apply sim_closed|]. intros [|]; [reflexivity|]. apply sim_bind.
    - apply sim_m_req, keeps_bind. intros v U'. apply sim_bind; [apply sim_dict|]. reflexivity.
    - intros v. destruct v as [|[|]| | | |]; reflexivity.
  Qed.
  Lemma sim_write_body check data U : sim (n_write_body n_op wl req J ag check data) (n_write_body lop wl' req' J ag check data) U.
  Proof.
    unfold n_write_body. apply sim_bind; [destruct check; [apply sim_check|reflexivity]|]. intros _. destruct ag.
    - apply sim_bind; [apply sim_send|reflexivity].
    - destruct (_ || _).
      + apply sim_bind; [apply sim_op|]. intros n. apply sim_bind; [apply sim_op|]. intros v. apply sim_bind; [apply sim_send|]. intros _.
        apply sim_bind; [apply sim_op|]. intros _. apply sim_bind; [apply sim_op|]. reflexivity.
      + destruct (_ =? _); [apply sim_op|reflexivity].
  Qed.
  Lemma sim_new_line check U : sim (n_new_line n_op wl req J ag check) (n_new_line lop wl' req' J ag check) U.
  Proof.
    apply sim_with. intros U'. apply sim_bind; [apply sim_op|]. intros n. destruct (_ <? _); [|reflexivity].
    apply sim_bind; [apply sim_write_body|reflexivity].
  Qed.
  Lemma sim_signal check body U : sim (n_signal n_op wl req J ag check body) (n_signal lop wl' req' J ag check body) U.
  Proof.
    apply sim_bind; [apply sim_closed|]. intros [|]; [reflexivity|]. apply sim_bind; [apply sim_new_line|]. intros _. apply sim_m_req, keeps_ret.
  Qed.
  Lemma sim_clear U : sim (g_clear n_op wl J) (g_clear lop wl' J) U.
  Proof. apply sim_with. intros U'. apply sim_bind; [apply sim_op|]. intros _. apply sim_op. Qed.
  Lemma sim_as {X} (f : X -> cres) p q U : sim p q U -> sim (g_as f p) (g_as f q) U.
  Proof. intros H. apply sim_bind; [exact H|]. reflexivity. Qed.
  Lemma sim_mcall c U : sim (n_mcall n_op wl req J ag c) (n_mcall lop wl' req' J ag c) U.
  Proof.
    destruct c; unfold n_mcall; cbn [g_call]; apply sim_as.
    - apply sim_bind; [apply sim_open|]. intros w. destruct (negb w); [reflexivity|]. apply sim_with. intros. apply sim_write_body.
    - apply sim_new_line.
    - apply sim_signal.
    - apply sim_signal.
    - apply sim_signal.
    - apply sim_send.
    - apply sim_check.
    - apply sim_clear.
    - apply sim_with. intros. apply sim_op.
    - apply sim_bind; [apply sim_open|]. intros w. destruct (negb w); [reflexivity|]. apply sim_with. intros. apply sim_op.
    - apply sim_bind; [apply sim_closed|]. intros [|]; [reflexivity|]. apply sim_bind; [destruct exc; apply sim_signal|]. intros _.
      apply sim_bind; [apply sim_clear|]. intros _. apply sim_with. intros. apply sim_op.
    - apply sim_closed.
    - apply sim_open.
    - apply sim_open.
    - reflexivity.
    - reflexivity.
    - reflexivity.
    - reflexivity.
  Qed.
End Mirror.

(** *** Readers *)
Fixpoint peq {A} (q : prog lcmd A) : prog lcmd A -> Prop :=
  match q with
  | Ret a => fun q' => q' = Ret a
  | Raise e => fun q' => q' = Raise e
  | Act c k h => fun q' => exists k' h', q' = Act c k' h' /\ (forall x, peq (k x) (k' x)) /\ (forall e, peq (h e) (h' e))
  end.
Lemma sim_peq {A} (p : prog ncmd A) : forall q q' U, sim p q U -> peq q q' -> sim p q' U.
Proof.
  induction p as [a|e|X c k IHk h IHh]; intros q q' U; [cbn; intros ->; cbn; auto|cbn; intros ->; cbn; auto|]. destruct c as [l m|l|X c]; cbn.
  - intros (k' & h' & -> & H1 & H2) (k2 & h2 & -> & H3 & H4). do 2 eexists. split; [reflexivity|]. eauto.
  - intros (k' & h' & -> & H1 & H2) (k2 & h2 & -> & H3 & H4). do 2 eexists. split; [reflexivity|]. eauto.
  - destruct c; cbn; eauto.
    + intros (k' & h' & -> & H1 & H2) (k2 & h2 & -> & H3 & H4). do 2 eexists. split; [reflexivity|]. eauto.
    + intros (k' & h' & -> & H1 & H2) (k2 & h2 & -> & H3 & H4). do 2 eexists. split; [reflexivity|]. eauto.
Qed.
Lemma reader_lift c : peq (n_rcall (coarse lop) c) (lift (fun _ c => LC c) (r_call c)).
Proof.
  rewrite <- reader_methods. unfold n_rcall, n_read, n_get_states, n_done, coarse, lop, g_as, n_refused.
  destruct c; cbn [bind op lift lift_cmd peq]; do 2 eexists; (split; [reflexivity|]); (split; [|reflexivity]); intros [code b]; cbn [fst snd bind];
    (destruct (code <? 400); (destruct b as [v|]; [|reflexivity])); cbn [g_load bind]; try (destruct v; reflexivity).
  - destruct v as [| | | | |fs]; try reflexivity. cbn [n_index]. destruct (jget k_data fs) as [d|]; [|reflexivity]. cbn [bind].
    destruct (py_tuple d) as [l|e|]; [|reflexivity|reflexivity]. cbn [n_out bind]. destruct (deserialize_all l); reflexivity.
  - destruct v as [| | | | |fs]; try reflexivity. cbn [n_index]. destruct (jget k_data fs) as [d|]; reflexivity.
  - destruct v as [| | | | |fs]; try reflexivity. cbn [n_index]. destruct (jget k_data fs) as [d|]; reflexivity.
  - destruct v as [| | | | |fs]; try reflexivity. cbn [n_index]. destruct (jget k_data fs) as [d|]; reflexivity.
Qed.
Lemma sim_rcall j c U : sim (n_rcall (r_req j) c) (n_rcall (coarse lop) c) U.
Proof.
  destruct c; unfold n_rcall; apply sim_as; apply sim_r_req, keeps_bind; intros v U'.
  - apply sim_bind; [apply sim_index|]. intros d. apply sim_bind; [apply sim_out|]. intros l. apply sim_out.
  - apply sim_index.
  - apply sim_index.
  - apply sim_index.
  - apply sim_bind; [apply sim_dict|]. reflexivity.
  - apply sim_bind; [apply sim_dict|]. reflexivity.
  - apply sim_bind; [apply sim_dict|]. reflexivity.
Qed.
Lemma sim_call c U : sim (k_call c) (plain_call c) U.
Proof.
  destruct c as [M c|j c|j|j|j]; unfold k_call, plain_call.
  - rewrite <- lazy_methods. apply sim_mcall.
  - eapply sim_peq; [apply sim_rcall|apply reader_lift].
  - unfold g_as, r_enter. cbn [op bind sim simn]. intros [k|] _; [reflexivity|]. intros n z. reflexivity.
  - unfold g_as, r_exit. cbn [op bind sim simn]. intros z.
    assert (Hrest : forall U, sim (bind (bind (op (NStack j)) (fun z2 => if (z2 <=? 0)%Z then bind (op (NHttp (inr j))) (fun h =>
      match h with Some _ => bind (op (NHttp (inr j))) (fun h2 => bind (n_some h2) (fun k => op (NClear k))) | None => Ret tt end) else Ret tt)) (fun x => Ret (unit_cres x))) (Ret CUnit) U).
    { intros U'. cbn [op bind sim simn]. intros z2. destruct (z2 <=? 0)%Z; [|reflexivity]. cbn [op bind sim simn]. intros [k|] _; [|reflexivity].
      cbn [op bind sim simn]. intros [k2|] H2; [reflexivity|]. destruct H2; [left; reflexivity|reflexivity]. }
    destruct (0 <? z)%Z; cbn [op bind sim simn]; [intros z1|]; apply Hrest.
  - reflexivity.
Qed.
Lemma sim_thread cs : forall rs U, sim (thread_from rs (map k_call cs)) (thread_from rs (map plain_call cs)) U.
Proof.
  induction cs as [|c cs IH]; intros rs U; [reflexivity|]. cbn [map thread_from]. apply sim_bind; [apply sim_attempt, sim_call|]. intros r. apply IH.
Qed.

(** *** All threads *)
Section Steps.
  Variable E : henv.
  Notation P := (list (prog ncmd (list (outcome cres))) * st nworld)%type.
  Notation P' := (list (prog lcmd (list (outcome cres))) * st lworld)%type.
  Notation R := (list (outcome cres)).
  Definition rel_thread (H : gmap (nat + nat) nat) (p : prog ncmd R) (q : prog lcmd R) : Prop :=
    exists U, (forall u, In u U -> H !! u <> None) /\ sim p q U.
  Definition rel (c : P) (c' : P') : Prop :=
    Forall2 (rel_thread (n_http (dat (snd c)))) (fst c) (fst c') /\ snd c' = mkst (n_l (dat (snd c))) (lks (snd c)).

  Lemma http_stays X (c : ncmd X) w u : n_http w !! u <> None -> n_http (snd (nexec E c w)) !! u <> None.
  Proof.
    destruct c; cbn; auto.
    - destruct (lexec E c (n_l w)). auto.
    - destruct (decide (u0 = u)) as [->|Hne]; [rewrite lookup_insert; discriminate|rewrite lookup_insert_ne by exact Hne; auto].
    - unfold nreq. destruct (creq E r (l_w (n_l w))) as [[[code b]|e|] w']; auto.
  Qed.
  Notation low s := (mkst (n_l (dat s)) (lks s)).
  Notation pst := (@pstep ncmd nworld (nsem E) R).
  Notation pst' := (@pstep lcmd lworld (lsem E) R).
  Lemma http_stays_step i p s p' s' u : pst i p s = Some (p', s') -> n_http (dat s) !! u <> None -> n_http (dat s') !! u <> None.
  Proof.
    destruct p as [a|e|X c k h]; [discriminate|discriminate|]. cbn. destruct c as [l m|l|X c]; cbn.
    - destruct (lock_acq _ _ _ _ _) as [[x|e|] lk]; intros [= <- <-]; auto.
    - destruct (lock_rel _ _ _) as [[x|e|] lk]; intros [= <- <-]; auto.
    - intros Hs Hu. pose proof (http_stays X c (dat s) u Hu) as Hu'. destruct (nexec E c (dat s)) as [[x|e|] d]; try discriminate Hs; injection Hs as <- <-; exact Hu'.
  Qed.
  Lemma rel_more i p s p' s' (p2 : prog ncmd R) q : pst i p s = Some (p', s') -> rel_thread (n_http (dat s)) p2 q -> rel_thread (n_http (dat s')) p2 q.
  Proof. intros Hs (U & HU & H). exists U. split; [|exact H]. intros u Hu. eapply http_stays_step; eauto. Qed.
  Lemma sim_step i p s p' s' q : rel_thread (n_http (dat s)) p q -> pst i p s = Some (p', s') ->
    (exists q', pst' i q (low s) = Some (q', low s') /\ rel_thread (n_http (dat s')) p' q') \/ (low s' = low s /\ rel_thread (n_http (dat s')) p' q).
  Proof.
    intros (U & HU & H) Hs. assert (HU' : forall u, In u U -> n_http (dat s') !! u <> None) by (intros u Hu; eapply http_stays_step; eauto).
    destruct p as [a|e|X c k h]; [discriminate|discriminate|]. destruct c as [l m|l|X c].
    - destruct H as (k' & h' & -> & H1 & H2). left. cbn in Hs |- *. destruct (lock_acq _ _ _ _ _) as [[x|e|] lk]; try discriminate Hs; injection Hs as <- <-; eexists; (split; [reflexivity|]); exists U; auto.
    - destruct H as (k' & h' & -> & H1 & H2). left. cbn in Hs |- *. destruct (lock_rel _ _ _) as [[x|e|] lk]; try discriminate Hs; injection Hs as <- <-; eexists; (split; [reflexivity|]); exists U; auto.
    - destruct c as [X c|u|u n| |j n|n r|n m|n m|n m|n|j|j z|j]; cbn in H, Hs.
      + destruct H as (k' & h' & -> & H1 & H2). left. cbn. destruct (lexec E c (n_l (dat s))) as [[x|e|] d]; try discriminate Hs; injection Hs as <- <-; eexists; (split; [reflexivity|]); exists U; auto.
      + injection Hs as <- <-. right. split; [reflexivity|]. eexists. split; [|apply H].
        * intros u'. destruct (n_http (dat s) !! u) eqn:Hu; [intros [<-|Hin]; [cbn; congruence|auto]|auto].
        * auto.
      + injection Hs as <- <-. right. split; [reflexivity|]. eexists. split; [|exact H]. intros u' [<-|Hin]; [cbn; rewrite lookup_insert; discriminate|auto].
      + injection Hs as <- <-. right. split; [reflexivity|]. exists U. auto.
      + injection Hs as <- <-. right. split; [reflexivity|]. exists U. auto.
      + destruct H as (k' & h' & -> & H1 & H2). left. cbn. unfold nreq in Hs. destruct (creq E r (l_w (n_l (dat s)))) as [[[code b]|e|] w'].
        * injection Hs as <- <-. eexists. split; [reflexivity|]. exists U. auto.
        * injection Hs as <- <-. eexists. split; [reflexivity|]. exists U. auto.
        * discriminate.
      + injection Hs as <- <-. right. split; [reflexivity|]. exists U. auto.
      + injection Hs as <- <-. right. split; [reflexivity|]. exists U. auto.
      + injection Hs as <- <-. right. split; [reflexivity|]. exists U. auto.
      + injection Hs as <- <-. right. split; [reflexivity|]. exists U. auto.
      + injection Hs as <- <-. right. split; [reflexivity|]. exists U. auto.
      + injection Hs as <- <-. right. split; [reflexivity|]. exists U. auto.
      + injection Hs as <- <-. right. split; [reflexivity|]. exists U. auto.
  Qed.
  (** A thread that cannot go on. *)
  Lemma sim_stuck i p s q : rel_thread (n_http (dat s)) p q -> pst i p s = None -> pst' i q (low s) = None.
  Proof.
    intros (U & HU & H) Hs. destruct p as [a|e|X c k h]; [cbn in H; subst q; reflexivity|cbn in H; subst q; reflexivity|]. destruct c as [l m|l|X c].
    - destruct H as (k' & h' & -> & H1 & H2). cbn in Hs |- *. destruct (lock_acq _ _ _ _ _) as [[x|e|] lk]; congruence.
    - destruct H as (k' & h' & -> & H1 & H2). cbn in Hs |- *. destruct (lock_rel _ _ _) as [[x|e|] lk]; congruence.
    - destruct c as [X c|u|u n| |j n|n r|n m|n m|n m|n|j|j z|j]; cbn in H, Hs; try discriminate Hs.
      + destruct H as (k' & h' & -> & H1 & H2). cbn. destruct (lexec E c (n_l (dat s))) as [[x|e|] d]; congruence.
      + destruct H as (k' & h' & -> & H1 & H2). cbn. unfold nreq in Hs. destruct (creq E r (l_w (n_l (dat s)))) as [[[code b]|e|] w']; congruence.
  Qed.
  Lemma rel_cstep i c c2 c' : rel c c2 -> @cstep ncmd nworld (nsem E) _ i c = Some c' -> exists sch c2', hl_sched E sch c2 = Some c2' /\ rel c' c2'.
  Proof.
    intros [Hf Hd] Hs. unfold cstep in Hs. destruct (fst c !! i) as [p|] eqn:Hp; [|discriminate].
    destruct (Forall2_lookup_l _ _ _ _ _ Hf Hp) as (q & Hq & Hr). destruct (pst i p (snd c)) as [[p' s']|] eqn:Hst; [|discriminate]. injection Hs as <-.
    assert (Hf' : Forall2 (rel_thread (n_http (dat s'))) (fst c) (fst c2)) by (eapply Forall2_impl; [exact Hf|]; intros p2 q2; eapply rel_more; eauto).
    destruct (sim_step _ _ _ _ _ _ Hr Hst) as [(q' & Hq' & Hr')|[Hl Hr']].
    - exists [i], (<[i := q']> (fst c2), low s'). split.
      + unfold hl_sched, sched_run, cstep. rewrite Hq, Hd, Hq'. reflexivity.
      + split; [|reflexivity]. cbn [fst snd]. apply Forall2_insert; auto.
    - exists [], c2. split; [reflexivity|]. split; [|cbn [snd]; rewrite Hd, <- Hl; reflexivity]. cbn [fst snd].
      replace (fst c2) with (<[i := q]> (fst c2)) by (apply list_insert_id, Hq). apply Forall2_insert; auto.
  Qed.
  Lemma hl_sched_app a : forall b c c1 c2, hl_sched E a c = Some c1 -> hl_sched E b c1 = Some c2 -> hl_sched E (a ++ b) c = Some c2.
  Proof.
    unfold hl_sched. induction a as [|i a IH]; intros b c c1 c2 Ha Hb; [injection Ha as ->; exact Hb|]. cbn in Ha |- *.
    destruct (@cstep lcmd lworld (lsem E) _ i c) as [c'|]; [|discriminate]. eapply IH; eauto.
  Qed.
  Lemma rel_sched sch : forall c c2 c', rel c c2 -> net_sched E sch c = Some c' -> exists sch' c2', hl_sched E sch' c2 = Some c2' /\ rel c' c2'.
  Proof.
    induction sch as [|i sch IH]; intros c c2 c' Hr Hs; unfold net_sched in Hs; cbn in Hs; [injection Hs as <-; exists [], c2; auto|].
    destruct (@cstep ncmd nworld (nsem E) _ i c) as [c1|] eqn:Hc; [|discriminate].
    destruct (rel_cstep _ _ _ _ Hr Hc) as (s1 & c3 & H1 & H2). destruct (IH _ _ _ H2 Hs) as (s2 & c4 & H3 & H4).
    exists (s1 ++ s2), c4. split; [eapply hl_sched_app; eauto|exact H4].
  Qed.
  Lemma same_results css w sch ps' s' : net_sched E sch (net_pool css, mkst (nstart w) ∅) = Some (ps', s') ->
    exists sch' qs', hl_sched E sch' (plain_pool css, mkst w ∅) = Some (qs', low s') /\ length qs' = length ps' /\
      (forall i rs, ps' !! i = Some (Ret rs) -> qs' !! i = Some (Ret rs)) /\
      (forall i, @cstep ncmd nworld (nsem E) _ i (ps', s') = None -> @cstep lcmd lworld (lsem E) _ i (qs', low s') = None).
  Proof.
    intros Hs. assert (Hr : rel (net_pool css, mkst (nstart w) ∅) (plain_pool css, mkst w ∅)).
    { split; [|reflexivity]. cbn [fst snd dat]. unfold net_pool, plain_pool. clear. induction css as [|cs css IH]; constructor; [|exact IH].
      exists []. split; [intros u []|]. apply sim_thread. }
    destruct (rel_sched _ _ _ _ Hr Hs) as (sch' & [qs' s2] & H1 & [H2 H3]). cbn [fst snd] in *. subst s2. exists sch', qs'. split; [exact H1|]. split; [symmetry; eapply Forall2_length; eauto|].
    split.
    - intros i rs Hi. destruct (Forall2_lookup_l _ _ _ _ _ H2 Hi) as (q & Hq & U & _ & Hsim). cbn in Hsim. rewrite Hq, Hsim. reflexivity.
    - intros i Hi. unfold cstep in *. cbn [fst snd] in *. destruct (qs' !! i) as [q|] eqn:Hq; [|reflexivity].
      destruct (Forall2_lookup_r _ _ _ _ _ H2 Hq) as (p & Hp & Hrel). rewrite Hp in Hi.
      destruct (pst i p s') as [[p' s2]|] eqn:Hst; [discriminate|]. rewrite (sim_stuck _ _ _ _ Hrel Hst). reflexivity.
  Qed.

  (** *** Conversely *)
  Definition hidden {X} (c : cmd ncmd X) : bool := match c with Op (NL _) | Op (NReq _ _) | Acq _ _ | Rel _ => false | _ => true end.
  Definition settled (p : prog ncmd R) : bool := match p with Act c _ _ => negb (hidden c) | _ => true end.
  Lemma hidden_step i X (c : cmd ncmd X) k h s q : hidden c = true -> rel_thread (n_http (dat s)) (Act c k h) q ->
    exists x s', pst i (Act c k h) s = Some (k x, s') /\ low s' = low s /\ rel_thread (n_http (dat s')) (k x) q.
  Proof.
    intros Hh (U & HU & H). assert (HU' : forall p' s', pst i (Act c k h) s = Some (p', s') -> forall u, In u U -> n_http (dat s') !! u <> None).
    { intros p' s' Hs u Hu. eapply http_stays_step; eauto. }
    destruct c as [l m|l|X c]; [discriminate|discriminate|]. destruct c as [X c|u|u n| |j n|n r|n m|n m|n m|n|j|j z|j]; try discriminate Hh; cbn in H; cbn [pstep exec cexec nsem nexec] in HU' |- *;
      do 2 eexists; (split; [reflexivity|]); (split; [reflexivity|]); specialize (HU' _ _ eq_refl); try (exists U; split; [exact HU'|apply H]; fail).
    - eexists. split; [|apply H; auto]. intros u'. cbn. destruct (n_http (dat s) !! u) eqn:Hu; [intros [<-|Hin]; [congruence|auto]|auto].
    - eexists. split; [|exact H]. intros u' [<-|Hin]; [cbn; rewrite lookup_insert; discriminate|auto].
  Qed.
  Lemma shown_step i p s q q' s2 : settled p = true -> rel_thread (n_http (dat s)) p q -> pst' i q (low s) = Some (q', s2) ->
    exists p' s', pst i p s = Some (p', s') /\ s2 = low s' /\ rel_thread (n_http (dat s')) p' q'.
  Proof.
    intros Hh (U & HU & H) Hq. assert (HU' : forall p' s', pst i p s = Some (p', s') -> forall u, In u U -> n_http (dat s') !! u <> None).
    { intros p' s' Hs u Hu. eapply http_stays_step; eauto. }
    destruct p as [a|e|X c k h]; [cbn in H; subst q; discriminate|cbn in H; subst q; discriminate|]. destruct c as [l m|l|X c].
    - destruct H as (k' & h' & -> & H1 & H2). cbn in Hq, HU' |- *. destruct (lock_acq _ _ _ _ _) as [[x|e|] lk]; try discriminate Hq; injection Hq as <- <-;
        do 2 eexists; (split; [reflexivity|]); (split; [reflexivity|]); exists U; (split; [apply (HU' _ _ eq_refl)|]); auto.
    - destruct H as (k' & h' & -> & H1 & H2). cbn in Hq, HU' |- *. destruct (lock_rel _ _ _) as [[x|e|] lk]; try discriminate Hq; injection Hq as <- <-;
        do 2 eexists; (split; [reflexivity|]); (split; [reflexivity|]); exists U; (split; [apply (HU' _ _ eq_refl)|]); auto.
    - destruct c as [X c|u|u n| |j n|n r|n m|n m|n m|n|j|j z|j]; try discriminate Hh.
      + destruct H as (k' & h' & -> & H1 & H2). cbn in Hq, HU' |- *. destruct (lexec E c (n_l (dat s))) as [[x|e|] d]; try discriminate Hq; injection Hq as <- <-;
          do 2 eexists; (split; [reflexivity|]); (split; [reflexivity|]); exists U; (split; [apply (HU' _ _ eq_refl)|]); auto.
      + destruct H as (k' & h' & -> & H1 & H2). cbn in Hq, HU' |- *. unfold nreq in *. destruct (creq E r (l_w (n_l (dat s)))) as [[[code b]|e|] w']; try discriminate Hq; injection Hq as <- <-;
          do 2 eexists; (split; [reflexivity|]); (split; [reflexivity|]); exists U; (split; [apply (HU' _ _ eq_refl)|]); auto.
  Qed.
  Lemma net_sched_app a : forall b c c1 c2, net_sched E a c = Some c1 -> net_sched E b c1 = Some c2 -> net_sched E (a ++ b) c = Some c2.
  Proof.
    unfold net_sched. induction a as [|i a IH]; intros b c c1 c2 Ha Hb; [injection Ha as ->; exact Hb|]. cbn in Ha |- *.
    destruct (@cstep ncmd nworld (nsem E) _ i c) as [c'|]; [|discriminate]. eapply IH; eauto.
  Qed.
  Lemma catch_up i p : forall c c2, fst c !! i = Some p -> rel c c2 ->
    exists sch c', net_sched E sch c = Some c' /\ rel c' c2 /\ (exists p', fst c' !! i = Some p' /\ settled p' = true) /\ forall j, j <> i -> fst c' !! j = fst c !! j.
  Proof.
    induction p as [a|e|X cm k IHk h IHh]; intros c c2 Hp Hr.
    - exists [], c. split; [reflexivity|]. split; [exact Hr|]. split; [exists (Ret a); auto|auto].
    - exists [], c. split; [reflexivity|]. split; [exact Hr|]. split; [exists (Raise e); auto|auto].
    - destruct (hidden cm) eqn:Hh.
      + destruct Hr as [Hf Hd]. destruct (Forall2_lookup_l _ _ _ _ _ Hf Hp) as (q & Hq & Hr).
        destruct (hidden_step i X cm k h (snd c) q Hh Hr) as (x & s' & Hs & Hl & Hr').
        assert (Hf' : Forall2 (rel_thread (n_http (dat s'))) (fst c) (fst c2)) by (eapply Forall2_impl; [exact Hf|]; intros p2 q2; eapply rel_more; eauto).
        assert (Hlen : i < length (fst c)) by (eapply lookup_lt_Some; eauto).
        destruct (IHk x (<[i := k x]> (fst c), s') c2) as (sch & c' & H1 & H2 & H3 & H4).
        * cbn [fst]. apply list_lookup_insert, Hlen.
        * split; [|cbn [snd]; rewrite Hd, <- Hl; reflexivity]. cbn [fst snd]. replace (fst c2) with (<[i := q]> (fst c2)) by (apply list_insert_id, Hq). apply Forall2_insert; auto.
        * exists (i :: sch), c'. split; [|split; [exact H2|]; split; [exact H3|]].
          -- unfold net_sched in *. cbn [sched_run]. unfold cstep at 1. rewrite Hp, Hs. exact H1.
          -- intros j Hj. rewrite (H4 j Hj). cbn [fst]. apply list_lookup_insert_ne. congruence.
      + exists [], c. split; [reflexivity|]. split; [exact Hr|]. split; [|auto]. exists (Act cm k h). split; [exact Hp|]. unfold settled. rewrite Hh. reflexivity.
  Qed.
  Lemma back_cstep i c c2 c2' : rel c c2 -> @cstep lcmd lworld (lsem E) _ i c2 = Some c2' -> exists sch c', net_sched E sch c = Some c' /\ rel c' c2'.
  Proof.
    intros Hr Hs. unfold cstep in Hs. destruct (fst c2 !! i) as [q|] eqn:Hq; [|discriminate].
    destruct (Forall2_lookup_r _ _ _ _ _ (proj1 Hr) Hq) as (p & Hp & _). destruct (catch_up i p c c2 Hp Hr) as (s1 & c1 & H1 & [Hf Hd] & (p1 & Hp1 & Hset) & _).
    destruct (Forall2_lookup_l _ _ _ _ _ Hf Hp1) as (q1 & Hq1 & Hr1). rewrite Hq in Hq1. injection Hq1 as <-. rewrite Hd in Hs.
    destruct (pst' i q (low (snd c1))) as [[q' s2]|] eqn:Hst; [|discriminate]. injection Hs as <-.
    destruct (shown_step i p1 (snd c1) q q' s2 Hset Hr1 Hst) as (p' & s' & Hs' & -> & Hr').
    exists (s1 ++ [i]), (<[i := p']> (fst c1), s'). split.
    - eapply net_sched_app; [exact H1|]. unfold net_sched. cbn [sched_run]. unfold cstep. rewrite Hp1, Hs'. reflexivity.
    - split; [|reflexivity]. cbn [fst snd]. apply Forall2_insert; [|exact Hr']. eapply Forall2_impl; [exact Hf|]. intros p2 q2. eapply rel_more; eauto.
  Qed.
  Lemma back_sched sch : forall c c2 c2', rel c c2 -> hl_sched E sch c2 = Some c2' -> exists sch' c', net_sched E sch' c = Some c' /\ rel c' c2'.
  Proof.
    induction sch as [|i sch IH]; intros c c2 c2' Hr Hs; unfold hl_sched in Hs; cbn in Hs; [injection Hs as <-; exists [], c; auto|].
    destruct (@cstep lcmd lworld (lsem E) _ i c2) as [c3|] eqn:Hc; [|discriminate].
    destruct (back_cstep _ _ _ _ Hr Hc) as (s1 & c1 & H1 & H2). destruct (IH _ _ _ H2 Hs) as (s2 & c4 & H3 & H4).
    exists (s1 ++ s2), c4. split; [eapply net_sched_app; eauto|exact H4].
  Qed.
  (** All threads up to a number are settled. *)
  Lemma settle n : forall c c2, rel c c2 -> n <= length (fst c) ->
    exists sch c', net_sched E sch c = Some c' /\ rel c' c2 /\ forall i p, i < n -> fst c' !! i = Some p -> settled p = true.
  Proof.
    induction n as [|n IH]; intros c c2 Hr Hn; [exists [], c; split; [reflexivity|]; split; [exact Hr|]; intros; lia|].
    destruct (IH c c2 Hr) as (s1 & c1 & H1 & H2 & H3); [lia|].
    assert (Hlen : length (fst c1) = length (fst c)) by (rewrite (Forall2_length _ _ _ (proj1 H2)), <- (Forall2_length _ _ _ (proj1 Hr)); reflexivity).
    destruct (lookup_lt_is_Some_2 (fst c1) n) as [p Hp]; [lia|]. destruct (catch_up n p c1 c2 Hp H2) as (s2 & c3 & H4 & H5 & (p' & H6 & H7) & H8).
    exists (s1 ++ s2), c3. split; [eapply net_sched_app; eauto|]. split; [exact H5|]. intros i p0 Hi Hp0. destruct (Nat.eq_dec i n) as [->|Hne]; [congruence|].
    rewrite (H8 i Hne) in Hp0. eapply H3; [|exact Hp0]. lia.
  Qed.
  Lemma conversely css w sch qs' s2 : hl_sched E sch (plain_pool css, mkst w ∅) = Some (qs', s2) ->
    exists sch' ps' s', net_sched E sch' (net_pool css, mkst (nstart w) ∅) = Some (ps', s') /\ low s' = s2 /\ length ps' = length qs' /\
      (forall i rs, qs' !! i = Some (Ret rs) -> ps' !! i = Some (Ret rs)).
  Proof.
    intros Hs. assert (Hr : rel (net_pool css, mkst (nstart w) ∅) (plain_pool css, mkst w ∅)).
    { split; [|reflexivity]. cbn [fst snd dat]. unfold net_pool, plain_pool. clear. induction css as [|cs css IH]; constructor; [|exact IH].
      exists []. split; [intros u []|]. apply sim_thread. }
    destruct (back_sched _ _ _ _ Hr Hs) as (s1 & c1 & H1 & H2). destruct (settle _ _ _ H2 (le_n _)) as (s3 & [ps' s'] & H3 & [H4 H5] & H6).
    cbn [fst snd] in *. exists (s1 ++ s3), ps', s'. split; [eapply net_sched_app; eauto|]. split; [symmetry; exact H5|]. split; [eapply Forall2_length; eauto|].
    intros i rs Hi. destruct (Forall2_lookup_r _ _ _ _ _ H4 Hi) as (p & Hp & U & _ & Hsim). rewrite Hp. f_equal.
    assert (Hset : settled p = true).
    { apply (H6 i p); [|exact Hp]. pose proof (Forall2_length _ _ _ (proj1 H2)) as Hl1. pose proof (Forall2_length _ _ _ H4) as Hl2. cbn [fst] in Hl1. apply lookup_lt_Some in Hi. lia. }
    destruct p as [a|e|X c k h]; [cbn in Hsim; congruence|discriminate|]. exfalso. destruct c as [l m|l|X c]; [destruct Hsim as (? & ? & [=] & _)|destruct Hsim as (? & ? & [=] & _)|].
    destruct c; try discriminate Hset; destruct Hsim as (? & ? & [=] & _).
  Qed.
End Steps.
Lemma c87_same_results E css w sch ps' s' : net_sched E sch (net_pool css, mkst (nstart w) ∅) = Some (ps', s') ->
  exists sch' qs', hl_sched E sch' (plain_pool css, mkst w ∅) = Some (qs', mkst (n_l (dat s')) (lks s')) /\ length qs' = length ps' /\
    (forall i rs, ps' !! i = Some (Ret rs) -> qs' !! i = Some (Ret rs)) /\
    (forall i, net_sched E [i] (ps', s') = None -> hl_sched E [i] (qs', mkst (n_l (dat s')) (lks s')) = None).
Proof.
  intros Hs. destruct (same_results E css w sch ps' s' Hs) as (sch' & qs' & H1 & H2 & H3 & H4). exists sch', qs'. split; [exact H1|]. split; [exact H2|]. split; [exact H3|].
  intros i. unfold net_sched, hl_sched. cbn [sched_run]. specialize (H4 i).
  destruct (@cstep ncmd nworld (nsem E) _ i (ps', s')); [discriminate|]. rewrite (H4 eq_refl). auto.
Qed.
