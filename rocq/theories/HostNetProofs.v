(** * HostNetProofs: what happens with responses and pools (C87)

    [rok p K o Q]: the program goes on from the obligation [o], knowing that the pools [K]
    are stored in some [__http_] and that only the mirrors [dies] may go; at its end [Q] holds. *)
From stdpp Require Import gmap.
From Coq Require Import String.
From Coq Require Import List NArith ZArith Bool Arith Lia.
From Verif Require Import PyStr Prog ProgFacts PyIO Base LineBuf Json Host HostCli HostLazy HostNet HostNetSpec.
Import ListNotations.
Local Open Scope prog_scope.
Local Open Scope nat_scope.

(** Nothing; a new pool that is neither stored nor used; a response with its past and its
    future (and whether its pool is for one request only); such a pool after its request. *)
Inductive ob := Idle | New (k : nat) | Resp (k : nat) (r : request) (h code : nat) (past future : list nev) (once : bool) | Last (k : nat) (past : list nev).
Definition once_of (o : ob) : bool := match o with New _ => true | _ => false end.
Definition next (k : nat) (r : request) (h code : nat) (past future : list nev) (once : bool) : ob :=
  match future with [] => if once then Last k past else Idle | _ => Resp k r h code past future once end.

Notation know := (list ((nat + nat) * nat)).
Definition known (k : nat) (K : know) : Prop := exists u, In (u, k) K.
Definition post (X : Type) : Type := know -> ob -> outcome X -> Prop.
Definition emit (e : nev) (K : know) (o : ob) (Q : post unit) : Prop :=
  exists k r h code past future once, o = Resp k r h code past (e :: future) once /\ Q K (next k r h code (past ++ [e]) future once) (Good tt).
Section Dies.
Variable dies : nat -> Prop.
Definition stepn {X} (c : ncmd X) (K : know) (o : ob) : post X -> Prop :=
  match c in ncmd X return post X -> Prop with
  | NL c => fun Q => forall r, Q K o r
  | NHttp u => fun Q => forall x, Q (match x with Some k => (u, k) :: K | None => K end) o (Good x)
  | NSet u k => fun Q => o = New k /\ Q ((u, k) :: K) Idle (Good tt)
  | NPool => fun Q => o = Idle /\ forall k, Q K (New k) (Good k)
  | NFin j k => fun Q => In (inl j, k) K /\ Q K o (Good tt)
  | NReq k r => fun Q =>
      (o = Idle /\ known k K \/ o = New k) /\
      (forall h code b, Q K (Resp k r h code [EvResp k r h code] (tl (life k r h code)) (once_of o)) (Good (mkresp k h code b))) /\
      (forall e, Q K (if once_of o then Last k [EvFail k r] else Idle) (Fail e))
  | NLoad k h => emit (EvLoad k h) K o
  | NRelease k h => emit (EvRelease k h) K o
  | NClose k h => emit (EvClose k h) K o
  | NClear k => fun Q => (o = Idle /\ (exists j, In (inr j, k) K) \/ exists past, o = Last k past) /\ Q K Idle (Good tt)
  | NStack j => fun Q => forall z, Q K o (Good z)
  | NStackSet j z => fun Q => Q K o (Good tt)
  | NDie j => fun Q => dies j /\ Q K o (Good tt)
  end.
Definition stepc {X} (c : cmd ncmd X) (K : know) (o : ob) : post X -> Prop :=
  match c in cmd _ X return post X -> Prop with
  | Acq l m => fun Q => forall r, Q K o r
  | Rel l => fun Q => forall r, Q K o r
  | Op c => stepn c K o
  end.
Fixpoint rok {A} (p : prog ncmd A) : know -> ob -> post A -> Prop :=
  match p with
  | Ret a => fun K o Q => Q K o (Good a)
  | Raise e => fun K o Q => Q K o (Fail e)
  | Act c k h => fun K o Q => stepc c K o (fun K' o' x =>
      match x with Good x => rok (k x) K' o' Q | Fail e => rok (h e) K' o' Q | Block => True end)
  end.

Lemma stepc_more {X} (c : cmd ncmd X) K o (Q Q' : post X) : (forall K o x, Q K o x -> Q' K o x) -> stepc c K o Q -> stepc c K o Q'.
Proof.
  intros H. destruct c as [l m|l|X c]; simpl; [auto|auto|].
  assert (He : forall e K o (Q Q' : post unit), (forall K o x, Q K o x -> Q' K o x) -> emit e K o Q -> emit e K o Q').
  { clear. intros e K o Q Q' H (k & r & h & code & past & future & once & H1 & H2). exists k, r, h, code, past, future, once. auto. }
  destruct c; simpl; try (intros [H1 H2]; split; [exact H1|]; auto; fail); auto.
  - intros (H1 & H2 & H3). auto.
  - apply He, H.
  - apply He, H.
  - apply He, H.
Qed.
Lemma rok_more {A} (p : prog ncmd A) : forall K o (Q Q' : post A), (forall K o x, Q K o x -> Q' K o x) -> rok p K o Q -> rok p K o Q'.
Proof.
  induction p as [a|e|X c k IHk h IHh]; intros K o Q Q' H; simpl; [apply H|apply H|].
  apply stepc_more. intros K' o' [x|e|]; [| |auto]; eauto.
Qed.
Lemma rok_bind {A B} (p : prog ncmd A) (f : A -> prog ncmd B) : forall K o (Q : post A) (Q' : post B),
  rok p K o Q -> (forall K o a, Q K o (Good a) -> rok (f a) K o Q') -> (forall K o e, Q K o (Fail e) -> Q' K o (Fail e)) -> rok (bind p f) K o Q'.
Proof.
  induction p as [a|e|X c k IHk h IHh]; intros K o Q Q' H Hg Hb; simpl in *; [auto|auto|].
  revert H. apply stepc_more. intros K' o' [x|e|] H; [| |auto]; eauto.
Qed.
Lemma rok_try {A} (p : prog ncmd A) (fin : prog ncmd unit) : forall K o (Q Q' : post A),
  rok p K o Q ->
  (forall K o x, Q K o x -> rok fin K o (fun K o y => match y with Good _ => Q' K o x | Fail e => Q' K o (Fail e) | Block => True end)) ->
  rok (try_finally p fin) K o Q'.
Proof.
  induction p as [a|e|X c k IHk h IHh]; intros K o Q Q' H Hf; simpl in *.
  - eapply rok_bind; [apply (Hf _ _ _ H)| |]; cbn; auto.
  - eapply rok_bind; [apply (Hf _ _ _ H)| |]; cbn; auto.
  - revert H. apply stepc_more. intros K' o' [x|e|] H; [| |auto]; eauto.
Qed.
Lemma rok_attempt {A} (p : prog ncmd A) : forall K o (Q : post A), rok p K o Q -> rok (attempt p) K o (fun K o x => exists r, x = Good r /\ Q K o r).
Proof.
  induction p as [a|e|X c k IHk h IHh]; intros K o Q H; simpl in *; [eauto|eauto|].
  revert H. apply stepc_more. intros K' o' [x|e|] H; [| |auto]; auto.
Qed.

(** Without obligations before and afterwards. *)
Definition bal {A} (p : prog ncmd A) : Prop := forall K, rok p K Idle (fun _ o _ => o = Idle).
Lemma bal_ret {A} (a : A) : bal (Ret a). Proof. intros K. reflexivity. Qed.
Lemma bal_raise {A} e : bal (A:=A) (Raise e). Proof. intros K. reflexivity. Qed.
Lemma bal_bind {A B} (p : prog ncmd A) (f : A -> prog ncmd B) : bal p -> (forall a, bal (f a)) -> bal (bind p f).
Proof. intros H Hf K. eapply rok_bind; [apply H| |]; cbn; intros K' o x ->; [apply Hf|reflexivity]. Qed.
Lemma bal_nl {X} (c : lcmd X) : bal (op (NL c)).
Proof. intros K [x|e|]; cbn; auto. Qed.
Lemma bal_lift {A} (p : prog lcmd A) : bal (lift (fun _ c => NL c) p).
Proof.
  intros K. induction p as [a|e|X c k IHk h IHh]; [reflexivity|reflexivity|]. destruct c as [l m|l|X c]; cbn; intros [x|e|]; auto.
Qed.
Lemma bal_try {A} (p : prog ncmd A) fin : bal p -> bal fin -> bal (try_finally p fin).
Proof.
  intros H Hf K. eapply rok_try; [apply H|]. cbn. intros K' o x ->. eapply rok_more; [|apply Hf]. intros K2 o2 [y|e|]; auto.
Qed.
Lemma bal_with {A} l m (p : prog ncmd A) : bal p -> bal (with_lock l m p).
Proof.
  intros H K. unfold with_lock. cbn. intros [x|e|]; auto. apply bal_try; [exact H|]. intros K' [y|e|]; cbn; auto.
Qed.
Lemma bal_n_with j {A} (p : prog ncmd A) : bal p -> bal (n_with j A p).
Proof. intros H. apply bal_bind; [apply bal_lift|]. intros l. apply bal_with, H. Qed.
Lemma bal_thread {A} (ps : list (prog ncmd A)) : Forall bal ps -> forall rs, bal (thread_from rs ps).
Proof.
  induction ps as [|p ps IH]; intros H rs; [apply bal_ret|]. inversion H as [|x l H1 H2]; subst. simpl.
  intros K. eapply rok_bind; [apply rok_attempt, H1| |]; cbn.
  - intros K' o r (r' & _ & ->). apply IH, H2.
  - intros K' o e (r' & [=] & _).
Qed.

(** One request: [f] may read the body exactly as [loads] says. *)
Definition uses_body {A} (r : request) (f : prog ncmd json -> prog ncmd A) : Prop :=
  forall k h code b K once,
  (code <? 400) = true ->
  rok (f (op (NLoad k h) ;; g_load b)) K (Resp k r h code [EvResp k r h code] (tl (life k r h code)) once)
    (fun _ o _ => o = Resp k r h code ([EvResp k r h code] ++ (if loads r code then [EvLoad k h] else [])) [EvRelease k h; EvClose k h] once).
Lemma rok_request {A} k r (f : prog ncmd json -> prog ncmd A) K o : uses_body r f -> o = Idle /\ known k K \/ o = New k ->
  rok (n_request k r f) K o (fun _ o' _ =>
    if once_of o then exists past, o' = Last k past else o' = Idle).
Proof.
  intros Hf Ho. unfold n_request. cbn [op bind rok stepc stepn]. split; [exact Ho|]. split.
  - intros h code b. cbn [rs_code rs_pool rs_id rs_body].
    eapply (rok_try _ _ _ _ (fun _ o' _ => o' = Resp k r h code ([EvResp k r h code] ++ (if loads r code then [EvLoad k h] else [])) [EvRelease k h; EvClose k h] (once_of o))).
    + destruct (code <? 400) eqn:Hc; [apply Hf, Hc|]. assert (Hl : loads r code = true) by (unfold loads; rewrite Hc; destruct r; reflexivity).
      unfold n_refused, life. rewrite Hl. cbn. exists k, r, h, code. do 3 eexists. split; [reflexivity|]. cbn.
      destruct b as [[| | | | |]|]; reflexivity.
    + intros K' o' x ->. cbn. exists k, r, h, code. do 3 eexists. split; [reflexivity|]. cbn.
      exists k, r, h, code. do 3 eexists. split; [reflexivity|]. cbn.
      destruct (once_of o); cbn; destruct x; eauto.
  - intros e. destruct (once_of o); cbn; eauto.
Qed.
Lemma body_unused {A} b (x : A) : uses_body (PostMsg b) (fun _ => Ret x).
Proof. intros k h code b' K once Hc. unfold life, loads. rewrite Hc. reflexivity. Qed.
Definition pure {A} (p : prog ncmd A) : Prop := match p with Act _ _ _ => False | _ => True end.
Lemma body_used {A} r (G : json -> prog ncmd A) : (forall b, r <> PostMsg b) -> (forall v, pure (G v)) -> uses_body r (fun load => bind load G).
Proof.
  intros Hr HG k h code b K once Hc. assert (Hl : loads r code = true) by (destruct r; try reflexivity; exfalso; eapply Hr; reflexivity).
  unfold life. rewrite Hl. cbn. exists k, r, h, code. do 3 eexists. split; [reflexivity|]. cbn.
  destruct b as [v|]; [|reflexivity]. cbn. specialize (HG v). destruct (G v); [reflexivity|reflexivity|destruct HG].
Qed.
Lemma pure_bind {A B} (p : prog ncmd A) (f : A -> prog ncmd B) : pure p -> (forall a, pure (f a)) -> pure (bind p f).
Proof. destruct p; simpl; auto. Qed.
Lemma pure_dict v : pure (g_dict v). Proof. destruct v; exact I. Qed.
Lemma pure_index key v : pure (n_index key v).
Proof. unfold n_index. destruct v; try exact I. destruct (jget key _); exact I. Qed.
Lemma pure_out {X} (x : outcome X) : pure (n_out x). Proof. destruct x; exact I. Qed.

Ltac st := cbn [op bind rok stepc stepn n_some].
Lemma known_hd u k K : known k ((u, k) :: K). Proof. exists u. left. reflexivity. Qed.
Hint Resolve known_hd : core.
Lemma bal_m_req j {A} r (f : prog ncmd json -> prog ncmd A) : uses_body r f -> bal (m_req j A r f).
Proof.
  intros Hf K. unfold m_req, m_http. st. intros h. destruct h as [k0|]; st.
  - intros [k|]; st; [|reflexivity]. eapply rok_more; [|apply (rok_request k r f _ Idle Hf)]; [simpl; auto|left; simpl; auto].
  - split; [reflexivity|]. intros k. split; [reflexivity|]. intros [k2|]; st; [|reflexivity]. split; [left; reflexivity|].
    intros [k3|]; st; [|reflexivity]. eapply rok_more; [|apply (rok_request k3 r f _ Idle Hf)]; [simpl; auto|left; simpl; auto].
Qed.
Lemma bal_r_req j {A} r (f : prog ncmd json -> prog ncmd A) : uses_body r f -> bal (r_req j A r f).
Proof.
  intros Hf K. unfold r_req. st. intros h. destruct h as [k0|]; st.
  - intros [k|]; st; [|reflexivity]. eapply rok_more; [|apply (rok_request k r f _ Idle Hf)]; [simpl; auto|left; simpl; auto].
  - split; [reflexivity|]. intros k. eapply rok_try; [apply (rok_request k r f _ (New k) Hf); right; reflexivity|].
    st. intros K' o x (past & ->). split; [right; eauto|]. destruct x; reflexivity.
Qed.

Section Mirror.
  Variables (J : nat) (ag : bool).
  Notation wl := (n_with J).
  Notation req := (m_req J).
  Lemma bal_closed : bal (wl _ (n_op _ (MClosed J))). Proof. apply bal_n_with, bal_nl. Qed.
  Lemma bal_open : bal (wl _ (bind (n_op _ (MClosed J)) (fun c => Ret (negb c)))).
  Proof. apply bal_n_with, bal_bind; [apply bal_nl|intros; apply bal_ret]. Qed.
  Lemma bal_send data : bal (n_send_data n_op wl req J data).
  Proof. apply bal_bind; [apply bal_closed|]. intros [|]; [apply bal_ret|apply bal_m_req, body_unused]. Qed.
  Lemma bal_check : bal (n_check_states n_op wl req J).
  Proof.
    apply bal_bind; [apply bal_closed|]. intros [|]; [apply bal_ret|]. apply bal_bind.
    - apply bal_m_req, body_used; [discriminate|]. intros v. apply pure_bind; [apply pure_dict|]. intros a. exact I.
    - intros v. destruct v as [|[|]| | | |]; try apply bal_ret. apply bal_raise.
  Qed.
  Lemma bal_write_body check data : bal (n_write_body n_op wl req J ag check data).
  Proof.
    unfold n_write_body. apply bal_bind; [destruct check; [apply bal_check|apply bal_ret]|]. intros _. destruct ag.
    - apply bal_bind; [apply bal_send|intros; apply bal_ret].
    - destruct (_ || _).
      + apply bal_bind; [apply bal_nl|]. intros n. apply bal_bind; [apply bal_nl|]. intros v. apply bal_bind; [apply bal_send|]. intros _.
        apply bal_bind; [apply bal_nl|]. intros _. apply bal_bind; [apply bal_nl|]. intros _. apply bal_ret.
      + destruct (_ =? _); [apply bal_nl|apply bal_ret].
  Qed.
  Lemma bal_new_line check : bal (n_new_line n_op wl req J ag check).
  Proof.
    apply bal_n_with, bal_bind; [apply bal_nl|]. intros n. destruct (_ <? _); [|apply bal_ret].
    apply bal_bind; [apply bal_write_body|intros; apply bal_ret].
  Qed.
  Lemma bal_signal check body : bal (n_signal n_op wl req J ag check body).
  Proof.
    apply bal_bind; [apply bal_closed|]. intros [|]; [apply bal_ret|]. apply bal_bind; [apply bal_new_line|]. intros _. apply bal_m_req, body_unused.
  Qed.
  Lemma bal_clear : bal (g_clear n_op wl J).
  Proof. apply bal_n_with, bal_bind; [apply bal_nl|]. intros _. apply bal_nl. Qed.
  Lemma bal_as {X} (f : X -> cres) p : bal p -> bal (g_as f p).
  Proof. intros H. apply bal_bind; [exact H|]. intros x. apply bal_ret. Qed.
  Lemma bal_mcall c : bal (n_mcall n_op wl req J ag c).
  Proof.
    destruct c; unfold n_mcall; cbn [g_call]; apply bal_as.
    - apply bal_bind; [apply bal_open|]. intros w. destruct (negb w); [apply bal_raise|]. apply bal_n_with, bal_write_body.
    - apply bal_new_line.
    - apply bal_signal.
    - apply bal_signal.
    - apply bal_signal.
    - apply bal_send.
    - apply bal_check.
    - apply bal_clear.
    - apply bal_n_with, bal_nl.
    - apply bal_bind; [apply bal_open|]. intros w. destruct (negb w); [apply bal_raise|]. apply bal_n_with, bal_nl.
    - apply bal_bind; [apply bal_closed|]. intros [|]; [apply bal_ret|]. apply bal_bind; [destruct exc; apply bal_signal|]. intros _.
      apply bal_bind; [apply bal_clear|]. intros _. apply bal_n_with, bal_nl.
    - apply bal_closed.
    - apply bal_open.
    - apply bal_open.
    - apply bal_raise.
    - apply bal_raise.
    - apply bal_ret.
    - apply bal_ret.
  Qed.
End Mirror.
Lemma bal_rcall j c : bal (n_rcall (r_req j) c).
Proof.
  destruct c; unfold n_rcall; apply bal_as; apply bal_r_req, body_used; try discriminate; intros v.
  - apply pure_bind; [apply pure_index|]. intros d. apply pure_bind; [apply pure_out|]. intros l. apply pure_out.
  - apply pure_index.
  - apply pure_index.
  - apply pure_index.
  - apply pure_bind; [apply pure_dict|]. intros a. exact I.
  - apply pure_bind; [apply pure_dict|]. intros a. exact I.
  - apply pure_bind; [apply pure_dict|]. intros a. exact I.
Qed.
Lemma bal_call c : (forall j, c = KGone j -> dies j) -> bal (k_call c).
Proof.
  intros Hd.
  destruct c as [M c|j c|j|j|j]; unfold k_call; [apply bal_mcall|apply bal_rcall| | |]; apply bal_as; intros K.
  - unfold r_enter. st. intros [k|]; st; [reflexivity|]. split; [reflexivity|]. intros k. split; [reflexivity|]. intros z. reflexivity.
  - unfold r_exit. st. intros z. assert (Hrest : forall K, rok (bind (op (NStack j)) (fun z2 => if (z2 <=? 0)%Z then bind (op (NHttp (inr j))) (fun h =>
      match h with Some _ => bind (op (NHttp (inr j))) (fun h2 => bind (n_some h2) (fun k => op (NClear k))) | None => Ret tt end) else Ret tt)) K Idle (fun _ o _ => o = Idle)).
    { intros K'. st. intros z2. destruct (z2 <=? 0)%Z; [|reflexivity]. st. intros [k|]; st; [|reflexivity]. intros [k2|]; st; [|reflexivity].
      split; [left; split; [reflexivity|exists j; left; reflexivity]|reflexivity]. }
    destruct (0 <? z)%Z; st; [intros z1|]; apply Hrest.
  - split; [apply Hd; reflexivity|reflexivity].
Qed.

(** ** All threads *)
Local Arguments life : simpl never.
Definition ev_pool (e : nev) : nat :=
  match e with EvPool k | EvOwn _ k | EvFail k _ | EvResp k _ _ _ | EvLoad k _ | EvRelease k _ | EvClose k _ | EvClear k => k end.
Definition ev_resp (e : nev) : option nat :=
  match e with EvResp _ _ h _ | EvLoad _ h | EvRelease _ h | EvClose _ h => Some h | _ => None end.
Lemma of_pool_iff k e : of_pool k e = true <-> ev_pool e = k.
Proof. destruct e; cbn; apply Nat.eqb_eq. Qed.
Lemma of_resp_iff h e : of_resp h e = true <-> ev_resp e = Some h.
Proof. destruct e; cbn; try (split; congruence); rewrite Nat.eqb_eq; split; congruence. Qed.
Lemma pool_log_app k a b : pool_log k (a ++ b) = pool_log k a ++ pool_log k b. Proof. apply List.filter_app. Qed.
Lemma resp_log_app h a b : resp_log h (a ++ b) = resp_log h a ++ resp_log h b. Proof. apply List.filter_app. Qed.
Lemma filter_none {X} (f : X -> bool) l : Forall (fun x => f x = true -> False) l -> List.filter f l = [].
Proof. induction 1 as [|x l H _ IH]; [reflexivity|]. simpl. destruct (f x); [destruct (H eq_refl)|exact IH]. Qed.
Lemma pool_none k l : Forall (fun e => ev_pool e <> k) l -> pool_log k l = [].
Proof. intros H. apply filter_none. eapply List.Forall_impl; [|exact H]. cbn. intros e He. rewrite of_pool_iff. exact He. Qed.
Lemma resp_none h l : Forall (fun e => ev_resp e <> Some h) l -> resp_log h l = [].
Proof. intros H. apply filter_none. eapply List.Forall_impl; [|exact H]. cbn. intros e He. rewrite of_resp_iff. exact He. Qed.

Definition stored (log : list nev) (k : nat) : Prop := exists u, In (EvOwn u k) log.
Lemma stored_app a b k : stored a k -> stored (a ++ b) k.
Proof. intros [u H]. exists u. apply in_or_app. auto. Qed.
Definition whole (h : nat) (log : list nev) : Prop := exists k r code, resp_log h log = life k r h code.
Definition pool_of (o : ob) : option nat := match o with New k | Last k _ | Resp k _ _ _ _ _ true => Some k | _ => None end.
Definition resp_of (o : ob) : option nat := match o with Resp _ _ h _ _ _ _ => Some h | _ => None end.
Definition claim (log : list nev) (o : ob) : Prop :=
  match o with
  | Idle => True
  | New k => pool_log k log = [EvPool k]
  | Resp k r h code past future once =>
      resp_log h log = past /\ life k r h code = past ++ future /\ past <> [] /\ future <> [] /\
      if once then pool_log k log = EvPool k :: past else stored log k
  | Last k past => pool_log k log = EvPool k :: past /\ ((exists r, past = [EvFail k r]) \/ exists r h code, past = life k r h code)
  end.
Definition bounded (w : nworld) (e : nev) : Prop := ev_pool e < n_pools w /\ forall h, ev_resp e = Some h -> h < n_resps w.
(** A pool that is stored: its events after it was stored. *)
Definition later (u : nat + nat) (e : nev) : Prop :=
  match e with EvPool _ | EvOwn _ _ => False | EvClear _ => match u with inl j => dies j | inr _ => True end | _ => True end.
Definition owned (log : list nev) (p : (nat + nat) * nat) : Prop := In (EvOwn (fst p) (snd p)) log.
Lemma owned_stored log u k : In (EvOwn u k) log -> stored log k. Proof. intros H. exists u. exact H. Qed.
Lemma owned_app a b p : owned a p -> owned (a ++ b) p. Proof. intros H. apply in_or_app. left. exact H. Qed.
Lemma known_stored log k K : Forall (owned log) K -> known k K -> stored log k.
Proof. intros H [u Hu]. rewrite List.Forall_forall in H. exists u. apply (H _ Hu). Qed.
Record inv (G : list (know * ob)) (w : nworld) : Prop := mkinv {
  i_know : forall t K o, G !! t = Some (K, o) -> Forall (owned (n_log w)) K;
  i_claim : forall t K o, G !! t = Some (K, o) -> claim (n_log w) o;
  i_pool : forall t t' K o K' o' k, G !! t = Some (K, o) -> G !! t' = Some (K', o') -> pool_of o = Some k -> pool_of o' = Some k -> t = t';
  i_resp : forall t t' K o K' o' h, G !! t = Some (K, o) -> G !! t' = Some (K', o') -> resp_of o = Some h -> resp_of o' = Some h -> t = t';
  i_bound : Forall (bounded w) (n_log w);
  i_http : forall u k, n_http w !! u = Some k -> In (EvOwn u k) (n_log w);
  i_fin : Forall (fun p => In (EvOwn (inl (fst p)) (snd p)) (n_log w)) (n_fin w);
  i_own : forall u k, In (EvOwn u k) (n_log w) -> exists rest, pool_log k (n_log w) = EvPool k :: EvOwn u k :: rest /\ Forall (later u) rest;
  i_covr : forall h, resp_log h (n_log w) = [] \/ whole h (n_log w) \/ exists t K o, G !! t = Some (K, o) /\ resp_of o = Some h;
  i_covp : forall k, pool_log k (n_log w) = [] \/ stored (n_log w) k \/ one_use k (pool_log k (n_log w)) \/
    exists t K o, G !! t = Some (K, o) /\ pool_of o = Some k }.
Definition touch (w : nworld) (o : ob) (e : nev) : Prop :=
  (stored (n_log w) (ev_pool e) \/ pool_of o = Some (ev_pool e) \/ n_pools w <= ev_pool e) /\
  (forall h, ev_resp e = Some h -> resp_of o = Some h \/ n_resps w <= h).

Lemma life_not_own k r h code u k' : ~ In (EvOwn u k') (life k r h code).
Proof. unfold life. destruct (loads r code); cbn; intuition discriminate. Qed.
Lemma own_in_pool log u k : In (EvOwn u k) log -> In (EvOwn u k) (pool_log k log).
Proof. intros H. apply List.filter_In. split; [exact H|]. cbn. apply Nat.eqb_refl. Qed.
Lemma owned_not_stored log o k : claim log o -> pool_of o = Some k -> ~ stored log k.
Proof.
  intros Hc Ho [u Hu]. apply own_in_pool in Hu. destruct o as [|k0|k0 r h code past future [|]|k0 past]; try discriminate Ho; cbn in Ho; injection Ho as ->; cbn in Hc.
  - rewrite Hc in Hu. destruct Hu as [Hu|[]]. discriminate.
  - destruct Hc as (_ & Hl & _ & _ & Hc). rewrite Hc in Hu. destruct Hu as [Hu|Hu]; [discriminate|].
    apply (life_not_own k r h code u k). rewrite Hl. apply in_or_app. auto.
  - destruct Hc as (Hc & Hl). rewrite Hc in Hu. destruct Hu as [Hu|Hu]; [discriminate|].
    destruct Hl as [[r ->]|(r & h & code & ->)]; [destruct Hu as [Hu|[]]; discriminate|]. exact (life_not_own _ _ _ _ _ _ Hu).
Qed.
Lemma owned_bound w o k : Forall (bounded w) (n_log w) -> claim (n_log w) o -> pool_of o = Some k -> k < n_pools w.
Proof.
  intros Hb Hc Ho. assert (Hin : In (EvPool k) (pool_log k (n_log w))).
  { destruct o as [|k0|k0 r h code past future [|]|k0 past]; try discriminate Ho; cbn in Ho; injection Ho as ->; cbn in Hc.
    - rewrite Hc. left. reflexivity.
    - destruct Hc as (_ & _ & _ & _ & ->). left. reflexivity.
    - destruct Hc as (-> & _). left. reflexivity. }
  apply List.filter_In in Hin as [Hin _]. rewrite List.Forall_forall in Hb. apply (Hb _ Hin).
Qed.
Lemma resp_bound w o h : Forall (bounded w) (n_log w) -> claim (n_log w) o -> resp_of o = Some h -> h < n_resps w.
Proof.
  intros Hb Hc Ho. destruct o as [|k0|k0 r h0 code past future once|k0 past]; try discriminate Ho; cbn in Ho; injection Ho as ->; cbn in Hc.
  destruct Hc as (Hc & _ & Hn & _). destruct past as [|e past]; [congruence|]. assert (Hin : In e (resp_log h (n_log w))) by (rewrite Hc; left; reflexivity).
  apply List.filter_In in Hin as [Hin He]. apply of_resp_iff in He. rewrite List.Forall_forall in Hb. apply (Hb _ Hin), He.
Qed.
Lemma claim_app log es o :
  (forall k, pool_of o = Some k -> pool_log k es = []) -> (forall h, resp_of o = Some h -> resp_log h es = []) ->
  claim log o -> claim (log ++ es) o.
Proof.
  intros Hp Hr. destruct o as [|k|k r h code past future once|k past]; cbn; [auto| | |].
  - rewrite pool_log_app, (Hp k eq_refl), app_nil_r. auto.
  - intros (H1 & H2 & H3 & H4 & H5). rewrite resp_log_app, (Hr h eq_refl), app_nil_r. split; [auto|]. split; [auto|]. split; [auto|]. split; [auto|].
    destruct once; [|apply stored_app, H5]. rewrite pool_log_app, (Hp k eq_refl), app_nil_r. exact H5.
  - intros [H1 H2]. rewrite pool_log_app, (Hp k eq_refl), app_nil_r. auto.
Qed.

Lemma inv_step G w i K o w' es K' o' :
  inv G w -> G !! i = Some (K, o) -> n_log w' = n_log w ++ es -> n_pools w <= n_pools w' -> n_resps w <= n_resps w' ->
  Forall (touch w o) es -> Forall (bounded w') es ->
  (forall u k, n_http w' !! u = Some k -> In (EvOwn u k) (n_log w')) -> Forall (fun p => In (EvOwn (inl (fst p)) (snd p)) (n_log w')) (n_fin w') ->
  (forall u k, In (EvOwn u k) es -> pool_log k (n_log w') = [EvPool k; EvOwn u k]) ->
  (forall u e, In e es -> In (EvOwn u (ev_pool e)) (n_log w) -> later u e) ->
  Forall (owned (n_log w')) K' -> claim (n_log w') o' ->
  (forall k, pool_of o' = Some k -> pool_of o = Some k \/ n_pools w <= k) ->
  (forall h, resp_of o' = Some h -> resp_of o = Some h \/ n_resps w <= h) ->
  (forall k, pool_of o = Some k -> pool_of o' = Some k \/ stored (n_log w') k \/ one_use k (pool_log k (n_log w'))) ->
  (forall h, resp_of o = Some h -> resp_of o' = Some h \/ whole h (n_log w')) ->
  (forall k, n_pools w <= k -> pool_of o' = Some k \/ pool_log k es = []) ->
  (forall h, n_resps w <= h -> resp_of o' = Some h \/ resp_log h es = []) ->
  inv (<[i := (K', o')]> G) w'.
Proof.
  intros Hi Hg Hlog Hnp Hnr Ht Hb Hhttp Hfin Hown Hlater HK Hc Hp Hr Hpe Hre Hpf Hrf.
  assert (Hlt : i < length G) by (apply lookup_lt_Some in Hg; exact Hg).
  assert (Hget : forall t K2 o2, (<[i := (K', o')]> G) !! t = Some (K2, o2) -> t = i /\ K2 = K' /\ o2 = o' \/ t <> i /\ G !! t = Some (K2, o2)).
  { intros t K2 o2 H. destruct (Nat.eq_dec t i) as [->|Hne].
    - rewrite list_lookup_insert in H by exact Hlt. injection H as <- <-. auto.
    - rewrite list_lookup_insert_ne in H by congruence. auto. }
  assert (Hself : (<[i := (K', o')]> G) !! i = Some (K', o')) by (apply list_lookup_insert, Hlt).
  assert (Hother : forall t K2 o2, t <> i -> G !! t = Some (K2, o2) -> (<[i := (K', o')]> G) !! t = Some (K2, o2)).
  { intros t K2 o2 Hne H. rewrite list_lookup_insert_ne by congruence. exact H. }
  assert (Hresp : forall h, resp_of o <> Some h -> h < n_resps w -> resp_log h es = []).
  { intros h Ho Hh. apply resp_none. eapply List.Forall_impl; [|exact Ht]. intros e [_ He] Hh'. destruct (He _ Hh') as [?|?]; [auto|lia]. }
  assert (Hpool : forall k, pool_of o <> Some k -> k < n_pools w -> ~ stored (n_log w) k -> pool_log k es = []).
  { intros k Ho Hk Hs. apply pool_none. eapply List.Forall_impl; [|exact Ht]. intros e [[He|[He|He]] _] Heq; rewrite Heq in He; [auto|auto|lia]. }
  constructor.
  - intros t K2 o2 H. apply Hget in H as [(-> & -> & ->)|[Hne H]]; [exact HK|]. rewrite Hlog. eapply List.Forall_impl; [|exact (i_know _ _ Hi _ _ _ H)].
    intros k. apply owned_app.
  - intros t K2 o2 H. apply Hget in H as [(-> & -> & ->)|[Hne H]]; [exact Hc|]. rewrite Hlog. pose proof (i_claim _ _ Hi _ _ _ H) as H2. apply claim_app; [| |exact H2].
    + intros k Hk. apply Hpool; [|eapply owned_bound; eauto using i_bound|eapply owned_not_stored; eauto]. intros Hk'. apply Hne. eapply i_pool; eauto.
    + intros h Hh. apply Hresp; [|eapply resp_bound; eauto using i_bound]. intros Hh'. apply Hne. eapply i_resp; eauto.
  - intros t t' K2 o2 K3 o3 k H2 H3 Hk2 Hk3. apply Hget in H2 as [(-> & -> & ->)|[Hne2 H2]]; apply Hget in H3 as [(-> & -> & ->)|[Hne3 H3]]; [reflexivity| | |].
    + exfalso. destruct (Hp _ Hk2) as [Hk|Hk]; [apply Hne3; eapply i_pool; eauto|]. pose proof (owned_bound w o3 k (i_bound _ _ Hi) (i_claim _ _ Hi _ _ _ H3) Hk3). lia.
    + exfalso. destruct (Hp _ Hk3) as [Hk|Hk]; [apply Hne2; eapply i_pool; eauto|]. pose proof (owned_bound w o2 k (i_bound _ _ Hi) (i_claim _ _ Hi _ _ _ H2) Hk2). lia.
    + eapply i_pool; eauto.
  - intros t t' K2 o2 K3 o3 h H2 H3 Hk2 Hk3. apply Hget in H2 as [(-> & -> & ->)|[Hne2 H2]]; apply Hget in H3 as [(-> & -> & ->)|[Hne3 H3]]; [reflexivity| | |].
    + exfalso. destruct (Hr _ Hk2) as [Hk|Hk]; [apply Hne3; eapply i_resp; eauto|]. pose proof (resp_bound w o3 h (i_bound _ _ Hi) (i_claim _ _ Hi _ _ _ H3) Hk3). lia.
    + exfalso. destruct (Hr _ Hk3) as [Hk|Hk]; [apply Hne2; eapply i_resp; eauto|]. pose proof (resp_bound w o2 h (i_bound _ _ Hi) (i_claim _ _ Hi _ _ _ H2) Hk2). lia.
    + eapply i_resp; eauto.
  - rewrite Hlog. apply List.Forall_app. split; [|exact Hb]. eapply List.Forall_impl; [|exact (i_bound _ _ Hi)]. intros e [H1 H2]. split; [lia|]. intros h Hh. specialize (H2 h Hh). lia.
  - exact Hhttp.
  - exact Hfin.
  - intros u k Hu. rewrite Hlog in Hu. apply in_app_or in Hu as [Hu|Hu]; [|exists []; split; [apply Hown, Hu|constructor]].
    destruct (i_own _ _ Hi _ _ Hu) as (rest & H1 & H2). exists (rest ++ pool_log k es). rewrite Hlog, pool_log_app, H1. split; [reflexivity|].
    apply List.Forall_app. split; [exact H2|]. apply List.Forall_forall. intros e He. apply List.filter_In in He as [He Hk]. apply of_pool_iff in Hk.
    apply Hlater; [exact He|]. rewrite Hk. exact Hu.
  - intros h. destruct (decide (resp_of o = Some h)) as [Ho|Ho].
    { destruct (Hre h Ho) as [H|H]; [|auto]. right. right. eauto. }
    destruct (le_lt_dec (n_resps w) h) as [Hh|Hh].
    { destruct (Hrf h Hh) as [H|H]; [right; right; eauto|]. left. rewrite Hlog, resp_log_app, H, app_nil_r. apply resp_none.
      eapply List.Forall_impl; [|exact (i_bound _ _ Hi)]. intros e [_ He] He'. specialize (He _ He'). lia. }
    unfold whole. rewrite Hlog, resp_log_app, (Hresp h Ho Hh), app_nil_r. destruct (i_covr _ _ Hi h) as [H|[H|(t & K2 & o2 & H & H2)]]; [auto|auto|].
    right. right. exists t, K2, o2. split; [|exact H2]. apply Hother; [|exact H]. intros ->. congruence.
  - intros k. destruct (decide (pool_of o = Some k)) as [Ho|Ho].
    { destruct (Hpe k Ho) as [H|[H|H]]; [|auto|auto]. right. right. right. eauto. }
    destruct (le_lt_dec (n_pools w) k) as [Hk|Hk].
    { destruct (Hpf k Hk) as [H|H]; [right; right; right; eauto|]. left. rewrite Hlog, pool_log_app, H, app_nil_r. apply pool_none.
      eapply List.Forall_impl; [|exact (i_bound _ _ Hi)]. intros e [He _] He'. lia. }
    destruct (i_covp _ _ Hi k) as [H|[H|[H|(t & K2 & o2 & H & H2)]]].
    + assert (Hns : ~ stored (n_log w) k) by (intros [u Hu]; apply own_in_pool in Hu; rewrite H in Hu; exact Hu).
      left. rewrite Hlog, pool_log_app, (Hpool k Ho Hk Hns), app_nil_r. exact H.
    + right. left. rewrite Hlog. apply stored_app, H.
    + right. right. left. rewrite Hlog, pool_log_app, (Hpool k Ho Hk), app_nil_r; [exact H|]. intros [u Hu]. apply own_in_pool in Hu. inversion H as [r Heq|r h code Heq]; rewrite <- Heq in Hu.
      * destruct Hu as [Hu|[Hu|[Hu|[]]]]; discriminate.
      * destruct Hu as [Hu|Hu]; [discriminate|]. apply (in_app_or (life k r h code) [EvClear k]) in Hu as [Hu|[Hu|[]]]; [|discriminate]. exact (life_not_own _ _ _ _ _ _ Hu).
    + right. right. right. exists t, K2, o2. split; [|exact H2]. apply Hother; [|exact H]. intros ->. congruence.
Qed.

Lemma filter_own k e : ev_pool e = k -> pool_log k [e] = [e].
Proof. intros H. apply of_pool_iff in H. unfold pool_log. simpl. rewrite H. reflexivity. Qed.
Lemma filter_own_resp h e : ev_resp e = Some h -> resp_log h [e] = [e].
Proof. intros H. apply of_resp_iff in H. unfold resp_log. simpl. rewrite H. reflexivity. Qed.
Lemma one_pool k e : pool_log k [e] = [] \/ ev_pool e = k.
Proof. unfold pool_log. simpl. destruct (of_pool k e) eqn:He; [right; apply of_pool_iff, He|auto]. Qed.
Lemma one_resp h e : resp_log h [e] = [] \/ ev_resp e = Some h.
Proof. unfold resp_log. simpl. destruct (of_resp h e) eqn:He; [right; apply of_resp_iff, He|auto]. Qed.

(** A step that writes nothing. *)
Lemma inv_quiet G w i K o w' K' : inv G w -> G !! i = Some (K, o) -> n_log w' = n_log w -> n_pools w' = n_pools w -> n_resps w' = n_resps w ->
  (forall u k, n_http w' !! u = Some k -> In (EvOwn u k) (n_log w)) -> Forall (fun p => In (EvOwn (inl (fst p)) (snd p)) (n_log w)) (n_fin w') -> Forall (owned (n_log w)) K' ->
  inv (<[i := (K', o)]> G) w'.
Proof.
  intros Hi Hg Hl Hp Hr Hh Hf HK. eapply (inv_step G w i K o w' []); eauto; try rewrite Hl; try lia; auto.
  - symmetry. apply app_nil_r.
  - intros u k [].
  - intros u e [].
  - eapply i_claim; eauto.
Qed.
(** A step that writes one event of a response. *)
Lemma inv_emit G w i K k r h code past e future once w' : inv G w -> G !! i = Some (K, Resp k r h code past (e :: future) once) ->
  ev_pool e = k -> ev_resp e = Some h -> w' = note e w ->
  inv (<[i := (K, next k r h code (past ++ [e]) future once)]> G) w'.
Proof.
  intros Hi Hg Hk Hh ->. pose proof (i_claim _ _ Hi _ _ _ Hg) as Hc. pose proof (i_bound _ _ Hi) as Hb. assert (Hhb := resp_bound w _ h Hb Hc eq_refl).
  assert (Hc' := Hc). destruct Hc' as (H1 & H2 & H3 & H4 & H5).
  assert (H1' : resp_log h (n_log w ++ [e]) = past ++ [e]) by (rewrite resp_log_app, H1, (filter_own_resp h e Hh); reflexivity).
  assert (Hl' : life k r h code = (past ++ [e]) ++ future) by (rewrite H2, <- app_assoc; reflexivity).
  assert (Hk5 : if once then pool_log k (n_log w ++ [e]) = EvPool k :: past ++ [e] else stored (n_log w ++ [e]) k).
  { destruct once; [rewrite pool_log_app, H5, (filter_own k e Hk); reflexivity|apply stored_app, H5]. }
  assert (Hkb : k < n_pools w).
  { destruct once; [eapply (owned_bound w _ k Hb Hc eq_refl)|]. destruct H5 as [u Hu]. rewrite List.Forall_forall in Hb. apply (Hb _ Hu). }
  eapply (inv_step G w i K _ _ [e]); [exact Hi|exact Hg|reflexivity|auto|auto|..]; cbn [note n_log n_http n_fin n_pools n_resps].
  - constructor; [|constructor]. split; [|intros h'; rewrite Hh; cbn; auto]. rewrite Hk. destruct once; [right; left; reflexivity|left; exact H5].
  - constructor; [|constructor]. split; cbn; [rewrite Hk; exact Hkb|]. intros h' Hh'. rewrite Hh in Hh'. injection Hh' as <-. exact Hhb.
  - intros u k' Hu. apply in_or_app. left. eapply i_http; eauto.
  - eapply List.Forall_impl; [|exact (i_fin _ _ Hi)]. intros p Hp. apply in_or_app. left. exact Hp.
  - intros u k' [->|[]]. discriminate Hh.
  - intros u e' [<-|[]] _. destruct e; try discriminate Hh; exact I.
  - eapply List.Forall_impl; [|exact (i_know _ _ Hi _ _ _ Hg)]. intros p. apply owned_app.
  - unfold next. destruct future as [|e2 future].
    + destruct once; [|exact I]. cbn. split; [exact Hk5|]. right. exists r, h, code. rewrite Hl', app_nil_r. reflexivity.
    + cbn. split; [exact H1'|]. split; [exact Hl'|]. split; [destruct past; discriminate|]. split; [discriminate|]. exact Hk5.
  - intros k'. unfold next. destruct future, once; cbn; auto.
  - intros h'. unfold next. destruct future, once; cbn; auto; discriminate.
  - intros k'. unfold next. destruct future, once; cbn; auto.
  - intros h'. unfold next. destruct future as [|e2 future]; [|destruct once; cbn; auto]. cbn. intros [= <-]. right. exists k, r, code. rewrite Hl', app_nil_r. exact H1'.
  - intros k' Hk'. right. destruct (one_pool k' e) as [H|H]; [exact H|]. lia.
  - intros h' Hh'. right. destruct (one_resp h' e) as [H|H]; [exact H|]. rewrite Hh in H. injection H as ->. lia.
Qed.
(** A step that clears pools. *)
Lemma inv_clears G w i K o w' es : inv G w -> G !! i = Some (K, o) -> n_log w' = n_log w ++ es -> n_pools w' = n_pools w -> n_resps w' = n_resps w ->
  n_http w' = n_http w -> Forall (fun p => In (EvOwn (inl (fst p)) (snd p)) (n_log w)) (n_fin w') ->
  Forall (fun e => exists u k, e = EvClear k /\ In (EvOwn u k) (n_log w) /\ later u e) es -> inv (<[i := (K, o)]> G) w'.
Proof.
  intros Hi Hg Hl Hp Hr Hh Hf Hes. pose proof (i_bound _ _ Hi) as Hb. pose proof (i_claim _ _ Hi _ _ _ Hg) as Hc.
  assert (Hsb : forall k, stored (n_log w) k -> k < n_pools w) by (intros k [u Hu]; rewrite List.Forall_forall in Hb; apply (Hb _ Hu)).
  assert (Hrn : forall h, resp_log h es = []).
  { intros h. apply resp_none. eapply List.Forall_impl; [|exact Hes]. intros e (u & k & -> & _). discriminate. }
  assert (Hpn : forall k, ~ stored (n_log w) k -> pool_log k es = []).
  { intros k Hk. apply pool_none. eapply List.Forall_impl; [|exact Hes]. intros e (u & k2 & -> & Hk2 & _). cbn. intros ->. apply Hk. exists u. exact Hk2. }
  assert (Huniq : forall u u' k, In (EvOwn u k) (n_log w) -> In (EvOwn u' k) (n_log w) -> u = u').
  { intros u u' k H1 H2. destruct (i_own _ _ Hi _ _ H1) as (r1 & E1 & _). destruct (i_own _ _ Hi _ _ H2) as (r2 & E2 & _). congruence. }
  eapply (inv_step G w i K o w' es); [exact Hi|exact Hg|exact Hl|lia|lia|..]; auto; try rewrite Hl.
  - eapply List.Forall_impl; [|exact Hes]. intros e (u & k & -> & Hk & _). split; [left; exists u; exact Hk|discriminate].
  - eapply List.Forall_impl; [|exact Hes]. intros e (u & k & -> & Hk & _). split; [cbn; rewrite Hp; apply Hsb; exists u; exact Hk|discriminate].
  - rewrite Hh. intros u k Hu. apply in_or_app. left. eapply i_http; eauto.
  - eapply List.Forall_impl; [|exact Hf]. intros p Hp2. apply in_or_app. left. exact Hp2.
  - intros u k Hu. rewrite List.Forall_forall in Hes. destruct (Hes _ Hu) as (u2 & k2 & [=] & _).
  - intros u e He Hu. rewrite List.Forall_forall in Hes. destruct (Hes _ He) as (u2 & k2 & -> & H1 & H2). cbn [ev_pool] in Hu. rewrite (Huniq _ _ _ Hu H1). exact H2.
  - eapply List.Forall_impl; [|exact (i_know _ _ Hi _ _ _ Hg)]. intros k. apply owned_app.
  - apply claim_app; [|auto|exact Hc]. intros k Hk. apply Hpn. eapply owned_not_stored; eauto.
  - intros k Hk. right. apply Hpn. intros Hs. specialize (Hsb _ Hs). lia.
Qed.

Section Steps.
  Variable E : henv.
  Lemma inv_exec G w i K o X (c : ncmd X) (Q : post X) x w' : inv G w -> G !! i = Some (K, o) -> stepn c K o Q -> nexec E c w = (x, w') -> x <> Block ->
    exists K' o', Q K' o' x /\ inv (<[i := (K', o')]> G) w'.
  Proof.
    intros Hi Hg. pose proof (i_know _ _ Hi _ _ _ Hg) as HK. pose proof (i_bound _ _ Hi) as Hb. pose proof (i_claim _ _ Hi _ _ _ Hg) as Hc.
    assert (Hsb : forall k, stored (n_log w) k -> k < n_pools w) by (intros k [u Hu]; rewrite List.Forall_forall in Hb; apply (Hb _ Hu)).
    assert (Hrl : forall h, n_resps w <= h -> resp_log h (n_log w) = []).
    { intros h Hh. apply resp_none. eapply List.Forall_impl; [|exact Hb]. intros e [_ He] He'. specialize (He _ He'). lia. }
    assert (Hpl : forall k, n_pools w <= k -> pool_log k (n_log w) = []).
    { intros k Hk. apply pool_none. eapply List.Forall_impl; [|exact Hb]. intros e [He _] He'. lia. }
    assert (Hkeep : forall es, Forall (owned (n_log w ++ es)) K) by (intros es; eapply List.Forall_impl; [|exact HK]; intros p; apply owned_app).
    assert (Hkn : forall k, known k K -> stored (n_log w) k) by (intros k; apply known_stored, HK).
    assert (Hfin : forall es, Forall (fun p => In (EvOwn (inl (fst p)) (snd p)) (n_log w ++ es)) (n_fin w)) by (intros es; eapply List.Forall_impl; [|exact (i_fin _ _ Hi)]; intros p Hp; apply in_or_app; left; exact Hp).
    assert (Hhttp : forall es u k, n_http w !! u = Some k -> In (EvOwn u k) (n_log w ++ es)) by (intros es u k Hu; apply in_or_app; left; eapply i_http; eauto).
    destruct c as [X c|u|u k| |j k|k r|k h|k h|k h|k|j|j z|j]; cbn [stepn nexec]; intros HQ He Hx.
    - destruct (lexec E c (n_l w)) as [r l]. injection He as <- <-. exists K, o. split; [apply HQ|].
      eapply inv_quiet; [exact Hi|exact Hg|reflexivity|reflexivity|reflexivity|exact (i_http _ _ Hi)|exact (i_fin _ _ Hi)|exact HK].
    - injection He as <- <-. eexists _, o. split; [apply HQ|].
      eapply inv_quiet; [exact Hi|exact Hg|reflexivity|reflexivity|reflexivity|exact (i_http _ _ Hi)|exact (i_fin _ _ Hi)|].
      destruct (n_http w !! u) as [k|] eqn:Hu; [constructor; [eapply i_http; eauto|exact HK]|exact HK].
    - injection He as <- <-. destruct HQ as [-> HQ]. exists ((u, k) :: K), Idle. split; [exact HQ|].
      assert (Hs : In (EvOwn u k) (n_log w ++ [EvOwn u k])) by (apply in_or_app; right; left; reflexivity).
      eapply (inv_step G w i K _ _ [EvOwn u k]); [exact Hi|exact Hg|reflexivity|auto|auto|..]; cbn [note n_log n_http n_fin n_pools n_resps].
      + constructor; [|constructor]. split; [right; left; reflexivity|discriminate].
      + constructor; [|constructor]. split; [|discriminate]. exact (owned_bound w _ k Hb Hc eq_refl).
      + intros u' k' Hu. destruct (decide (u = u')) as [<-|Hne].
        * rewrite lookup_insert in Hu. injection Hu as <-. exact Hs.
        * rewrite lookup_insert_ne in Hu by exact Hne. eauto.
      + apply Hfin.
      + intros u2 k2 [[= <- <-]|[]]. cbn in Hc. rewrite pool_log_app, Hc, filter_own by reflexivity. reflexivity.
      + intros u2 e2 [<-|[]] Hu. exfalso. cbn [ev_pool] in Hu. exact (owned_not_stored _ (New k) k Hc eq_refl (owned_stored _ _ _ Hu)).
      + constructor; [exact Hs|apply Hkeep].
      + exact I.
      + discriminate.
      + discriminate.
      + intros k' [= <-]. right. left. exact (owned_stored _ _ _ Hs).
      + discriminate.
      + intros k' Hk'. right. destruct (one_pool k' (EvOwn u k)) as [H|H]; [exact H|]. cbn in H. subst. pose proof (owned_bound w _ k' Hb Hc eq_refl). lia.
      + auto.
    - injection He as <- <-. destruct HQ as [-> HQ]. exists K, (New (n_pools w)). split; [apply HQ|].
      eapply (inv_step G w i K _ _ [EvPool (n_pools w)]); [exact Hi|exact Hg|reflexivity| |auto|..]; cbn [note n_log n_http n_fin n_pools n_resps].
      + lia.
      + constructor; [|constructor]. split; [right; right; cbn; lia|discriminate].
      + constructor; [|constructor]. split; [cbn; lia|discriminate].
      + apply Hhttp.
      + apply Hfin.
      + intros u2 k2 [[=]|[]].
      + intros u2 e2 [<-|[]] Hu. cbn [ev_pool] in Hu. specialize (Hsb _ (owned_stored _ _ _ Hu)). lia.
      + apply Hkeep.
      + cbn [claim]. rewrite pool_log_app, (Hpl _ (le_n _)), filter_own by reflexivity. reflexivity.
      + intros k [= <-]. auto.
      + discriminate.
      + discriminate.
      + discriminate.
      + intros k Hk. destruct (one_pool k (EvPool (n_pools w))) as [H|H]; [right; exact H|left; cbn in *; congruence].
      + auto.
    - injection He as <- <-. destruct HQ as [Hk HQ]. exists K, o. split; [exact HQ|].
      eapply inv_quiet; [exact Hi|exact Hg|reflexivity|reflexivity|reflexivity|exact (i_http _ _ Hi)| |exact HK]. cbn.
      apply List.Forall_app. split; [exact (i_fin _ _ Hi)|]. constructor; [|constructor]. cbn. rewrite List.Forall_forall in HK. exact (HK _ Hk).
    - destruct HQ as (Ho & HQ1 & HQ2). unfold nreq in He. destruct (creq E r (l_w (n_l w))) as [a w2]. destruct a as [[code b]|e|]; [| |injection He as <- _; congruence].
      + injection He as <- <-. eexists K, _. split; [apply HQ1|]. set (h := n_resps w) in *.
        eapply (inv_step G w i K _ _ [EvResp k r h code]); [exact Hi|exact Hg|reflexivity|auto|..]; cbn [note n_log n_http n_fin n_pools n_resps].
        * cbn. lia.
        * constructor; [|constructor]. split; [|intros h' [= <-]; right; reflexivity]. destruct Ho as [[-> Hk]| ->]; [left|right; left; reflexivity].
          apply Hkn, Hk.
        * constructor; [|constructor]. split; [|intros h' [= <-]; cbn; lia]. destruct Ho as [[-> Hk]| ->]; [|exact (owned_bound w _ k Hb Hc eq_refl)].
          apply Hsb, Hkn, Hk.
        * apply Hhttp.
        * apply Hfin.
        * intros u2 k2 [[=]|[]].
        * intros u2 e2 [<-|[]] Hu. exact I.
        * apply Hkeep.
        * cbn [claim]. rewrite resp_log_app, (Hrl h (le_n _)), filter_own_resp by reflexivity. split; [reflexivity|]. split; [reflexivity|]. split; [discriminate|].
          split; [unfold life; destruct (loads r code); discriminate|]. destruct Ho as [[-> Hk]| ->]; cbn [once_of].
          -- apply stored_app, Hkn, Hk.
          -- cbn in Hc. rewrite pool_log_app, Hc, filter_own by reflexivity. reflexivity.
        * intros k'. destruct Ho as [[-> Hk]| ->]; cbn; [discriminate|auto].
        * intros h' [= <-]. auto.
        * intros k'. destruct Ho as [[-> Hk]| ->]; cbn; [discriminate|auto].
        * destruct Ho as [[-> Hk]| ->]; discriminate.
        * intros k' Hk'. right. destruct (one_pool k' (EvResp k r h code)) as [H|H]; [exact H|]. cbn in H. subst k'. exfalso. destruct Ho as [[-> Hk]| ->].
          -- specialize (Hsb _ (Hkn _ Hk)). lia.
          -- pose proof (owned_bound w _ k Hb Hc eq_refl). lia.
        * intros h' Hh'. destruct (one_resp h' (EvResp k r h code)) as [H|H]; [right; exact H|left; exact H].
      + injection He as <- <-. eexists K, _. split; [apply HQ2|].
        eapply (inv_step G w i K _ _ [EvFail k r]); [exact Hi|exact Hg|reflexivity|auto|auto|..]; cbn [note with_l n_log n_http n_fin n_pools n_resps].
        * constructor; [|constructor]. split; [|discriminate]. destruct Ho as [[-> Hk]| ->]; [left|right; left; reflexivity].
          apply Hkn, Hk.
        * constructor; [|constructor]. split; [|discriminate]. destruct Ho as [[-> Hk]| ->]; [|exact (owned_bound w _ k Hb Hc eq_refl)].
          apply Hsb, Hkn, Hk.
        * apply Hhttp.
        * apply Hfin.
        * intros u2 k2 [[=]|[]].
        * intros u2 e2 [<-|[]] Hu. exact I.
        * apply Hkeep.
        * destruct Ho as [[-> Hk]| ->]; cbn [once_of]; [exact I|]. cbn [claim]. cbn in Hc. rewrite pool_log_app, Hc, filter_own by reflexivity. split; [reflexivity|eauto].
        * intros k'. destruct Ho as [[-> Hk]| ->]; cbn; [discriminate|auto].
        * intros h'. destruct Ho as [[-> Hk]| ->]; cbn; discriminate.
        * intros k'. destruct Ho as [[-> Hk]| ->]; cbn; [discriminate|auto].
        * destruct Ho as [[-> Hk]| ->]; discriminate.
        * intros k' Hk'. right. destruct (one_pool k' (EvFail k r)) as [H|H]; [exact H|]. cbn in H. subst k'. exfalso. destruct Ho as [[-> Hk]| ->].
          -- specialize (Hsb _ (Hkn _ Hk)). lia.
          -- pose proof (owned_bound w _ k Hb Hc eq_refl). lia.
        * auto.
    - injection He as <- <-. destruct HQ as (k' & r & h' & code & past & future & once & -> & HQ). exists K. eexists. split; [exact HQ|].
      destruct Hc as (_ & Hl & _). assert (Hin : In (EvLoad k h) (life k' r h' code)) by (rewrite Hl; apply in_or_app; right; left; reflexivity).
      assert (Heq : k' = k /\ h' = h) by (unfold life in Hin; destruct (loads r code); cbn in Hin; intuition congruence). destruct Heq as [-> ->].
      eapply inv_emit; [exact Hi|exact Hg|reflexivity|reflexivity|reflexivity].
    - injection He as <- <-. destruct HQ as (k' & r & h' & code & past & future & once & -> & HQ). exists K. eexists. split; [exact HQ|].
      destruct Hc as (_ & Hl & _). assert (Hin : In (EvRelease k h) (life k' r h' code)) by (rewrite Hl; apply in_or_app; right; left; reflexivity).
      assert (Heq : k' = k /\ h' = h) by (unfold life in Hin; destruct (loads r code); cbn in Hin; intuition congruence). destruct Heq as [-> ->].
      eapply inv_emit; [exact Hi|exact Hg|reflexivity|reflexivity|reflexivity].
    - injection He as <- <-. destruct HQ as (k' & r & h' & code & past & future & once & -> & HQ). exists K. eexists. split; [exact HQ|].
      destruct Hc as (_ & Hl & _). assert (Hin : In (EvClose k h) (life k' r h' code)) by (rewrite Hl; apply in_or_app; right; left; reflexivity).
      assert (Heq : k' = k /\ h' = h) by (unfold life in Hin; destruct (loads r code); cbn in Hin; intuition congruence). destruct Heq as [-> ->].
      eapply inv_emit; [exact Hi|exact Hg|reflexivity|reflexivity|reflexivity].
    - injection He as <- <-. destruct HQ as [Ho HQ]. exists K, Idle. split; [exact HQ|]. destruct Ho as [[-> [j Hk]]|[past ->]].
      + eapply (inv_clears G w i K Idle _ [EvClear k]); [exact Hi|exact Hg|reflexivity|reflexivity|reflexivity|reflexivity|exact (i_fin _ _ Hi)|].
        constructor; [|constructor]. exists (inr j), k. split; [reflexivity|]. rewrite List.Forall_forall in HK. split; [exact (HK _ Hk)|exact I].
      + eapply (inv_step G w i K _ _ [EvClear k]); [exact Hi|exact Hg|reflexivity|auto|auto|..]; cbn [note n_log n_http n_fin n_pools n_resps].
        * constructor; [|constructor]. split; [right; left; reflexivity|discriminate].
        * constructor; [|constructor]. split; [|discriminate]. exact (owned_bound w _ k Hb Hc eq_refl).
        * apply Hhttp.
        * apply Hfin.
        * intros u2 k2 [[=]|[]].
        * intros u2 e2 [<-|[]] Hu. cbn [ev_pool] in Hu. exfalso. exact (owned_not_stored _ (Last k past) k Hc eq_refl (owned_stored _ _ _ Hu)).
        * apply Hkeep.
        * exact I.
        * discriminate.
        * discriminate.
        * intros k' [= <-]. right. right. cbn in Hc. destruct Hc as [Hc Hl]. rewrite pool_log_app, Hc, filter_own by reflexivity.
          destruct Hl as [[r ->]|(r & h & code & ->)]; [apply ou_fail|apply ou_resp].
        * discriminate.
        * intros k' Hk'. right. destruct (one_pool k' (EvClear k)) as [H|H]; [exact H|]. cbn in H. subst. pose proof (owned_bound w _ k' Hb Hc eq_refl). lia.
        * auto.
    - injection He as <- <-. exists K, o. split; [apply HQ|].
      eapply inv_quiet; [exact Hi|exact Hg|reflexivity|reflexivity|reflexivity|exact (i_http _ _ Hi)|exact (i_fin _ _ Hi)|exact HK].
    - injection He as <- <-. exists K, o. split; [apply HQ|].
      eapply inv_quiet; [exact Hi|exact Hg|reflexivity|reflexivity|reflexivity|exact (i_http _ _ Hi)|exact (i_fin _ _ Hi)|exact HK].
    - injection He as <- <-. destruct HQ as [Hd HQ]. exists K, o. split; [apply HQ|].
      eapply (inv_clears G w i K o); [exact Hi|exact Hg|reflexivity|reflexivity|reflexivity|reflexivity| |]; cbn [n_fin].
      + pose proof (i_fin _ _ Hi) as Hf. rewrite List.Forall_forall in Hf |- *. intros p Hp. apply List.filter_In in Hp as [Hp _]. auto.
      + pose proof (i_fin _ _ Hi) as Hf. rewrite List.Forall_forall in Hf |- *. intros e He. apply in_map_iff in He as (p & <- & Hp). apply List.filter_In in Hp as [Hp Hj].
        exists (inl (fst p)), (snd p). split; [reflexivity|]. split; [apply Hf, Hp|]. cbn. apply Nat.eqb_eq in Hj. rewrite Hj. exact Hd.
  Qed.

  Definition good_thread (p : prog ncmd (list (outcome cres))) (g : know * ob) : Prop := rok p (fst g) (snd g) (fun _ o _ => o = Idle).
  Definition good (c : list (prog ncmd (list (outcome cres))) * st nworld) : Prop :=
    exists G, Forall2 good_thread (fst c) G /\ inv G (dat (snd c)).
  Lemma good_cstep i c c' : good c -> @cstep ncmd nworld (nsem E) _ i c = Some c' -> good c'.
  Proof.
    intros (G & Hf & Hi) Hs. unfold cstep in Hs. destruct (fst c !! i) as [p|] eqn:Hp; [|discriminate].
    destruct (Forall2_lookup_l _ _ _ _ _ Hf Hp) as ([K o] & Hg & Hk). unfold good_thread in Hk. cbn [fst snd] in Hk.
    destruct (@pstep ncmd nworld (nsem E) _ i p (snd c)) as [[p' s']|] eqn:Hst; [|discriminate]. injection Hs as <-. cbn [fst snd].
    assert (Hgo : exists K' o', good_thread p' (K', o') /\ inv (<[i := (K', o')]> G) (dat s')).
    { destruct p as [a|e|X cm k h]; [discriminate|discriminate|]. cbn in Hst, Hk.
      assert (Hlock : forall (x : outcome X) lk, (forall Q, stepc cm K o Q -> Q K o x) -> @exec ncmd nworld (nsem E) i X cm (snd c) = (x, mkst (dat (snd c)) lk) -> exists K' o', good_thread p' (K', o') /\ inv (<[i := (K', o')]> G) (dat s')).
      { intros x lk HQ Hx. rewrite Hx in Hst. apply HQ in Hk. exists K, o. rewrite list_insert_id by exact Hg. destruct x as [x|e|]; [| |discriminate]; injection Hst as <- <-; split; auto. }
      destruct cm as [l m|l|X cm].
      - destruct (lock_acq (reent l) i l m (lks (snd c))) as [x lk] eqn:Hx. apply (Hlock x lk); [intros Q HQ; apply HQ|]. cbn [exec]. rewrite Hx. reflexivity.
      - destruct (lock_rel i l (lks (snd c))) as [x lk] eqn:Hx. apply (Hlock x lk); [intros Q HQ; apply HQ|]. cbn [exec]. rewrite Hx. reflexivity.
      - cbn in Hst, Hk. destruct (nexec E cm (dat (snd c))) as [x d] eqn:He.
        destruct (inv_exec G (dat (snd c)) i K o X cm _ x d Hi Hg Hk He) as (K' & o' & HQ & Hi').
        { intros ->. discriminate. }
        exists K', o'. destruct x as [x|e|]; [| |discriminate]; injection Hst as <- <-; auto. }
    destruct Hgo as (K' & o' & H1 & H2). exists (<[i := (K', o')]> G). split; [|exact H2]. apply Forall2_insert; auto.
  Qed.
  Lemma good_sched sch : forall c c', good c -> net_sched E sch c = Some c' -> good c'.
  Proof.
    induction sch as [|i sch IH]; intros c c' Hg Hs; unfold net_sched in *; simpl in Hs; [injection Hs as <-; exact Hg|].
    destruct (@cstep ncmd nworld (nsem E) _ i c) as [c1|] eqn:Hc; [|discriminate]. eapply IH; [eapply good_cstep; eauto|exact Hs].
  Qed.
  Lemma good_start css w : (forall j, gone css j -> dies j) -> good (net_pool css, mkst (nstart w) ∅).
  Proof.
    intros Hd.
    exists (map (fun _ => ([], Idle)) css). split.
    - cbn [fst]. unfold net_pool. assert (Hd' : forall cs j, In cs css -> In (KGone j) cs -> dies j) by (intros cs j H1 H2; apply Hd; exists cs; auto). clear Hd.
      induction css as [|cs css IH]; constructor; [|apply IH; intros cs2 j H1 H2; apply (Hd' cs2 j); [right; exact H1|exact H2]]. unfold good_thread. cbn [fst snd].
      apply bal_thread. apply List.Forall_forall. intros p Hp. apply in_map_iff in Hp as (c & <- & Hc). apply bal_call. intros j ->. apply (Hd' cs j); [left; reflexivity|exact Hc].
    - assert (Hg : forall t K o, map (fun _ : list kcall => (@nil ((nat + nat) * nat), Idle)) css !! t = Some (K, o) -> K = [] /\ o = Idle).
      { intros t K o H. apply elem_of_list_lookup_2, elem_of_list_In, in_map_iff in H as (x & [= <- <-] & _). auto. }
      constructor; cbn [dat snd n_log nstart n_http n_fin].
      + intros t K o H. apply Hg in H as [-> _]. constructor.
      + intros t K o H. apply Hg in H as [_ ->]. exact I.
      + intros t t' K o K' o' k H. apply Hg in H as [_ ->]. discriminate.
      + intros t t' K o K' o' k H. apply Hg in H as [_ ->]. discriminate.
      + constructor.
      + intros u k Hu. rewrite lookup_empty in Hu. discriminate.
      + constructor.
      + intros u k [].
      + auto.
      + auto.
  Qed.
  Lemma good_idle c : good c -> Forall (fun p => finished p = true) (fst c) ->
    exists G, inv G (dat (snd c)) /\ forall t K o, G !! t = Some (K, o) -> o = Idle.
  Proof.
    intros (G & Hf & Hi) Hfin. exists G. split; [exact Hi|]. intros t K o Hg.
    destruct (Forall2_lookup_r _ _ _ _ _ Hf Hg) as (p & Hp & Hr). assert (Hfp : finished p = true) by (eapply Forall_lookup_1 in Hfin; eauto).
    destruct p; [exact Hr|exact Hr|discriminate].
  Qed.

  (** Responses, at any moment and at the end. *)
  Lemma responses css w sch ps' s' : (forall j, gone css j -> dies j) -> net_sched E sch (net_pool css, mkst (nstart w) ∅) = Some (ps', s') ->
    forall h, let l := resp_log h (n_log (dat s')) in
    l = [] \/ exists k r code, (exists rest, life k r h code = l ++ rest) /\ l <> [] /\ (Forall (fun p => finished p = true) ps' -> l = life k r h code).
  Proof.
    intros Hd Hs h l. pose proof (good_sched _ _ _ (good_start css w Hd) Hs) as Hg. pose proof Hg as (G & Hf & Hi).
    destruct (i_covr _ _ Hi h) as [H|[(k & r & code & H)|(t & K & o & Hgt & Ho)]]; [left; exact H| |]; cbn [snd] in *.
    - right. exists k, r, code. fold l in H. rewrite H. split; [exists []; rewrite app_nil_r; reflexivity|]. split; [discriminate|auto].
    - right. pose proof (i_claim _ _ Hi _ _ _ Hgt) as Hc. destruct o as [|k0|k r h0 code past future once|k0 past]; try discriminate Ho. cbn in Ho. injection Ho as ->.
      destruct Hc as (H1 & H2 & H3 & H4 & _). cbn [snd] in H1. fold l in H1. exists k, r, code. rewrite H1. split; [eauto|]. split; [exact H3|]. intros Hfin.
      destruct (Forall2_lookup_r _ _ _ _ _ Hf Hgt) as (p & Hp & Hr). cbn [fst] in Hp. assert (Hfp : finished p = true) by (eapply Forall_lookup_1 in Hfin; eauto).
      destruct p; [discriminate Hr|discriminate Hr|discriminate].
  Qed.
  (** Pools that are not stored. *)
  Lemma temporaries css w sch ps' s' : (forall j, gone css j -> dies j) -> net_sched E sch (net_pool css, mkst (nstart w) ∅) = Some (ps', s') ->
    forall k, let log := n_log (dat s') in (forall u, ~ In (EvOwn u k) log) -> 
    pool_log k log = [] \/ exists l rest, one_use k l /\ l = pool_log k log ++ rest /\ (Forall (fun p => finished p = true) ps' -> rest = []).
  Proof.
    intros Hd Hs k log Hn. pose proof (good_sched _ _ _ (good_start css w Hd) Hs) as Hg. pose proof Hg as (G & Hf & Hi).
    destruct (i_covp _ _ Hi k) as [H|[[u H]|[H|(t & K & o & Hgt & Ho)]]]; [left; exact H|destruct (Hn u H)| |]; cbn [snd] in *.
    - right. exists (pool_log k log), []. split; [exact H|]. rewrite app_nil_r. auto.
    - right. pose proof (i_claim _ _ Hi _ _ _ Hgt) as Hc. fold log in Hc.
      assert (Hne : o <> Idle) by (intros ->; discriminate).
      assert (Hnf : ~ Forall (fun p => finished p = true) ps').
      { intros Hfin. destruct (Forall2_lookup_r _ _ _ _ _ Hf Hgt) as (p & Hp & Hr). cbn [fst] in Hp. assert (Hfp : finished p = true) by (eapply Forall_lookup_1 in Hfin; eauto).
        destruct p; [exact (Hne Hr)|exact (Hne Hr)|discriminate]. }
      destruct o as [|k0|k0 r h code past future [|]|k0 past]; try discriminate Ho; cbn in Ho; injection Ho as ->; cbn in Hc.
      + exists [EvPool k; EvFail k DelMsg; EvClear k], [EvFail k DelMsg; EvClear k]. split; [apply ou_fail|]. split; [rewrite Hc; reflexivity|contradiction].
      + destruct Hc as (_ & H2 & _ & _ & Hc). exists (EvPool k :: life k r h code ++ [EvClear k]), (future ++ [EvClear k]). split; [apply ou_resp|]. split; [|contradiction].
        rewrite Hc, H2, <- app_assoc. reflexivity.
      + destruct Hc as (Hc & Hl). destruct Hl as [[r ->]|(r & h & code & ->)].
        * exists [EvPool k; EvFail k r; EvClear k], [EvClear k]. split; [apply ou_fail|]. split; [rewrite Hc; reflexivity|contradiction].
        * exists (EvPool k :: life k r h code ++ [EvClear k]), [EvClear k]. split; [apply ou_resp|]. split; [rewrite Hc; reflexivity|contradiction].
  Qed.
  (** Pools that are stored. *)
  Lemma stored_pools css w sch ps' s' : (forall j, gone css j -> dies j) -> net_sched E sch (net_pool css, mkst (nstart w) ∅) = Some (ps', s') ->
    forall u k, let log := n_log (dat s') in In (EvOwn u k) log -> exists rest, pool_log k log = EvPool k :: EvOwn u k :: rest /\ Forall (later u) rest.
  Proof.
    intros Hd Hs u k log Hu. pose proof (good_sched _ _ _ (good_start css w Hd) Hs) as (G & Hf & Hi). exact (i_own _ _ Hi u k Hu).
  Qed.
End Steps.
End Dies.

(** ** The statements *)
Lemma c87_responses E css w sch ps' s' : net_sched E sch (net_pool css, mkst (nstart w) ∅) = Some (ps', s') ->
  forall h, resp_log h (n_log (dat s')) = [] \/
    exists k r code rest, life k r h code = resp_log h (n_log (dat s')) ++ rest /\ resp_log h (n_log (dat s')) <> [] /\
      (Forall (fun p => finished p = true) ps' -> rest = []).
Proof.
  intros Hs h. destruct (responses (gone css) E css w sch ps' s' (fun j H => H) Hs h) as [H|(k & r & code & [rest H1] & H2 & H3)]; [auto|]. cbn zeta in *.
  right. exists k, r, code, rest. split; [exact H1|]. split; [exact H2|]. intros Hf. rewrite <- (H3 Hf) in H1. rewrite <- (app_nil_r (resp_log h _)) in H1 at 1. apply app_inv_head in H1. auto.
Qed.
Lemma c87_temporary E css w sch ps' s' : net_sched E sch (net_pool css, mkst (nstart w) ∅) = Some (ps', s') ->
  forall k, (forall u, ~ In (EvOwn u k) (n_log (dat s'))) ->
  pool_log k (n_log (dat s')) = [] \/
  exists l rest, one_use k l /\ l = pool_log k (n_log (dat s')) ++ rest /\ (Forall (fun p => finished p = true) ps' -> rest = []).
Proof. intros Hs. exact (temporaries (gone css) E css w sch ps' s' (fun j H => H) Hs). Qed.
Lemma c87_stored E css w sch ps' s' : net_sched E sch (net_pool css, mkst (nstart w) ∅) = Some (ps', s') ->
  forall u k, In (EvOwn u k) (n_log (dat s')) ->
  exists rest, pool_log k (n_log (dat s')) = EvPool k :: EvOwn u k :: rest /\
    (forall k', ~ In (EvPool k') rest) /\ (forall u' k', ~ In (EvOwn u' k') rest) /\
    forall j, u = inl j -> In (EvClear k) rest -> gone css j.
Proof.
  intros Hs u k Hu. destruct (stored_pools (gone css) E css w sch ps' s' (fun j H => H) Hs u k Hu) as (rest & H1 & H2). exists rest. split; [exact H1|].
  rewrite List.Forall_forall in H2. split; [|split]; [intros k' H; exact (H2 _ H)|intros u' k' H; exact (H2 _ H)|]. intros j -> H. exact (H2 _ H).
Qed.
