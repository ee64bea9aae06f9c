(** * HostNetSeq: the pool of a mirror or reader that is used by one thread (C87) *)
From stdpp Require Import gmap.
From Coq Require Import String.
From Coq Require Import List NArith ZArith Bool Arith Lia.
From Verif Require Import PyStr Prog ProgFacts PyIO Base LineBuf Json Host HostCli HostLazy HostNet HostNetSpec.
From Verif Require HostNetProofs.
Import ListNotations.
Local Open Scope prog_scope.
Local Open Scope nat_scope.

Section Seq.
  Variable E : henv.
  Local Instance sm : Sem ncmd nworld := nsem E.
  Lemma run_try {A} t (p : prog ncmd A) fin s :
    run t (try_finally p fin) s =
    match run t p s with
    | (Good a, s') => run t (bind fin (fun _ => Ret a)) s'
    | (Fail e, s') => run t (bind fin (fun _ => Raise e)) s'
    | (Block, s') => (Block, s')
    end.
  Proof.
    revert s. induction p as [a|e|X c k IHk h IHh]; intros s; [reflexivity|reflexivity|]. cbn [try_finally run].
    destruct (exec t c s) as [[x|e|] s']; auto.
  Qed.
  Lemma run_attempt {A} t (p : prog ncmd A) s :
    run t (attempt p) s = match run t p s with (Block, s') => (Block, s') | (r, s') => (Good r, s') end.
  Proof.
    revert s. induction p as [a|e|X c k IHk h IHh]; intros s; [reflexivity|reflexivity|]. cbn [attempt run]. destruct (exec t c s) as [[x|e|] s']; auto.
  Qed.

  (** One request. *)
  Definition same (w w' : nworld) : Prop := n_http w' = n_http w /\ n_stack w' = n_stack w /\ n_fin w' = n_fin w /\ n_pools w' = n_pools w.
  Lemma same_refl w : same w w. Proof. repeat split. Qed.
  Lemma same_trans a b c : same a b -> same b c -> same a c.
  Proof. intros (H1 & H2 & H3 & H4) (H5 & H6 & H7 & H8). repeat split; congruence. Qed.
  Definition asked (k : nat) (w w' : nworld) : Prop := same w w' /\ exists es, one_request k es /\ n_log w' = n_log w ++ es.
  Definition fits {A} (r : request) (f : prog ncmd json -> prog ncmd A) : Prop :=
    forall t k h code b s, (code <? 400) = true ->
    let s' := snd (run t (f (op (NLoad k h) ;; g_load b)) s) in
    fst (run t (f (op (NLoad k h) ;; g_load b)) s) <> Block /\ same (dat s) (dat s') /\ n_log (dat s') = n_log (dat s) ++ (if loads r code then [EvLoad k h] else []).
  Lemma run_request_nb t k {A} r (f : prog ncmd json -> prog ncmd A) s : fits r f -> fst (run t (n_request k r f) s) <> Block.
  Proof.
    intros Hf. unfold n_request. rewrite run_bind. cbn [run op exec cexec sm nsem nexec]. unfold nreq.
    destruct (creq E r (l_w (n_l (dat s)))) as [[[code b]|e|] w'] eqn:Hcr; cbn [run snd dat rs_pool rs_id rs_code rs_body].
    - set (h := n_resps (dat s)). set (s1 := mkst _ (lks s)). rewrite run_try.
      set (q := if code <? 400 then _ else _). assert (Hnb : fst (run t q s1) <> Block).
      { unfold q. destruct (code <? 400) eqn:Hc; [exact (proj1 (Hf t k h code b s1 Hc))|]. destruct b as [[| | | | |]|]; cbn; discriminate. }
      destruct (run t q s1) as [[a|e|] s2]; cbn [fst] in *; [| |congruence]; cbn; discriminate.
    - cbn. discriminate.
    - exfalso. unfold creq in Hcr. destruct (w_faults (l_w (n_l (dat s)))) as [|[]]; repeat (destruct (serve _ _ _)); discriminate.
  Qed.
  Lemma run_request t k {A} r (f : prog ncmd json -> prog ncmd A) s : fits r f -> asked k (dat s) (dat (snd (run t (n_request k r f) s))).
  Proof.
    intros Hf. unfold n_request. rewrite run_bind. cbn [run op exec cexec sm nsem nexec]. unfold nreq.
    destruct (creq E r (l_w (n_l (dat s)))) as [[[code b]|e|] w'] eqn:Hcr; cbn [run snd dat rs_pool rs_id rs_code rs_body].
    - set (h := n_resps (dat s)). set (s1 := mkst _ (lks s)). rewrite run_try.
      assert (Hbody : exists es, es = (if loads r code then [EvLoad k h] else []) /\
        let q := if code <? 400 then f (op (NLoad k h) ;; g_load b) else n_refused (op (NLoad k h) ;; g_load b) in
        fst (run t q s1) <> Block /\ same (dat s1) (dat (snd (run t q s1))) /\ n_log (dat (snd (run t q s1))) = n_log (dat s1) ++ es).
      { exists (if loads r code then [EvLoad k h] else []). split; [reflexivity|]. destruct (code <? 400) eqn:Hc; [apply Hf, Hc|].
        assert (Hl : loads r code = true) by (unfold loads; rewrite Hc; destruct r; reflexivity). rewrite Hl.
        destruct b as [[| | | | |]|]; cbn; (split; [discriminate|]); (split; [repeat split|reflexivity]). }
      destruct Hbody as (es & Hes & Hnb & Hs & Hl). cbn zeta in *.
      set (q := if code <? 400 then _ else _) in *. destruct (run t q s1) as [[a|e|] s2] eqn:Hq; cbn [fst snd] in *; [| |congruence].
      all: cbn [run bind op exec cexec sm nsem nexec snd dat note n_log n_http n_stack n_fin n_pools].
      all: split; [exact Hs|]; exists (EvResp k r h code :: es ++ [EvRelease k h; EvClose k h]); (split; [right; exists r, h, code; rewrite Hes; reflexivity|]).
      all: cbn [n_log note]; rewrite Hl; cbn [dat s1 n_log]; rewrite <- !app_assoc; reflexivity.
    - split; [repeat split|]. exists [EvFail k r]. split; [left; eauto|]. reflexivity.
    - exfalso. unfold creq in Hcr. destruct (w_faults (l_w (n_l (dat s)))) as [|[]]; repeat (destruct (serve _ _ _)); discriminate.
  Qed.

  Lemma fits_unused {A} b (x : A) : fits (PostMsg b) (fun _ => Ret x).
  Proof.
    intros t k h code b' s Hc. cbn [run fst snd]. split; [discriminate|]. split; [apply same_refl|]. unfold loads. rewrite Hc. cbn [negb]. rewrite app_nil_r. reflexivity.
  Qed.
  Lemma fits_used {A} r (G : json -> prog ncmd A) : (forall b, r <> PostMsg b) -> (forall v, HostNetProofs.pure (G v)) -> fits r (fun load => bind load G).
  Proof.
    intros Hr HG t k h code b s Hc. assert (Hl : loads r code = true) by (destruct r; try reflexivity; exfalso; eapply Hr; reflexivity). rewrite Hl.
    cbn. destruct b as [v|]; [|cbn; split; [discriminate|split; [repeat split|reflexivity]]]. cbn. specialize (HG v).
    destruct (G v); [| |destruct HG]; cbn; (split; [discriminate|split; [repeat split|reflexivity]]).
  Qed.

  (** ** One mirror *)
  Section Mirror.
    Variables (J : nat) (ag : bool).
    Definition unset (w : nworld) : Prop := n_log w = [] /\ n_http w !! inl J = None /\ n_fin w = [] /\ n_pools w = 0.
    Definition ready (w : nworld) : Prop :=
      n_http w !! inl J = Some 0 /\ n_fin w = [(J, 0)] /\ exists rest, rest <> [] /\ n_log w = EvPool 0 :: EvOwn (inl J) 0 :: rest /\ Forall (used 0) rest.
    Definition mst (w : nworld) : Prop := unset w \/ ready w.
    Definition kp {A} (p : prog ncmd A) : Prop := forall t s, mst (dat s) -> mst (dat (snd (run t p s))).
    Lemma kp_ret {A} (a : A) : kp (Ret a). Proof. intros t s H. exact H. Qed.
    Lemma kp_raise {A} e : kp (A:=A) (Raise e). Proof. intros t s H. exact H. Qed.
    Lemma kp_bind {A B} (p : prog ncmd A) (f : A -> prog ncmd B) : kp p -> (forall a, kp (f a)) -> kp (bind p f).
    Proof.
      intros Hp Hf t s H. rewrite run_bind. specialize (Hp t s H). destruct (run t p s) as [[a|e|] s']; [apply Hf, Hp|exact Hp|exact Hp].
    Qed.
    Lemma kp_lift {A} (p : prog lcmd A) : kp (lift (fun _ c => NL c) p).
    Proof.
      induction p as [a|e|X c k IHk h IHh]; intros t s H; [exact H|exact H|]. destruct c as [l m|l|X c]; cbn.
      - destruct (lock_acq _ _ _ _ _) as [[x|e|] lk]; [apply IHk, H|apply IHh, H|exact H].
      - destruct (lock_rel _ _ _) as [[x|e|] lk]; [apply IHk, H|apply IHh, H|exact H].
      - destruct (lexec E c (n_l (dat s))) as [[x|e|] l]; [apply IHk, H|apply IHh, H|exact H].
    Qed.
    Lemma kp_nl {X} (c : lcmd X) : kp (op (NL c)). Proof. apply (kp_lift (op c)). Qed.
    Lemma kp_try {A} (p : prog ncmd A) fin : kp p -> kp fin -> kp (try_finally p fin).
    Proof.
      intros Hp Hf t s H. rewrite run_try. specialize (Hp t s H). destruct (run t p s) as [[a|e|] s']; [| |exact Hp]; apply kp_bind; auto using kp_ret, kp_raise.
    Qed.
    Lemma kp_with {A} (p : prog ncmd A) : kp p -> kp (n_with J A p).
    Proof.
      intros H. apply kp_bind; [apply kp_lift|]. intros l t s Hs. unfold with_lock. cbn [run exec].
      destruct (lock_acq _ _ _ _ _) as [[x|e|] lk]; [|exact Hs|exact Hs]. apply kp_try; [exact H| |exact Hs].
      intros t' s' Hs'. cbn. destruct (lock_rel _ _ _) as [[y|e|] lk']; exact Hs'.
    Qed.
    Lemma kp_attempt {A} (p : prog ncmd A) : kp p -> kp (attempt p).
    Proof. intros H t s Hs. rewrite run_attempt. specialize (H t s Hs). destruct (run t p s) as [[a|e|] s']; exact H. Qed.
    Lemma one_used k es : one_request k es -> Forall (used k) es /\ es <> [].
    Proof.
      intros [[r ->]|(r & h & code & ->)]; [split; [repeat constructor|discriminate]|]. unfold life. destruct (loads r code); (split; [repeat constructor|discriminate]).
    Qed.
    Lemma kp_req {A} r (f : prog ncmd json -> prog ncmd A) : fits r f -> kp (m_req J A r f).
    Proof.
      intros Hf t s Hm. unfold m_req, m_http. destruct Hm as [(Hl & Hh & Hfi & Hp)|(Hh & Hfi & rest & Hr & Hl & Hu)]; cbn [run bind op exec cexec sm nsem nexec dat]; rewrite Hh; cbn [run bind op exec cexec sm nsem nexec dat].
      - cbn [n_pools note n_http]. rewrite lookup_insert. cbn [run bind op exec cexec sm nsem nexec dat n_some n_http note]. rewrite lookup_insert. cbn [n_some bind].
        match goal with |- mst (dat (snd (run t (n_request ?k r f) ?s0))) => destruct (run_request t k r f s0 Hf) as ((H1 & H2 & H3 & H4) & es & H5 & H6) end.
        destruct (one_used _ _ H5) as [Hes Hne]. rewrite Hp in *. right. split; [rewrite H1; apply lookup_insert|]. split; [rewrite H3; cbn; rewrite Hfi; reflexivity|].
        exists es. split; [exact Hne|]. split; [|exact Hes]. rewrite H6. cbn. rewrite Hl. reflexivity.
      - cbn [run bind op exec cexec sm nsem nexec dat n_some]. rewrite Hh. cbn [n_some bind].
        match goal with |- mst (dat (snd (run t (n_request ?k r f) ?s0))) => destruct (run_request t k r f s0 Hf) as ((H1 & H2 & H3 & H4) & es & H5 & H6) end.
        destruct (one_used _ _ H5) as [Hes Hne]. right. cbn [dat] in *. split; [rewrite H1; exact Hh|]. split; [rewrite H3; exact Hfi|].
        exists (rest ++ es). split; [destruct rest; [congruence|discriminate]|]. split; [rewrite H6, Hl; reflexivity|]. apply List.Forall_app. auto.
    Qed.

    Notation wl := (n_with J).
    Notation req := (m_req J).
    Lemma kp_closed : kp (wl _ (n_op _ (MClosed J))). Proof. apply kp_with, kp_nl. Qed.
    Lemma kp_open : kp (wl _ (bind (n_op _ (MClosed J)) (fun c => Ret (negb c)))).
    Proof. apply kp_with, kp_bind; [apply kp_nl|intros; apply kp_ret]. Qed.
    Lemma kp_send data : kp (n_send_data n_op wl req J data).
    Proof. apply kp_bind; [apply kp_closed|]. intros [|]; [apply kp_ret|apply kp_req, fits_unused]. Qed.
    Lemma kp_check : kp (n_check_states n_op wl req J).
    Proof.
      apply kp_bind; [apply kp_closed|]. intros [|]; [apply kp_ret|]. apply kp_bind.
      - apply kp_req, fits_used; [discriminate|]. intros v. apply HostNetProofs.pure_bind; [apply HostNetProofs.pure_dict|]. intros a. exact I.
      - intros v. destruct v as [|[|]| | | |]; try apply kp_ret. apply kp_raise.
    Qed.
    Lemma kp_write_body check data : kp (n_write_body n_op wl req J ag check data).
    Proof.
      unfold n_write_body. apply kp_bind; [destruct check; [apply kp_check|apply kp_ret]|]. intros _. destruct ag.
      - apply kp_bind; [apply kp_send|intros; apply kp_ret].
      - destruct (_ || _).
        + apply kp_bind; [apply kp_nl|]. intros n. apply kp_bind; [apply kp_nl|]. intros v. apply kp_bind; [apply kp_send|]. intros _.
          apply kp_bind; [apply kp_nl|]. intros _. apply kp_bind; [apply kp_nl|]. intros _. apply kp_ret.
        + destruct (_ =? _); [apply kp_nl|apply kp_ret].
    Qed.
    Lemma kp_new_line check : kp (n_new_line n_op wl req J ag check).
    Proof.
      apply kp_with, kp_bind; [apply kp_nl|]. intros n. destruct (_ <? _); [|apply kp_ret].
      apply kp_bind; [apply kp_write_body|intros; apply kp_ret].
    Qed.
    Lemma kp_signal check body : kp (n_signal n_op wl req J ag check body).
    Proof.
      apply kp_bind; [apply kp_closed|]. intros [|]; [apply kp_ret|]. apply kp_bind; [apply kp_new_line|]. intros _. apply kp_req, fits_unused.
    Qed.
    Lemma kp_clear : kp (g_clear n_op wl J).
    Proof. apply kp_with, kp_bind; [apply kp_nl|]. intros _. apply kp_nl. Qed.
    Lemma kp_as {X} (f : X -> cres) p : kp p -> kp (g_as f p).
    Proof. intros H. apply kp_bind; [exact H|]. intros x. apply kp_ret. Qed.
    Lemma kp_mcall c : kp (n_mcall n_op wl req J ag c).
    Proof.
      destruct c; unfold n_mcall; cbn [g_call]; apply kp_as.
      - apply kp_bind; [apply kp_open|]. intros w. destruct (negb w); [apply kp_raise|]. apply kp_with, kp_write_body.
      - apply kp_new_line.
      - apply kp_signal.
      - apply kp_signal.
      - apply kp_signal.
      - apply kp_send.
      - apply kp_check.
      - apply kp_clear.
      - apply kp_with, kp_nl.
      - apply kp_bind; [apply kp_open|]. intros w. destruct (negb w); [apply kp_raise|]. apply kp_with, kp_nl.
      - apply kp_bind; [apply kp_closed|]. intros [|]; [apply kp_ret|]. apply kp_bind; [destruct exc; apply kp_signal|]. intros _.
        apply kp_bind; [apply kp_clear|]. intros _. apply kp_with, kp_nl.
      - apply kp_closed.
      - apply kp_open.
      - apply kp_open.
      - apply kp_raise.
      - apply kp_raise.
      - apply kp_ret.
      - apply kp_ret.
    Qed.
  End Mirror.

  Lemma run_thread {A} t (p : prog ncmd A) ps rs s :
    run t (thread_from rs (p :: ps)) s = match run t p s with (Block, s') => (Block, s') | (r, s') => run t (thread_from (r :: rs) ps) s' end.
  Proof. cbn [thread_from]. rewrite run_bind, run_attempt. destruct (run t p s) as [[a|e|] s']; reflexivity. Qed.

  Definition mirror_log (j : nat) (log : list nev) : Prop :=
    exists rest, rest <> [] /\ log = EvPool 0 :: EvOwn (inl j) 0 :: rest /\ Forall (used 0) rest.
  Lemma kp_thread M cs : forall rs t s, mst (lm_id M) (dat s) -> mst (lm_id M) (dat (snd (run t (thread_from rs (map k_call (map (KMir M) cs))) s))).
  Proof.
    induction cs as [|c cs IH]; intros rs t s H; [exact H|]. cbn [map]. rewrite run_thread.
    pose proof (kp_mcall (lm_id M) (lm_aggr M) c t s H) as Hc. change (n_mcall _ _ _ _ _ c) with (k_call (KMir M c)) in Hc.
    destruct (run t (k_call (KMir M c)) s) as [[a|e|] s']; [apply IH, Hc|apply IH, Hc|exact Hc].
  Qed.
  Lemma mirror_alone M cs w : let r := net_run E (map (KMir M) cs) w in
    log_of r = [] /\ fin_of r = [] \/ mirror_log (lm_id M) (log_of r) /\ fin_of r = [(lm_id M, 0)].
  Proof.
    cbn zeta. destruct (kp_thread M cs [] 0 (mkst (nstart w) ∅)) as [(H1 & H2 & H3 & H4)|(H1 & H2 & H3)].
    - left. repeat split.
    - left. split; [exact H1|exact H3].
    - right. split; [exact H3|exact H2].
  Qed.
  Lemma thread_app M cs c : forall rs t s rs' s', run t (thread_from rs (map k_call (map (KMir M) cs ++ [c]))) s = (Good rs', s') ->
    exists rs1 s1 r, run t (thread_from rs (map k_call (map (KMir M) cs))) s = (Good rs1, s1) /\ run t (k_call c) s1 = (r, s').
  Proof.
    induction cs as [|c0 cs IH]; intros rs t s rs' s'; cbn [map app].
    - rewrite run_thread. destruct (run t (k_call c) s) as [[a|e|] s1] eqn:Hr; cbn; intros [= <- <-]; eauto 6.
    - rewrite !run_thread. destruct (run t (k_call (KMir M c0)) s) as [[a|e|] s1] eqn:Hr; [apply IH|apply IH|discriminate].
  Qed.
  Lemma mirror_gone M cs w rs s' : net_run E (map (KMir M) cs ++ [KGone (lm_id M)]) w = (Good rs, s') ->
    n_fin (dat s') = [] /\ (n_log (dat s') = [] \/ exists log, mirror_log (lm_id M) log /\ n_log (dat s') = log ++ [EvClear 0]).
  Proof.
    unfold net_run, thread. intros H. apply thread_app in H as (rs1 & s1 & r & H1 & H2).
    pose proof (kp_thread M cs [] 0 (mkst (nstart w) ∅)) as Hm. unfold thread in *. rewrite H1 in Hm. cbn in H2. injection H2 as <- <-. cbn [snd dat] in Hm |- *.
    destruct Hm as [(H3 & H4 & H5 & H6)|(H3 & H4 & H5)].
    - left. repeat split.
    - cbn [n_fin n_log]. rewrite H5, H3. cbn. auto.
    - cbn [n_fin n_log]. rewrite H4. cbn. rewrite Nat.eqb_refl. cbn. split; [reflexivity|]. right. eauto.
  Qed.

  (** ** One reader *)
  Definition asks_of (log : list nev) : nat := length (List.filter asks log).
  Lemma one_asks k es : one_request k es -> asks_of es = 1.
  Proof. intros [[r ->]|(r & h & code & ->)]; [reflexivity|]. unfold life. destruct (loads r code); reflexivity. Qed.
  Lemma run_r_req t j k {A} r (f : prog ncmd json -> prog ncmd A) s : fits r f -> n_http (dat s) !! inr j = Some k -> asked k (dat s) (dat (snd (run t (r_req j A r f) s))).
  Proof.
    intros Hf Hh. unfold r_req. cbn [run bind op exec cexec sm nsem nexec dat]. rewrite Hh. cbn [run bind op exec cexec sm nsem nexec dat]. rewrite Hh. cbn [n_some bind].
    apply (run_request t k r f (mkst (dat s) (lks s)) Hf).
  Qed.
  Lemma run_rcall t j k c s : n_http (dat s) !! inr j = Some k -> asked k (dat s) (dat (snd (run t (k_call (KRd j c)) s))).
  Proof.
    intros Hh. assert (Has : forall X (g : X -> cres) p, asked k (dat s) (dat (snd (run t p s))) -> asked k (dat s) (dat (snd (run t (g_as g p) s)))).
    { intros X g p H. unfold g_as. rewrite run_bind. destruct (run t p s) as [[a|e|] s']; exact H. }
    cbn [k_call]. destruct c; unfold n_rcall; apply Has; apply run_r_req; auto; apply fits_used; try discriminate; intros v.
    - apply HostNetProofs.pure_bind; [apply HostNetProofs.pure_index|]. intros d. apply HostNetProofs.pure_bind; [apply HostNetProofs.pure_out|]. intros l. apply HostNetProofs.pure_out.
    - apply HostNetProofs.pure_index.
    - apply HostNetProofs.pure_index.
    - apply HostNetProofs.pure_index.
    - apply HostNetProofs.pure_bind; [apply HostNetProofs.pure_dict|]. intros a. exact I.
    - apply HostNetProofs.pure_bind; [apply HostNetProofs.pure_dict|]. intros a. exact I.
    - apply HostNetProofs.pure_bind; [apply HostNetProofs.pure_dict|]. intros a. exact I.
  Qed.

  (** Calls of the reader while [__http_] is set. *)
  Lemma run_calls j k cs : forall ps rs t s r s', n_http (dat s) !! inr j = Some k -> run t (thread_from rs (map k_call (map (KRd j) cs) ++ ps)) s = (Good r, s') ->
    exists rs1 s1 es, run t (thread_from rs1 ps) s1 = (Good r, s') /\ same (dat s) (dat s1) /\ n_log (dat s1) = n_log (dat s) ++ es /\ Forall (used k) es /\ asks_of es = length cs.
  Proof.
    induction cs as [|c cs IH]; intros ps rs t s r s' Hh; cbn [map app].
    - intros H. exists rs, s, []. split; [exact H|]. split; [apply same_refl|]. rewrite app_nil_r. repeat split. constructor.
    - rewrite run_thread. pose proof (run_rcall t j k c s Hh) as (Hsame & es & He & Hl).
      assert (Hgo : forall x s1, snd (run t (k_call (KRd j c)) s) = s1 -> run t (thread_from (x :: rs) (map k_call (map (KRd j) cs) ++ ps)) s1 = (Good r, s') ->
        exists rs1 s1 es, run t (thread_from rs1 ps) s1 = (Good r, s') /\ same (dat s) (dat s1) /\ n_log (dat s1) = n_log (dat s) ++ es /\ Forall (used k) es /\ asks_of es = length (c :: cs)).
      { intros x s1 <- Hrun. apply IH in Hrun as (rs1 & s2 & es2 & H1 & H2 & H3 & H4 & H5); [|destruct Hsame as (-> & _); exact Hh].
        exists rs1, s2, (es ++ es2). split; [exact H1|]. split; [eapply same_trans; eauto|]. split; [rewrite H3, Hl, app_assoc; reflexivity|].
        destruct (one_used _ _ He) as [Hu _]. split; [apply List.Forall_app; auto|]. unfold asks_of in *. rewrite List.filter_app, app_length. fold (asks_of es). rewrite (one_asks _ _ He), H5. reflexivity. }
      destruct (run t (k_call (KRd j c)) s) as [[a|e|] s1] eqn:Hr; cbn [snd] in Hgo; [apply (Hgo _ s1 eq_refl)|apply (Hgo _ s1 eq_refl)|discriminate].
  Qed.
  Lemma reader_context j cs1 cs2 w rs s' : net_run E (KEnter j :: map (KRd j) cs1 ++ KExit j :: map (KRd j) cs2) w = (Good rs, s') ->
    exists es1 es2, n_log (dat s') = EvPool 0 :: EvOwn (inr j) 0 :: es1 ++ EvClear 0 :: es2 /\ Forall (used 0) es1 /\ Forall (used 0) es2 /\
      length (List.filter asks es1) = length cs1 /\ length (List.filter asks es2) = length cs2.
  Proof.
    unfold net_run, thread. cbn [map]. rewrite map_app. cbn [map]. rewrite run_thread.
    cbn [run k_call g_as r_enter bind op exec cexec sm nsem nexec dat nstart n_http]. rewrite lookup_empty.
    cbn [run bind op exec cexec sm nsem nexec dat note n_http n_stack n_pools n_resps n_fin n_log n_l nstart]. rewrite lookup_empty.
    cbn [run bind op exec cexec sm nsem nexec dat note n_http n_stack n_pools n_resps n_fin n_log n_l nstart]. intros H.
    apply (run_calls j 0) in H as (rs1 & s1 & es1 & H & (Hh1 & Hs1 & Hf1 & Hp1) & Hl1 & Hu1 & Ha1); [|cbn; apply lookup_insert]. cbn [dat n_http n_stack n_log] in *.
    rewrite run_thread in H. cbn [run k_call g_as r_exit bind op exec cexec sm nsem nexec dat] in H. rewrite Hs1, lookup_insert in H.
    change (0 <? 0 + 1)%Z with true in H. cbn [run bind op exec cexec sm nsem nexec dat n_stack n_http] in H. rewrite Hs1, lookup_insert in H.
    cbn [run bind op exec cexec sm nsem nexec dat n_stack n_http] in H. rewrite lookup_insert in H. change (0 + 1 - 1 <=? 0)%Z with true in H.
    cbn [run bind op exec cexec sm nsem nexec dat n_stack n_http] in H. rewrite Hh1, lookup_insert in H.
    cbn [run bind op exec cexec sm nsem nexec dat n_stack n_http] in H. rewrite lookup_insert in H.
    cbn [run bind op exec cexec sm nsem nexec dat n_stack n_http n_some] in H.
    rewrite <- (app_nil_r (map k_call (map (KRd j) cs2))) in H.
    apply (run_calls j 0) in H as (rs2 & s2 & es2 & H & (Hh2 & Hs2 & Hf2 & Hp2) & Hl2 & Hu2 & Ha2); [|cbn; apply lookup_insert].
    cbn in H. injection H as _ <-. exists es1, es2. split; [|auto]. rewrite Hl2. cbn. rewrite Hl1. cbn. rewrite <- app_assoc. reflexivity.
  Qed.

  (** ** One reader, anything *)
  Definition rdst (j : nat) (h : option nat) (n : nat) (w : nworld) : Prop :=
    n_http w !! inr j = h /\ n_pools w = n /\
    match h with None => n_stack w !! j = None | Some _ => n_stack w !! j = Some 0%Z \/ n_stack w !! j = Some 1%Z end.
  Definition rdone (j : nat) (d : rdo) (h : option nat) (n : nat) (es : list nev) (h' : option nat) (n' : nat) : Prop :=
    match d, h with
    | DoCall _, None => one_use n es /\ h' = None /\ n' = S n
    | DoCall _, Some k => one_request k es /\ h' = h /\ n' = n
    | DoEnter, None => es = [EvPool n; EvOwn (inr j) n] /\ h' = Some n /\ n' = S n
    | DoExit, Some k => es = [EvClear k] /\ h' = h /\ n' = n
    | _, _ => es = [] /\ h' = h /\ n' = n
    end.
  Definition okcall (j : nat) (d : rdo) {A} (p : prog ncmd A) : Prop :=
    forall t s h n, rdst j h n (dat s) -> fst (run t p s) <> Block /\
    exists es h' n', rdone j d h n es h' n' /\ n_log (dat (snd (run t p s))) = n_log (dat s) ++ es /\ rdst j h' n' (dat (snd (run t p s))).
  Lemma okcall_as j d {X} (f : X -> cres) p : okcall j d p -> okcall j d (g_as f p).
  Proof.
    intros H t s h n Hs. unfold g_as. rewrite run_bind. specialize (H t s h n Hs). destruct (run t p s) as [[a|e|] s']; destruct H as [Hn H]; [split; [discriminate|exact H]|split; [discriminate|exact H]|destruct (Hn eq_refl)].
  Qed.
  Lemma one_use_req n es : one_request n es -> one_use n (EvPool n :: es ++ [EvClear n]).
  Proof. intros [[r ->]|(r & h & code & ->)]; [apply ou_fail|apply ou_resp]. Qed.
  Lemma okcall_req j c {A} r (f : prog ncmd json -> prog ncmd A) : fits r f -> okcall j (DoCall c) (r_req j A r f).
  Proof.
    intros Hf t s h n (Hh & Hn & Hz). unfold r_req. cbn [run bind op exec cexec sm nsem nexec dat]. rewrite Hh. destruct h as [k|]; cbn [run bind op exec cexec sm nsem nexec dat].
    - rewrite Hh. cbn [n_some bind]. match goal with |- context [run t _ ?s0] => pose proof (run_request_nb t k r f s0 Hf) as Hnb; destruct (run_request t k r f s0 Hf) as ((H1 & H2 & H3 & H4) & es & H5 & H6) end.
      split; [exact Hnb|]. exists es, (Some k), n. split; [repeat split; exact H5|]. split; [exact H6|]. unfold rdst. rewrite H1, H2, H4. auto.
    - rewrite run_try. match goal with |- context [run t (n_request ?k r f) ?s0] => pose proof (run_request_nb t k r f s0 Hf) as Hnb; destruct (run_request t k r f s0 Hf) as ((H1 & H2 & H3 & H4) & es & H5 & H6);
        destruct (run t (n_request k r f) s0) as [[a|e|] s2]; cbn [fst snd] in *; [| |congruence] end.
      all: cbn [run bind op exec cexec sm nsem nexec fst snd dat note n_log n_http n_stack n_pools n_l n_resps n_fin] in *; (split; [discriminate|]).
      all: exists (EvPool n :: es ++ [EvClear n]), None, (S n); (split; [split; [apply one_use_req; rewrite <- Hn; exact H5|auto]|]).
      all: cbn [run bind op exec cexec sm nsem nexec fst snd dat note n_log n_http n_stack n_pools n_l n_resps n_fin] in *.
      all: (split; [rewrite H6, <- !app_assoc, Hn; reflexivity|]); unfold rdst, note; cbn [dat n_http n_pools n_stack]; rewrite H1, H2, H4, Hn; auto.
  Qed.
  Lemma okcall_do j d : okcall j d (k_call (do_rd j d)).
  Proof.
    destruct d as [c| |]; cbn [do_rd k_call].
    - destruct c; unfold n_rcall; apply okcall_as; apply okcall_req; apply fits_used; try discriminate; intros v.
      + apply HostNetProofs.pure_bind; [apply HostNetProofs.pure_index|]. intros d. apply HostNetProofs.pure_bind; [apply HostNetProofs.pure_out|]. intros l. apply HostNetProofs.pure_out.
      + apply HostNetProofs.pure_index.
      + apply HostNetProofs.pure_index.
      + apply HostNetProofs.pure_index.
      + apply HostNetProofs.pure_bind; [apply HostNetProofs.pure_dict|]. intros a. exact I.
      + apply HostNetProofs.pure_bind; [apply HostNetProofs.pure_dict|]. intros a. exact I.
      + apply HostNetProofs.pure_bind; [apply HostNetProofs.pure_dict|]. intros a. exact I.
    - apply okcall_as. intros t s h n (Hh & Hn & Hz). unfold r_enter. cbn [run bind op exec cexec sm nsem nexec dat]. rewrite Hh. destruct h as [k|]; cbn [run bind op exec cexec sm nsem nexec dat].
      + split; [discriminate|]. exists [], (Some k), n. rewrite app_nil_r. repeat split; auto.
      + cbn [note n_stack n_http n_pools n_l n_log n_resps n_fin]. rewrite Hz. cbn [run bind op exec cexec sm nsem nexec dat note n_stack n_http n_pools n_l n_log n_resps n_fin fst snd].
        split; [discriminate|]. exists [EvPool n; EvOwn (inr j) n], (Some n), (S n). split; [repeat split|]. split; [rewrite <- !app_assoc, Hn; reflexivity|].
        unfold rdst, note. cbn [dat n_http n_pools n_stack]. rewrite !lookup_insert, Hn. auto.
    - apply okcall_as. intros t s h n (Hh & Hn & Hz). unfold r_exit. cbn [run bind op exec cexec sm nsem nexec dat].
      destruct h as [k|]; [destruct Hz as [Hz|Hz]|].
      + rewrite Hz. change (0 <? 0)%Z with false. cbn [run bind op exec cexec sm nsem nexec dat]. rewrite Hz. change (0 <=? 0)%Z with true. cbn [run bind op exec cexec sm nsem nexec dat].
        rewrite Hh. cbn [run bind op exec cexec sm nsem nexec dat]. rewrite Hh. cbn [n_some run bind op exec cexec sm nsem nexec dat note n_stack n_http n_pools n_l n_log n_resps n_fin fst snd].
        split; [discriminate|]. exists [EvClear k], (Some k), n. split; [repeat split|]. split; [reflexivity|]. unfold rdst, note. cbn [dat n_http n_pools n_stack]. auto.
      + rewrite Hz. change (0 <? 1)%Z with true. cbn [run bind op exec cexec sm nsem nexec dat]. rewrite Hz. cbn [run bind op exec cexec sm nsem nexec dat n_stack n_http]. rewrite lookup_insert.
        change (1 - 1 <=? 0)%Z with true. cbn [run bind op exec cexec sm nsem nexec dat n_stack n_http].
        rewrite Hh. cbn [run bind op exec cexec sm nsem nexec dat n_http]. rewrite Hh. cbn [n_some run bind op exec cexec sm nsem nexec dat note n_stack n_http n_pools n_l n_log n_resps n_fin fst snd].
        split; [discriminate|]. exists [EvClear k], (Some k), n. split; [repeat split|]. split; [reflexivity|]. unfold rdst, note. cbn [dat n_http n_pools n_stack]. rewrite lookup_insert. auto.
      + rewrite Hz. change (0 <? 0)%Z with false. cbn [run bind op exec cexec sm nsem nexec dat]. rewrite Hz. change (0 <=? 0)%Z with true. cbn [run bind op exec cexec sm nsem nexec dat].
        rewrite Hh. cbn [run bind op exec cexec sm nsem nexec dat fst snd]. split; [discriminate|]. exists [], None, n. rewrite app_nil_r. repeat split; auto.
  Qed.
  Lemma reader_thread j ds : forall rs t s h n, rdst j h n (dat s) ->
    exists rs' es, fst (run t (thread_from rs (map k_call (map (do_rd j) ds))) s) = Good rs' /\
      n_log (dat (snd (run t (thread_from rs (map k_call (map (do_rd j) ds))) s))) = n_log (dat s) ++ es /\ reader_log j h n ds es.
  Proof.
    induction ds as [|d ds IH]; intros rs t s h n Hs; cbn [map].
    - cbn. exists (rev rs), []. rewrite app_nil_r. destruct h; auto.
    - rewrite run_thread. destruct (okcall_do j d t s h n Hs) as (Hnb & es & h' & n' & Hd & Hl & Hs').
      assert (Hgo : forall x s1, snd (run t (k_call (do_rd j d)) s) = s1 -> exists rs' es0,
        fst (run t (thread_from (x :: rs) (map k_call (map (do_rd j) ds))) s1) = Good rs' /\
        n_log (dat (snd (run t (thread_from (x :: rs) (map k_call (map (do_rd j) ds))) s1))) = n_log (dat s) ++ es0 /\ reader_log j h n (d :: ds) es0).
      { intros x s1 <-. destruct (IH (x :: rs) t _ _ _ Hs') as (rs' & es' & H1 & H2 & H3). exists rs', (es ++ es'). split; [exact H1|]. split; [rewrite H2, Hl, app_assoc; reflexivity|].
        destruct d as [c| |], h as [k|]; cbn [rdone reader_log] in *; destruct Hd as (Hd & -> & ->); subst; eauto. }
      destruct (run t (k_call (do_rd j d)) s) as [[a|e|] s1] eqn:Hr; cbn [fst snd] in Hnb, Hgo; [apply (Hgo _ s1 eq_refl)|apply (Hgo _ s1 eq_refl)|congruence].
  Qed.
  Lemma reader_any j ds w : (exists rs, fst (net_run E (map (do_rd j) ds) w) = Good rs) /\ reader_log j None 0 ds (log_of (net_run E (map (do_rd j) ds) w)).
  Proof.
    destruct (reader_thread j ds [] 0 (mkst (nstart w) ∅) None 0) as (rs & es & H1 & H2 & H3); [repeat split|]. split; [exists rs; exact H1|].
    cbn [dat nstart n_log app] in H2. rewrite <- H2 in H3. exact H3.
  Qed.
End Seq.
Lemma c87_mirror E M cs w : let r := net_run E (map (KMir M) cs) w in
  log_of r = [] /\ fin_of r = [] \/
  exists rest, rest <> [] /\ log_of r = EvPool 0 :: EvOwn (inl (lm_id M)) 0 :: rest /\ Forall (used 0) rest /\ fin_of r = [(lm_id M, 0)].
Proof. cbn zeta. destruct (mirror_alone E M cs w) as [H|[(rest & H1 & H2 & H3) H4]]; [auto|]. right. exists rest. auto. Qed.
Lemma c87_gone E M cs w rs s' : net_run E (map (KMir M) cs ++ [KGone (lm_id M)]) w = (Good rs, s') ->
  n_fin (dat s') = [] /\
  (n_log (dat s') = [] \/
   exists rest, rest <> [] /\ n_log (dat s') = EvPool 0 :: EvOwn (inl (lm_id M)) 0 :: rest ++ [EvClear 0] /\ Forall (used 0) rest).
Proof.
  intros H. destruct (mirror_gone E M cs w rs s' H) as [H1 [H2|(log & (rest & H2 & -> & H3) & H4)]]; [auto|]. split; [exact H1|]. right. exists rest. auto.
Qed.
