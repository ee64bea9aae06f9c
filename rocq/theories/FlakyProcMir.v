(** * FlakyProcMir: what an exception from outside leaves of a mirror (C106) *)
From stdpp Require Import gmap relations.
From Coq Require Import List NArith ZArith Bool Arith Lia.
From Verif Require Import PyStr Prog ProgFacts PyIO Base Spec SpecFacts LineBuf Locks Crash Proc ProcSpec ProcFacts CountSpec
  ProcMain Flaky FlakySpec FlakyFacts FlakyCalls FlakyProcGen FlakyProcSpec.
Import ListNotations.
Local Open Scope prog_scope.
Local Open Scope nat_scope.

(** ** Its locks *)
Section Locks.
  Definition frs {C A} (p : prog C A) : Prop := forall h, ~ In STL h -> uw okq h h p.
  Lemma frs_ret {C A} (a : A) : frs (Ret a : prog C A). Proof. intros h _. constructor. Qed.
  Lemma frs_raise {C A} e : frs (Raise e : prog C A). Proof. intros h _. constructor. Qed.
  Lemma frs_op {C X} (c : C X) : frs (op c). Proof. intros h _. apply uw_one. Qed.
  Lemma frs_bind {C A B} (p : prog C A) (f : A -> prog C B) : frs p -> (forall a, frs (f a)) -> frs (bind p f).
  Proof. intros H Hf h Hh. apply uw_bind; [apply H, Hh|]. intros a. apply Hf, Hh. Qed.
  Lemma frs_re {C A} n (p : prog C A) : frs p -> frs (with_lock (mlock n) Ex p).
  Proof.
    intros H h Hh. apply uw_with; [split; [reflexivity|left; apply reent_mlock]|]. apply H. intros [E|E]; [|exact (Hh E)].
    unfold mlock, STL in E. lia.
  Qed.
End Locks.
Ltac frst := repeat first
  [ assumption
  | apply frs_ret | apply frs_raise | apply frs_op
  | match goal with
    | H : forall _, frs _ |- _ => apply H
    | H : forall _ _, frs _ |- _ => apply H
    end
  | apply frs_bind; [|intros ?]
  | match goal with
    | |- frs (if ?b then _ else _) => destruct b
    | |- frs (match ?b with _ => _ end) => destruct b
    end ].
Lemma frs_with_m {A} (p : prog mcmd A) : frs p -> frs (with_m p).
Proof.
  intros H h Hh. unfold with_m, lm_lock. cbn [bind op]. constructor; [|intros; constructor]. intros r.
  assert (H2 : forall n, uw okq h h (with_lock (mlock n) Ex p)) by (intros n; apply frs_re; assumption).
  destruct r; cbn [bind op].
  - constructor; [|intros; constructor]. intros [n2|]; cbn [bind]; [apply H2|constructor].
  - constructor; [|intros; constructor]. intros _. cbn [bind op]. constructor; [|intros; constructor]. intros [n2|]; cbn [bind]; [apply H2|constructor].
Qed.
Lemma frs_lm_call c : frs (lm_call c).
Proof.
  assert (Hput : forall m, frs (lm_put m)) by (intros m; unfold lm_put; frst).
  assert (Hc : frs (with_m (mop MClosed))) by (apply frs_with_m; frst).
  assert (Hd : forall data, frs (lm_send_data data)) by (intros data; unfold lm_send_data; frst).
  assert (Hb : forall data, frs (lm_write_body data)).
  { intros data. unfold lm_write_body. cbv zeta. apply frs_bind; [frst|]. intros has. apply frs_bind; [|intros _; frst].
    destruct has; [|frst]. intros h Hh. apply uw_with; [split; [reflexivity|right; exact Hh]|].
    apply uw_bind; [apply uw_one|]. intros b. apply uw_bind; [destruct b; [apply uw_one|constructor]|]. intros [|]; constructor. }
  assert (Hw : frs lm_writable) by (apply frs_with_m; frst).
  assert (Hr : frs lm_readable) by (apply frs_with_m; frst).
  assert (Hn : frs lm_new_line) by (apply frs_with_m; frst).
  assert (Hs : forall m, frs (lm_send_signal m)) by (intros m; unfold lm_send_signal; frst).
  assert (Hcl : frs lm_clear) by (apply frs_with_m; frst).
  assert (Hm : forall (p : prog mcmd unit), frs p -> frs (with_m p)) by (intros; apply frs_with_m; assumption).
  assert (Hm2 : forall (p : prog mcmd nat), frs p -> frs (with_m p)) by (intros; apply frs_with_m; assumption).
  assert (Hm3 : forall (p : prog mcmd text), frs p -> frs (with_m p)) by (intros; apply frs_with_m; assumption).
  destruct c; cbn [lm_call]; (apply frs_bind; [|intros; apply frs_ret]); auto;
    try solve [unfold lm_write, lm_read, lm_close, lm_flush, lm_closed, lm_send_eof, lm_send_error, lm_send_warning, lm_fileno, lm_seek, lm_isatty, lm_seekable; frst].
Qed.
Lemma uw_mirror i c : uw okq [] [] (s_call (ToMirror i c)).
Proof. apply uw_lift, uw_bind; [apply frs_lm_call; intros []|intros; constructor]. Qed.
Lemma on_buf_nb {X} (f : sio -> outcome X * sio) d : (forall b, fst (f b) <> Block) -> fst (on_buf f d) <> Block.
Proof. intros H. unfold on_buf. specialize (H (m_buf (e_mir d))). destruct (f (m_buf (e_mir d))). exact H. Qed.
Lemma sm_nb i X (c : mcmd X) d : fst (cexec (SM i c) d) <> Block.
Proof.
  cbn. assert (H : fst (mexec c (get_menv i d)) <> Block).
  { destruct c; try (cbn; discriminate); try (apply on_buf_nb; intros b; unfold sio_closed, sio_tell, sio_getvalue, sio_write, sio_seek0, sio_truncate0, sio_close, sio_flush, sio_read, sio_guard;
      destruct (sclosed b); cbn; try discriminate; destruct s; discriminate). }
  destruct (mexec c (get_menv i d)). exact H.
Qed.
Lemma nbs_mirror i c : nbs (s_call (ToMirror i c)).
Proof.
  cbn [s_call]. generalize (bind (lm_call c) (fun r => Ret (FromMirror r))) as p. intros p. unfold sys_m.
  induction p as [a|e|X c0 k IHk h IHh]; cbn [lift nbs]; auto. split; [|auto]. destruct c0 as [l m|l|X c0]; cbn; auto. apply sm_nb.
Qed.

(** ** The data of a mirror *)
Section Mirror.
  Variable d0 : menv.
  Notation m0 := (e_mir d0).
  (** [d] is [d0] with the held text [b] and the queue [q]. *)
  Definition env_is (b : sio) (q : list msg) (d : menv) : Prop :=
    exists r n, d = mkmenv (mkmir b r (m_aggr m0) (m_timeout m0) (m_has m0) (m_q m0) (m_id m0) n) q (e_qmax d0) (e_state d0).
  Variable L : sio -> list msg -> Prop.
  Definition seen (d : menv) : Prop := exists b q, L b q /\ env_is b q d.
  Definition mh {A} (p : prog mcmd A) (b : sio) (q : list msg) (Q : A -> sio -> list msg -> Prop) : Prop :=
    forall d, env_is b q d -> hal seen p d (fun a d' => exists b' q', env_is b' q' d' /\ Q a b' q').
  Lemma mh_bind {A B} (p : prog mcmd A) (f : A -> prog mcmd B) b q (Q : B -> sio -> list msg -> Prop) :
    mh p b q (fun a b' q' => mh (f a) b' q' Q) -> mh (bind p f) b q Q.
  Proof. intros H d Hd. apply hal_bind. eapply hal_mono; [|apply H, Hd]. intros a d' (b' & q' & He & Hf). apply Hf, He. Qed.
  Lemma mh_ret {A} (a : A) b q (Q : A -> sio -> list msg -> Prop) : L b q -> Q a b q -> mh (Ret a) b q Q.
  Proof. intros H HQ d Hd. apply hal_ret; [exists b, q; auto|eauto]. Qed.
  Lemma mh_raise {A} e b q (Q : A -> sio -> list msg -> Prop) : L b q -> mh (Raise e) b q Q.
  Proof. intros H d Hd. apply hal_raise. exists b, q. auto. Qed.
  (** A command on the held text. *)
  Lemma mh_buf {X} (c : mcmd X) f b q x b' (Q : X -> sio -> list msg -> Prop) : (forall d, mexec c d = on_buf f d) -> f b = (Good x, b') ->
    L b q -> L b' q -> Q x b' q -> mh (mop c) b q Q.
  Proof.
    intros Hc Ef H1 H2 HQ d (r & n & ->).
    assert (He : cexec c (mkmenv (mkmir b r (m_aggr m0) (m_timeout m0) (m_has m0) (m_q m0) (m_id m0) n) q (e_qmax d0) (e_state d0)) =
      (Good x, mkmenv (mkmir b' r (m_aggr m0) (m_timeout m0) (m_has m0) (m_q m0) (m_id m0) n) q (e_qmax d0) (e_state d0))).
    { cbn. rewrite Hc. unfold on_buf. cbn. rewrite Ef. reflexivity. }
    apply hal_op.
    - exists b, q. split; [exact H1|]. exists r, n. reflexivity.
    - rewrite He. exists b', q. split; [exact H2|]. exists r, n. reflexivity.
    - intros y d'. rewrite He. intros [= <- <-]. exists b', q. split; [exists r, n; reflexivity|exact HQ].
  Qed.
  (** A command that only looks. *)
  Lemma mh_look {X} (c : mcmd X) (v : menv -> X) b q (Q : X -> sio -> list msg -> Prop) : (forall d, mexec c d = (Good (v d), d)) -> L b q ->
    (forall d, env_is b q d -> Q (v d) b q) -> mh (mop c) b q Q.
  Proof.
    intros Hc H1 HQ d Hd. apply hal_op; cbn; rewrite ?Hc; cbn.
    - exists b, q. auto.
    - exists b, q. auto.
    - intros y d' [= <- <-]. exists b, q. auto.
  Qed.
  Lemma mh_put x blk to b q (Q : unit -> sio -> list msg -> Prop) : L b q -> L b (q ++ [x]) -> Q tt b (q ++ [x]) -> mh (mop (MPut x blk to)) b q Q.
  Proof.
    intros H1 H2 HQ d (r & n & ->). apply hal_op.
    - exists b, q. split; [exact H1|]. exists r, n. reflexivity.
    - cbn. destruct (q_full (e_qmax d0) q); [destruct blk|]; cbn; [exists b, q; (split; [exact H1|exists r, n; reflexivity])..|].
      exists b, (q ++ [x]). split; [exact H2|exists r, n; reflexivity].
    - cbn. intros y d'. destruct (q_full (e_qmax d0) q); [destruct blk; discriminate|]. intros [= <- <-]. exists b, (q ++ [x]). split; [exists r, n; reflexivity|exact HQ].
  Qed.
  Lemma mh_lock b q : L b q -> mh lm_lock b q (fun _ b' q' => b' = b /\ q' = q).
  Proof.
    intros H0. unfold lm_lock. apply mh_bind. apply (mh_look MRef (fun d => m_ref (e_mir d))); [reflexivity|exact H0|]. intros d1 Hd1. apply mh_bind.
    assert (Hrest : mh (r2 <- mop MRef ;; match r2 with Some n => Ret (mlock n) | None => Raise AttributeError end) b q (fun _ b' q' => b' = b /\ q' = q)).
    { apply mh_bind. apply (mh_look MRef (fun d => m_ref (e_mir d))); [reflexivity|exact H0|]. intros d2 _. destruct (m_ref (e_mir d2)); [apply mh_ret; auto|apply mh_raise; auto]. }
    destruct (m_ref (e_mir d1)); [apply mh_ret; [exact H0|exact Hrest]|].
    intros d (r & n & ->). apply hal_op.
    - exists b, q. split; [exact H0|]. exists r, n. reflexivity.
    - cbn. exists b, q. split; [exact H0|]. eexists _, _. reflexivity.
    - cbn. intros y d' [= <- <-]. exists b, q. split; [eexists _, _; reflexivity|exact Hrest].
  Qed.
  Lemma mh_with {A} (p : prog mcmd A) b q Q : L b q -> mh p b q Q -> mh (with_m p) b q Q.
  Proof.
    intros H0 Hp. unfold with_m. apply mh_bind. intros d Hd. eapply hal_mono; [|apply (mh_lock b q H0 d Hd)].
    intros l d' (b' & q' & He & -> & ->). exists b, q. split; [exact He|]. intros d2 Hd2. apply hal_with, Hp, Hd2.
  Qed.
  Lemma mh_mono {A} (p : prog mcmd A) b q (Q Q' : A -> sio -> list msg -> Prop) : (forall a b' q', Q a b' q' -> Q' a b' q') -> mh p b q Q -> mh p b q Q'.
  Proof. intros H Hp d Hd. eapply hal_mono; [|apply Hp, Hd]. intros a d' (b' & q' & He & HQ). exists b', q'. auto. Qed.

  (** Commands *)
  Lemma mh_closed b q (Q : bool -> sio -> list msg -> Prop) : L b q -> Q (sclosed b) b q -> mh (with_m (mop MClosed)) b q Q.
  Proof. intros H0 HQ. apply mh_with; [exact H0|]. apply (mh_buf MClosed sio_closed b q (sclosed b) b); try reflexivity; assumption. Qed.
  Lemma mh_lm_put x b q (Q : unit -> sio -> list msg -> Prop) : L b q -> L b (q ++ [x]) -> Q tt b (q ++ [x]) -> mh (lm_put x) b q Q.
  Proof.
    intros H0 H1 HQ. unfold lm_put. apply mh_bind. apply (mh_look MTimeout (fun d => m_timeout (e_mir d))); [reflexivity|exact H0|]. intros d _.
    apply mh_put; assumption.
  Qed.
  Lemma mh_send_data x b q (Q : unit -> sio -> list msg -> Prop) : sclosed b = false -> L b q -> L b (q ++ [QStr x]) -> Q tt b (q ++ [QStr x]) -> mh (lm_send_data x) b q Q.
  Proof. intros Hb H0 H1 HQ. unfold lm_send_data. apply mh_bind, mh_closed; [exact H0|]. rewrite Hb. apply mh_lm_put; assumption. Qed.

  Definition stop0 : bool := m_has m0 && match e_state d0 with Some true => true | _ => false end.
  Lemma mh_check {A} (k : prog mcmd A) b q (Q : A -> sio -> list msg -> Prop) : L b q -> (stop0 = false -> mh k b q Q) ->
    mh (has <- mop MHas ;;
        (if has then with_lock STL Ex (t <- mop MStTruth ;; c <- (if t then mop MStGet else Ret false) ;; if c then Raise StopIteration else Ret tt) else Ret tt) ;; k) b q Q.
  Proof.
    intros H0 Hk. apply mh_bind. apply (mh_look MHas (fun d => m_has (e_mir d))); [reflexivity|exact H0|]. intros d (r & n & ->). cbn [e_mir m_has]. apply mh_bind.
    destruct (m_has m0) eqn:Eh; [|apply mh_ret; [exact H0|apply Hk; unfold stop0; rewrite Eh; reflexivity]].
    intros d1 Hd1. apply hal_with. revert d1 Hd1. fold (mh (t <- mop MStTruth ;; c <- (if t then mop MStGet else Ret false) ;; if c then Raise StopIteration else Ret tt) b q (fun _ b' q' => mh k b' q' Q)).
    apply mh_bind. apply (mh_look MStTruth (fun d => match e_state d with None => false | Some _ => true end)); [reflexivity|exact H0|].
    intros d1 (r1 & n1 & ->). cbn [e_state].
    destruct (e_state d0) as [fl|] eqn:Es; apply mh_bind.
    - apply (mh_look MStGet (fun d => match e_state d with None => false | Some b => b end)); [reflexivity|exact H0|].
      intros d1 (r2 & n2 & ->). cbn [e_state]. rewrite Es. destruct fl; [apply mh_raise, H0|]. apply mh_ret; [exact H0|]. apply Hk. unfold stop0. rewrite Es, Eh. reflexivity.
    - apply mh_ret; [exact H0|]. apply mh_ret; [exact H0|]. apply Hk. unfold stop0. rewrite Es, Eh. reflexivity.
  Qed.

  (** ** __write *)
  Lemma write_at_end v s : sio_write s (at_end v) = (Good (length s), at_end (v ++ s)).
  Proof.
    unfold sio_write, sio_guard, at_end. cbn. destruct s as [|c s]; [rewrite app_nil_r; reflexivity|].
    f_equal. rewrite Nat.sub_diag. cbn [repeat]. rewrite app_nil_r, firstn_all. rewrite skipn_all2 by lia. rewrite app_nil_r. cbn [length]. rewrite app_length. reflexivity.
  Qed.
  Definition ended_by (aggr : bool) (v data : text) (q : list msg) (b : sio) (q' : list msg) : Prop :=
    if aggr then b = at_end v /\ q' = q ++ [QStr data]
    else if has_break data then b = at_end [] /\ q' = q ++ [QStr (v ++ data)]
    else b = at_end (v ++ data) /\ q' = q.
  Lemma mh_body v data q : (forall b q', (stop0 = false -> write_left (m_aggr m0) v data q b q') -> (stop0 = true -> b = at_end v /\ q' = q) -> L b q') ->
    mh (lm_write_body data) (at_end v) q (fun _ b q' => ended_by (m_aggr m0) v data q b q').
  Proof.
    intros HL. assert (H0 : L (at_end v) q) by (apply HL; [intros; constructor|auto]).
    unfold lm_write_body. cbv zeta. apply mh_check; [exact H0|]. intros Hst.
    assert (HL' : forall b q', write_left (m_aggr m0) v data q b q' -> L b q') by (intros b q' H; apply HL; [auto|congruence]). clear HL.
    apply mh_bind. apply (mh_look MAggr (fun d => m_aggr (e_mir d))); [reflexivity|exact H0|]. intros d (r & n & ->). cbn [e_mir m_aggr].
    unfold ended_by. destruct (m_aggr m0) eqn:Ea.
    - apply mh_bind. apply mh_send_data; [reflexivity|exact H0|apply HL'; constructor; reflexivity|].
      apply mh_ret; [apply HL'; constructor; reflexivity|auto].
    - rewrite trigger_break. destruct (has_break data) eqn:Eb.
      + assert (Hbr : breaks data).
        { exists (fst (seg data)), (snd (seg data)). split; [apply segments_iff; destruct (seg data); reflexivity|]. unfold has_break in Eb. destruct (fst (seg data)); [discriminate|discriminate]. }
        apply mh_bind. apply (mh_buf (MWrite data) (sio_write data) _ _ (length data) (at_end (v ++ data))); [reflexivity|apply write_at_end|exact H0|apply HL'; apply wl_held; reflexivity|].
        apply mh_bind. apply (mh_buf MGetvalue sio_getvalue _ _ (v ++ data) (at_end (v ++ data))); [reflexivity|reflexivity|apply HL'; apply wl_held; reflexivity..|].
        apply mh_bind. apply mh_send_data; [reflexivity|apply HL'; apply wl_held; reflexivity|apply HL'; apply wl_sent; auto|].
        apply mh_bind. apply (mh_buf MSeek0 sio_seek0 _ _ tt (mksio (v ++ data) 0 false)); [reflexivity|reflexivity|apply HL'; apply wl_sent; auto..|].
        apply mh_bind. apply (mh_buf MTruncate0 sio_truncate0 _ _ tt (mksio [] 0 false)); [reflexivity|reflexivity|apply HL'; apply wl_sent; auto..|].
        apply mh_ret; [apply HL'; apply wl_sent; auto|auto].
      + destruct data as [|c data].
        * rewrite (proj2 (no_break_lines [] Eb) eq_refl). apply mh_ret; [exact H0|]. rewrite app_nil_r. auto.
        * rewrite (proj1 (no_break_lines (c :: data) Eb)) by discriminate.
          apply (mh_buf (MWrite (c :: data)) (sio_write (c :: data)) _ _ (length (c :: data)) (at_end (v ++ c :: data))); [reflexivity|apply write_at_end|exact H0|apply HL'; apply wl_held; reflexivity|auto].
  Qed.
  Lemma mh_write v data q : (forall b q', (stop0 = false -> write_left (m_aggr m0) v data q b q') -> (stop0 = true -> b = at_end v /\ q' = q) -> L b q') ->
    mh (lm_write data) (at_end v) q (fun _ _ _ => True).
  Proof.
    intros HL. assert (H0 : L (at_end v) q) by (apply HL; [intros; constructor|auto]).
    unfold lm_write, lm_writable. apply mh_bind. apply mh_with; [exact H0|]. apply mh_bind.
    apply (mh_buf MClosed sio_closed _ _ false (at_end v)); try reflexivity; [exact H0..|]. apply mh_ret; [exact H0|]. cbn [negb].
    apply mh_with; [exact H0|]. eapply mh_mono; [|apply mh_body, HL]. auto.
  Qed.

  Lemma mh_stopped v data q : stop0 = true -> (forall b q', (stop0 = false -> write_left (m_aggr m0) v data q b q') -> (stop0 = true -> b = at_end v /\ q' = q) -> L b q') ->
    mh (lm_write_body data) (at_end v) q (fun _ _ _ => False).
  Proof.
    intros Hst HL. assert (H0 : L (at_end v) q) by (apply HL; [congruence|auto]). unfold lm_write_body. cbv zeta. apply mh_check; [exact H0|]. congruence.
  Qed.

  (** ** new_line and the signals *)
  Lemma ended_lf aggr v q b q' : v <> [] -> ended_by aggr v [LF] q b q' -> b = at_end (fst (ended aggr v q)) /\ q' = snd (ended aggr v q).
  Proof. intros Hv. unfold ended_by, ended. destruct v; [congruence|]. destruct aggr; [auto|]. change (has_break [LF]) with true. auto. Qed.
  Lemma mh_new_line v q : (forall b q', (stop0 = false -> line_left (m_aggr m0) v q b q') -> (stop0 = true -> b = at_end v /\ q' = q) -> L b q') ->
    mh lm_new_line (at_end v) q (fun _ b q' => b = at_end (fst (ended (m_aggr m0) v q)) /\ q' = snd (ended (m_aggr m0) v q) /\ (stop0 = true -> v = [])).
  Proof.
    intros HL. assert (H0 : L (at_end v) q) by (apply HL; [intros; left; auto|auto]).
    unfold lm_new_line. apply mh_with; [exact H0|]. apply mh_bind. apply (mh_buf MTell sio_tell _ _ (length v) (at_end v)); try reflexivity; [exact H0..|].
    destruct (Nat.ltb_spec 0 (length v)) as [Hl|Hl].
    - assert (Hv : v <> []) by (destruct v; [simpl in Hl; lia|discriminate]).
      assert (HL2 : forall b q', (stop0 = false -> write_left (m_aggr m0) v [LF] q b q') -> (stop0 = true -> b = at_end v /\ q' = q) -> L b q').
      { intros b q' H1 H2. apply HL; [|exact H2]. intros Hs. right. split; [exact Hv|]. apply H1, Hs. }
      assert (Est : stop0 = true \/ stop0 = false) by (destruct stop0; auto). destruct Est as [Est|Est].
      + apply mh_bind. intros d Hd. eapply hal_mono; [|apply (mh_stopped v [LF] q Est HL2 d Hd)]. intros a d' (b' & q' & _ & []).
      + apply mh_bind. eapply mh_mono; [|apply mh_body; exact HL2]. intros a b q' He. destruct (ended_lf _ _ _ _ _ Hv He) as [-> ->].
        apply mh_ret; [|split; [reflexivity|split; [reflexivity|congruence]]]. apply HL; [|congruence]. intros _. right. split; [exact Hv|].
        unfold ended. destruct v as [|c v']; [congruence|]. destruct (m_aggr m0) eqn:Ea; cbn [fst snd].
        * apply wl_direct. reflexivity.
        * apply wl_sent; [reflexivity| |auto]. exists [[]], []. split; [apply segments_iff; reflexivity|discriminate].
    - destruct v; [|simpl in Hl; lia]. apply mh_ret; [exact H0|auto].
  Qed.
  Lemma mh_signal v q x : (forall b q', ((stop0 = false \/ v = []) -> signal_left (m_aggr m0) v q x b q') -> ((stop0 = true /\ v <> []) -> b = at_end v /\ q' = q) -> L b q') ->
    mh (lm_send_signal x) (at_end v) q (fun _ b q' => b = at_end (fst (ended (m_aggr m0) v q)) /\ q' = snd (ended (m_aggr m0) v q) ++ [x] /\ (stop0 = true -> v = [])).
  Proof.
    intros HL. assert (H0 : L (at_end v) q) by (apply HL; [intros; left; left; auto|auto]).
    unfold lm_send_signal. apply mh_bind, mh_closed; [exact H0|]. cbn [at_end sclosed]. apply mh_bind.
    assert (HL2 : forall b q', (stop0 = false -> line_left (m_aggr m0) v q b q') -> (stop0 = true -> b = at_end v /\ q' = q) -> L b q').
    { intros b q' H1 H2. apply HL; [|intros [Hs _]; auto]. intros Hs. left. destruct stop0; [left; auto|auto]. }
    eapply mh_mono; [|apply mh_new_line, HL2]. intros _ b q' (-> & -> & Hs).
    assert (HA : forall b q', (b = at_end (fst (ended (m_aggr m0) v q)) /\ (q' = snd (ended (m_aggr m0) v q) \/ q' = snd (ended (m_aggr m0) v q) ++ [x])) -> L b q').
    { intros b q' [-> Hq]. apply HL; [|intros [Ht Hv]; rewrite (Hs Ht) in Hv; congruence]. intros _. destruct Hq as [->| ->]; [left|right; auto].
      unfold line_left, ended. destruct v as [|c v'] eqn:Ev; [left; auto|]. right. split; [discriminate|]. destruct (m_aggr m0) eqn:Ea; cbn [fst snd].
      - apply wl_direct. reflexivity.
      - apply wl_sent; [reflexivity| |auto]. exists [[]], []. split; [apply segments_iff; reflexivity|discriminate]. }
    apply mh_lm_put; [apply HA; auto..|auto].
  Qed.
  Lemma mh_clear b q : sclosed b = false -> L b q -> L (mksio (sval b) 0 false) q -> L (mksio [] 0 false) q ->
    mh lm_clear b q (fun _ b' q' => b' = mksio [] 0 false /\ q' = q).
  Proof.
    intros Hc H0 H1 H2. destruct b as [v pos cl]. cbn [sclosed sval] in *. subst cl. unfold lm_clear. apply mh_with; [exact H0|]. apply mh_bind.
    apply (mh_buf MSeek0 sio_seek0 _ _ tt (mksio v 0 false)); [reflexivity|reflexivity|exact H0|exact H1|].
    apply (mh_buf MTruncate0 sio_truncate0 _ _ tt (mksio [] 0 false)); [reflexivity|reflexivity|exact H1|exact H2|auto].
  Qed.
  Definition end_msg (exc : option excobj) : msg := match exc with None => QClose | Some e => QError (gm_init (GMExc e)) end.
  Lemma mh_close v q exc : (forall b q', ((stop0 = false \/ v = []) -> close_left (m_aggr m0) v q (end_msg exc) b q') -> ((stop0 = true /\ v <> []) -> b = at_end v /\ q' = q) -> L b q') ->
    mh (lm_close exc) (at_end v) q (fun _ _ _ => True).
  Proof.
    intros HL. assert (H0 : L (at_end v) q) by (apply HL; [intros; left; left; left; auto|auto]).
    unfold lm_close. apply mh_bind, mh_closed; [exact H0|]. cbn [at_end sclosed].
    replace (match exc with None => lm_send_eof | Some e => lm_send_error e end) with (lm_send_signal (end_msg exc)) by (destruct exc; reflexivity).
    apply mh_bind. eapply mh_mono; [|apply (mh_signal v q (end_msg exc))].
    - intros _ b q' (-> & -> & Hs).
      assert (HA : forall b, b = at_end (fst (ended (m_aggr m0) v q)) \/ b = mksio (fst (ended (m_aggr m0) v q)) 0 false \/ b = mksio [] 0 false \/ b = mksio [] 0 true ->
        L b (snd (ended (m_aggr m0) v q) ++ [end_msg exc])).
      { intros b Hb. apply HL; [|intros [Ht Hv]; rewrite (Hs Ht) in Hv; congruence]. intros _. destruct Hb as [->|Hb]; [left; right; auto|right; auto]. }
      apply mh_bind. eapply mh_mono; [|apply (mh_clear (at_end (fst (ended (m_aggr m0) v q)))); [reflexivity|apply HA; auto..]].
      intros _ b q' [-> ->]. apply mh_with; [apply HA; auto|]. apply (mh_buf MClose sio_close _ _ tt (mksio [] 0 true)); [reflexivity|reflexivity|apply HA; auto..|exact I].
    - intros b q' H1 H2. apply HL; [|exact H2]. intros Hs. left. auto.
  Qed.
End Mirror.

(** ** In the system *)
Lemma get_put i d e : i < length (s_mirs d) -> m_q (mir_at d i) < length (s_qs d) -> env_is (get_menv i d) (m_buf (e_mir e)) (e_q e) e ->
  get_menv i (put_menv i e d) = e /\ forall e', put_menv i e' (put_menv i e d) = put_menv i e' d.
Proof.
  intros Hi Hq (r & n & He).
  assert (Hm : mir_at (put_menv i e d) i = e_mir e) by (unfold mir_at, put_menv; cbn [s_mirs]; apply nth_set_nth; exact Hi).
  assert (Emq : m_q (e_mir e) = m_q (mir_at d i)) by (rewrite He; reflexivity).
  split.
  - unfold get_menv. rewrite Hm, Emq. unfold put_menv. cbn [s_qs s_state]. rewrite nth_set_nth by exact Hq.
    rewrite He at 4. cbn [e_mir e_q e_qmax e_state get_menv]. rewrite He at 3. cbn [e_state get_menv]. rewrite He at 1. reflexivity.
  - intros e'. unfold put_menv at 1. rewrite Hm, Emq. unfold put_menv. cbn [s_mirs s_qs s_main s_n s_cur s_maxlen]. rewrite !set_nth_set_nth. reflexivity.
Qed.
Lemma mir_cut t i c d fs (L : sio -> list msg -> Prop) Q : i < length (s_mirs d) -> m_q (mir_at d i) < length (s_qs d) ->
  mh (get_menv i d) L (lm_call c) (m_buf (mir_at d i)) (queue_of i d) Q -> mir_left t i c d fs L.
Proof.
  intros Hi Hq Hp. unfold mir_left, sys_left, sys_run.
  assert (He : env_is (get_menv i d) (m_buf (mir_at d i)) (queue_of i d) (get_menv i d)).
  { exists (m_ref (mir_at d i)), (m_cnt (mir_at d i)). unfold get_menv, queue_of. cbn. destruct (mir_at d i). reflexivity. }
  specialize (Hp _ He).
  assert (Hput : put_menv i (get_menv i d) d = d).
  { unfold put_menv, get_menv. cbn [e_mir e_q e_state]. unfold mir_at. rewrite !set_nth_same by assumption. destruct d. reflexivity. }
  assert (Hl : hal (fun d' => exists e, seen (get_menv i d) L e /\ d' = put_menv i e d) (s_call (ToMirror i c)) d (fun _ _ => True)).
  { cbn [s_call]. unfold sys_m.
    assert (H : hal (fun d' => exists e, seen (get_menv i d) L e /\ d' = put_menv i e d) (lift (fun X c => SM i c) (bind (lm_call c) (fun r => Ret (FromMirror r)))) (put_menv i (get_menv i d) d)
                    (fun a d' => exists e, True /\ d' = put_menv i e d)).
    { apply (hal_lift (fun X c => SM i c) (fun e => put_menv i e d) (seen (get_menv i d) L)) with (Q := fun _ _ => True).
      - intros X c0 e (b & q & _ & r & n & Ee). assert (He' : env_is (get_menv i d) (m_buf (e_mir e)) (e_q e) e) by (rewrite Ee; exists r, n; reflexivity).
        destruct (get_put i d e Hi Hq He') as [G1 G2]. cbn [cexec ssem sexec msem]. rewrite G1. destruct (mexec c0 e) as [x e']. rewrite G2. reflexivity.
      - apply hal_then. eapply hal_mono; [|exact Hp]. auto. }
    rewrite Hput in H. eapply hal_mono; [|exact H]. auto. }
  assert (Hb : fst (run t (flaky_call (s_call (ToMirror i c))) (mkst (d, fs) ∅)) <> Block) by (apply (ends _ t d fs (uw_mirror i c)), nbs_mirror).
  destruct (left_of _ _ _ t d fs (uw_mirror i c) Hl Hb) as (H1 & e & (b & q & HL & r & n & ->) & H2).
  split; [exact Hb|]. split; [exact H1|]. exists b, q. split; [exact HL|]. rewrite H2. exists r, n. reflexivity.
Qed.
Lemma stop0_stops i d : stop0 (get_menv i d) = true <-> stops i d.
Proof.
  unfold stop0, stops. cbn. destruct (m_has (mir_at d i)); cbn; [|split; [discriminate|intros [H _]; discriminate]].
  destruct (s_state d) as [[|]|]; split; auto; try discriminate; intros [_ H]; discriminate.
Qed.
Section Contents.
  Variables (i : nat) (d : psys) (v : text) (t : nat) (fs : faults).
  Hypothesis Ho : open_mirror i d v.
  Notation ag := (m_aggr (mir_at d i)).
  Notation q := (queue_of i d).
  Notation same := (fun b q' => b = at_end v /\ q' = q).
  Lemma mir_open c (L : sio -> list msg -> Prop) Q : mh (get_menv i d) L (lm_call c) (at_end v) q Q -> mir_left t i c d fs L.
  Proof. destruct Ho as (H1 & H2 & H3). intros H. eapply mir_cut; [exact H1|exact H2|]. rewrite H3. exact H. Qed.
  Lemma mh_mret (d0 : menv) L {X} (f : X -> mres) (p : prog mcmd X) b q0 : mh d0 L p b q0 (fun _ _ _ => True) -> mh d0 L (mret f p) b q0 (fun _ _ _ => True).
  Proof. intros H e He. apply hal_then. eapply hal_mono; [|apply H, He]. cbn. auto. Qed.
  Ltac go := eapply mir_open; cbn [lm_call]; apply mh_mret; eapply mh_mono; [intros; exact I|].
  Lemma c106_write data : mir_left t i (CWrite data) d fs (write_left ag v data q).
  Proof.
    go. apply mh_write. intros b q' H1 H2. destruct (stop0 (get_menv i d)); [|auto]. destruct (H2 eq_refl) as [-> ->]. constructor.
  Qed.
  Lemma c106_new_line : mir_left t i CNewLine d fs (line_left ag v q).
  Proof.
    go. apply mh_new_line. intros b q' H1 H2. destruct (stop0 (get_menv i d)); [|auto]. left. auto.
  Qed.
  Lemma c106_signal c x : (c = CEof /\ x = QClose) \/ (exists e, (c = CError e /\ x = QError (gm_init (GMExc e))) \/ (c = CWarning e /\ x = QWarning (gm_init (GMExc e)))) ->
    mir_left t i c d fs (signal_left ag v q x).
  Proof.
    intros Hc. assert (H : mh (get_menv i d) (signal_left ag v q x) (lm_send_signal x) (at_end v) q (fun _ _ _ => True)).
    { eapply mh_mono; [intros; exact I|]. apply mh_signal. intros b q' H1 H2. destruct (stop0 (get_menv i d)); [|auto].
      destruct v; [auto|]. left. left. apply H2. split; [reflexivity|discriminate]. }
    destruct Hc as [[-> ->]|(e & [[-> ->]|[-> ->]])]; eapply mir_open; cbn [lm_call]; apply mh_mret, H.
  Qed.
  Lemma c106_close exc : mir_left t i (CClose exc) d fs (close_left ag v q (match exc with None => QClose | Some e => QError (gm_init (GMExc e)) end)).
  Proof.
    go. apply mh_close. intros b q' H1 H2. destruct (stop0 (get_menv i d)); [|auto]. destruct v; [auto|]. left. left. left. apply H2. split; [reflexivity|discriminate].
  Qed.
  Lemma c106_clear : mir_left t i CClear d fs (fun b q' => clear_left v b /\ q' = q).
  Proof. go. apply mh_clear; [reflexivity|..]; unfold clear_left; auto. Qed.
  Lemma c106_send_data x : mir_left t i (CSendData x) d fs (fun b q' => b = at_end v /\ (q' = q \/ q' = q ++ [QStr x])).
  Proof. eapply mir_open; cbn [lm_call]; apply mh_mret. apply mh_send_data; auto. Qed.
  (** A mirror that has to stop. *)
  Lemma c106_stopped c : stops i d -> (exists data, c = CWrite data) \/ c = CNewLine \/
      (v <> [] /\ (c = CEof \/ (exists exc, c = CClose exc) \/ exists e, c = CError e \/ c = CWarning e)) ->
    mir_left t i c d fs same.
  Proof.
    intros Hs Hc. apply stop0_stops in Hs.
    assert (Hsig : forall x, v <> [] -> mh (get_menv i d) same (lm_send_signal x) (at_end v) q (fun _ _ _ => True)).
    { intros x Hv. eapply mh_mono; [intros; exact I|]. apply mh_signal. intros b q' _ H. apply H. auto. }
    destruct Hc as [(data & ->)|[->|(Hv & [->|[(exc & ->)|(e & [->| ->])]])]].
    - go. apply mh_write. intros b q' _ H. auto.
    - go. apply mh_new_line. intros b q' _ H. auto.
    - go. apply Hsig, Hv.
    - go. apply mh_close. intros b q' _ H. apply H. auto.
    - go. apply Hsig, Hv.
    - go. apply Hsig, Hv.
  Qed.
End Contents.
