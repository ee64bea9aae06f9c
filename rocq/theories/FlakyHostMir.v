(** * FlakyHostMir: what an exception from outside leaves of a host mirror (C108) *)
From stdpp Require Import gmap.
From Coq Require Import String.
From Coq Require Import List NArith ZArith Bool Arith Lia.
From Verif Require Import PyStr Prog ProgFacts PyIO Base Spec SpecFacts LineBuf Locks Crash Atomic Json Host ProcFacts
  Flaky FlakySpec FlakyFacts FlakyCalls FlakyProcGen FlakyProcSpec HostCli HostCliFacts HostCliSpec HostCliProofs FlakyHost FlakyHostSpec.
From Verif Require Proc FlakyProcMir.
Import ListNotations.
Local Open Scope prog_scope.
Local Open Scope nat_scope.
Notation msg := Proc.msg.
Notation QStr := Proc.QStr.

(** ** Its lock *)
Section Locks.
  Variable L : nat.
  Hypothesis HL : reent L = true.
  Definition uq {A} (p : prog ccmd A) : Prop := forall hs, uw okq hs hs p.
  Lemma uq_ret {A} (a : A) : uq (Ret a). Proof. intros n. constructor. Qed.
  Lemma uq_raise {A} e : uq (Raise e : prog ccmd A). Proof. intros n. constructor. Qed.
  Lemma uq_op {X} (c : ccmd X) : uq (cop c). Proof. intros n. apply uw_one. Qed.
  Lemma uq_bind {A B} (p : prog ccmd A) (f : A -> prog ccmd B) : uq p -> (forall a, uq (f a)) -> uq (bind p f).
  Proof. intros Hp Hf n. apply uw_bind; [apply Hp|]. intros a. apply Hf. Qed.
  Lemma uq_with {A} (p : prog ccmd A) : uq p -> uq (with_lock L Ex p).
  Proof. intros Hp n. apply uw_with; [|apply (Hp (L :: n))]. split; [reflexivity|left; exact HL]. Qed.
  Lemma uq_then {A} r (f : option json -> prog ccmd A) : (forall b, uq (f b)) -> uq (request_then r f).
  Proof.
    intros Hf. unfold request_then. apply uq_bind; [apply uq_op|]. intros a. destruct (_ <? _); [apply Hf|].
    unfold raise_answer, json_load. destruct (snd a) as [v|]; [|apply uq_raise]. cbn [bind]. destruct v; apply uq_raise.
  Qed.
End Locks.
Ltac uqt := repeat first
  [ assumption
  | apply uq_ret | apply uq_raise | apply uq_op
  | apply uq_with; [assumption|]
  | apply uq_then; intros ?
  | match goal with H : forall _, uq _ |- _ => apply H | H : forall _ _, uq _ |- _ => apply H end
  | apply uq_bind; [|intros ?]
  | match goal with
    | |- uq (if ?b then _ else _) => destruct b
    | |- uq (match ?b with _ => _ end) => destruct b
    | |- uq (json_load ?b) => destruct b
    | |- uq (the_dict ?b) => destruct b
    | |- uq (index _ ?b) => destruct b; cbn [index]
    | |- uq (of_out' ?o) => destruct o
    end ].
Lemma uq_m_call M c : reent (hm_lock M) = true -> uq (m_call M c).
Proof.
  intros HL.
  assert (Hd : forall data, uq (hm_send_data M data)) by (intros data; unfold hm_send_data; uqt).
  assert (Hk : uq (hm_check_states M)) by (unfold hm_check_states; uqt).
  assert (Hw : forall ck data, uq (hm_write_body M ck data)) by (intros ck data; unfold hm_write_body; cbv zeta; uqt).
  assert (Hn : forall ck, uq (hm_new_line M ck)) by (intros ck; unfold hm_new_line; uqt).
  assert (He : uq (hm_send_eof M)) by (unfold hm_send_eof; uqt).
  assert (Hr : forall e, uq (hm_send_error M e)) by (intros e; unfold hm_send_error; uqt).
  assert (Hg : forall e, uq (hm_send_warning M e)) by (intros e; unfold hm_send_warning; uqt).
  assert (Hwr : uq (hm_writable M)) by (unfold hm_writable; uqt).
  assert (Hrd : uq (hm_readable M)) by (unfold hm_readable; uqt).
  assert (Hcl : uq (hm_clear M)) by (unfold hm_clear; uqt).
  destruct c; cbn [m_call]; unfold as_cres; (apply uq_bind; [|intros; apply uq_ret]); auto;
    try solve [unfold hm_flush, hm_read, hm_closed, hm_write, hm_close, hm_fileno, hm_seek, hm_isatty, hm_seekable; uqt].
Qed.
Lemma uq_r_call c : uq (r_call c).
Proof.
  destruct c; cbn [r_call]; unfold as_cres, rd_read, rd_get_states, rd_clear, rd_reset_states, rd_stop_all, rd_done; uqt.
Qed.
Lemma uq_c_call c : rlock c -> uw okq [] [] (c_call c).
Proof. destruct c as [M c|c]; cbn [c_call rlock]; intros H; [apply (uq_m_call M c H [])|apply (uq_r_call c [])]. Qed.

Section Env.
  Variable E : henv.
  #[local] Hint Extern 0 (Sem ccmd world) => exact (clisem E) : typeclass_instances.
  Lemma nbs_all {A} (p : prog ccmd A) : nbs (D := world) p.
  Proof. induction p as [a|e|X c k IHk h IHh]; cbn [nbs]; auto. split; [|auto]. destruct c; cbn; auto. intros w. apply (cli_nb E). Qed.
  Lemma cli_cut t c w fs P Q : rlock c -> hal P (c_call c) w Q -> cli_left E t c w fs P.
  Proof.
    intros Hc Hp. unfold cli_left, host_run.
    assert (Hb : fst (run t (flaky_call (c_call c)) (mkst (w, fs) ∅)) <> Block) by (apply (ends _ t w fs (uq_c_call c Hc)), nbs_all).
    split; [exact Hb|]. exact (left_of P (c_call c) Q t w fs (uq_c_call c Hc) Hp Hb).
  Qed.

  Lemma got_snoc q x d : got E (q ++ [x]) d = got1 E (got E q d) x.
  Proof. unfold got. rewrite fold_left_app. reflexivity. Qed.
  Lemma serve_asks d : snd (serve E (GetState (Some k_closed)) d) = d.
  Proof. reflexivity. Qed.
  Lemma fst_serve_flag d : stop_flag E d true -> fst (serve E (GetState (Some k_closed)) d) = (200, flag_body true).
  Proof. intros H. rewrite (serve_flag E d true H). reflexivity. Qed.

  (** ** The world of a mirror *)
  Section Mirror.
    Variable M : hmir.
    Notation J := (hm_id M).
    Variable w0 : world.
    Hypothesis Hok : Forall fault_ok (w_faults w0).
    Variable L : sio -> list msg -> Prop.
    Notation env_is b q w := (mirror_sent E M w0 b q w).
    Definition hseen (w : world) : Prop := exists b q, L b q /\ env_is b q w.
    Definition wh {A} (p : prog ccmd A) (b : sio) (q : list msg) (Q : A -> sio -> list msg -> Prop) : Prop :=
      forall w, env_is b q w -> hal hseen p w (fun a w' => exists b' q', env_is b' q' w' /\ Q a b' q').
    Lemma wh_bind {A B} (p : prog ccmd A) (f : A -> prog ccmd B) b q (Q : B -> sio -> list msg -> Prop) :
      wh p b q (fun a b' q' => wh (f a) b' q' Q) -> wh (bind p f) b q Q.
    Proof. intros H d Hd. apply hal_bind. eapply hal_mono; [|apply H, Hd]. intros a d' (b' & q' & He & Hf). apply Hf, He. Qed.
    Lemma wh_ret {A} (a : A) b q (Q : A -> sio -> list msg -> Prop) : L b q -> Q a b q -> wh (Ret a) b q Q.
    Proof. intros H HQ d Hd. apply hal_ret; [exists b, q; auto|eauto]. Qed.
    Lemma wh_raise {A} e b q (Q : A -> sio -> list msg -> Prop) : L b q -> wh (Raise e) b q Q.
    Proof. intros H d Hd. apply hal_raise. exists b, q. auto. Qed.
    Lemma wh_with {A} (p : prog ccmd A) b q Q : wh p b q Q -> wh (with_lock (hm_lock M) Ex p) b q Q.
    Proof. intros H d Hd. apply hal_with, H, Hd. Qed.
    Lemma wh_mono {A} (p : prog ccmd A) b q (Q Q' : A -> sio -> list msg -> Prop) : (forall a b' q', Q a b' q' -> Q' a b' q') -> wh p b q Q -> wh p b q Q'.
    Proof. intros H Hp d Hd. eapply hal_mono; [|apply Hp, Hd]. intros a d' (b' & q' & He & HQ). exists b', q'. auto. Qed.
    Lemma wh_buf {X} (c : ccmd X) f b q x b' (Q : X -> sio -> list msg -> Prop) : (forall w, cliexec E c w = on_mir J f w) -> f b = (Good x, b') ->
      L b q -> L b' q -> Q x b' q -> wh (cop c) b q Q.
    Proof.
      intros Hc Ef H1 H2 HQ w Hw. pose proof Hw as (n & ->).
      assert (He : cexec c (mkworld (got E q (w_srv w0)) (<[J := b]> (w_mir w0)) (skipn n (w_faults w0))) =
        (Good x, mkworld (got E q (w_srv w0)) (<[J := b']> (w_mir w0)) (skipn n (w_faults w0)))).
      { cbn [cexec clisem]. rewrite Hc. unfold on_mir, mget. cbn [w_mir w_srv w_faults]. rewrite lookup_insert, Ef, insert_insert. reflexivity. }
      apply hal_op.
      - exists b, q. split; [exact H1|exact Hw].
      - rewrite He. exists b', q. split; [exact H2|]. exists n. reflexivity.
      - intros y d'. rewrite He. intros [= <- <-]. exists b', q. split; [exists n; reflexivity|exact HQ].
    Qed.
    (** A request that handles the messages [xs]. *)
    Lemma wh_req r xs b q (Q : nat * option json -> sio -> list msg -> Prop) :
      (snd (serve E r (got E q (w_srv w0))) = got E (q ++ xs) (w_srv w0)) -> L b q -> L b (q ++ xs) ->
      (Q (fst (serve E r (got E q (w_srv w0)))) b (q ++ xs)) -> (forall a, 400 <= fst a -> Q a b q) -> wh (cop (CReq r)) b q Q.
    Proof.
      intros Hs H1 H2 HQ HQ' w Hw. pose proof Hw as (n & ->).
      assert (Hf : Forall fault_ok (skipn n (w_faults w0))) by (rewrite <- (firstn_skipn n (w_faults w0)) in Hok; apply List.Forall_app in Hok; apply Hok).
      remember (skipn n (w_faults w0)) as fl eqn:Ef.
      assert (Hn : forall f fl', fl = f :: fl' -> fl' = skipn (S n) (w_faults w0)).
      { intros f fl' ->. clear -Ef. revert n Ef. induction (w_faults w0) as [|g l IH]; intros n Ef; [destruct n; discriminate|].
        destruct n; [injection Ef as _ ->; destruct l; reflexivity|]. apply (IH n Ef). }
      remember (mkworld (got E q (w_srv w0)) (<[J := b]> (w_mir w0)) fl) as w eqn:Ew.
      assert (HP : hseen w) by (exists b, q; split; [exact H1|exact Hw]).
      assert (Hc : exists ms, (ms = q \/ ms = q ++ xs) /\ env_is b ms (snd (creq E r w)) /\ forall a, fst (creq E r w) = Good a -> Q a b ms).
      { subst w. unfold creq. cbn [w_faults w_srv w_mir]. destruct fl as [|f fl].
        - destruct (serve E r (got E q (w_srv w0))) as [a d] eqn:Es. cbn [fst snd] in *. exists (q ++ xs). split; [auto|]. split.
          + exists n. rewrite <- Ef, Hs. reflexivity.
          + intros a' [= <-]. exact HQ.
        - pose proof (Hn f fl eq_refl) as Hfl. apply List.Forall_inv in Hf. destruct f as [|code ob| |].
          + destruct (serve E r (got E q (w_srv w0))) as [a d] eqn:Es. cbn [fst snd] in *. exists (q ++ xs). split; [auto|]. split.
            * exists (S n). rewrite Hfl, Hs. reflexivity.
            * intros a' [= <-]. exact HQ.
          + exists q. split; [auto|]. split; [exists (S n); rewrite Hfl; reflexivity|]. cbn. intros a [= <-]. apply HQ'. exact Hf.
          + exists q. split; [auto|]. split; [exists (S n); rewrite Hfl; reflexivity|]. discriminate.
          + exists (q ++ xs). split; [auto|]. split; [|discriminate]. exists (S n). cbn [fst snd]. rewrite Hfl, Hs. reflexivity. }
      destruct Hc as (ms & Hms & He & HQa). apply hal_op; [exact HP| |].
      - cbn [cexec clisem cliexec]. exists b, ms. split; [destruct Hms as [->| ->]; assumption|exact He].
      - intros a w'. cbn [cexec clisem cliexec]. intros Er. rewrite Er in He, HQa. exists b, ms. split; [exact He|]. apply HQa. reflexivity.
    Qed.
    Lemma wh_raise_answer {A} ob b q (Q : A -> sio -> list msg -> Prop) : L b q -> wh (raise_answer ob) b q Q.
    Proof. intros H. unfold raise_answer, json_load. destruct ob as [v|]; [|apply wh_raise, H]. cbn [bind]. destruct v; apply wh_raise, H. Qed.
    Lemma wh_post x b q (Q : unit -> sio -> list msg -> Prop) : L b q -> L b (q ++ [x]) -> Q tt b (q ++ [x]) ->
      wh (request_then (PostMsg (BJson (body_of x))) (fun _ => Ret tt)) b q Q.
    Proof.
      intros H1 H2 HQ. unfold request_then. apply wh_bind. apply wh_req with (xs := [x]); [rewrite got_snoc; reflexivity|exact H1|exact H2|..].
      - destruct (_ <? _); [apply wh_ret; assumption|apply wh_raise_answer, H2].
      - intros a Ha. apply Nat.ltb_ge in Ha. rewrite Ha. apply wh_raise_answer, H1.
    Qed.
    Lemma wh_closed b q (Q : bool -> sio -> list msg -> Prop) : L b q -> Q (sclosed b) b q -> wh (with_lock (hm_lock M) Ex (cop (MClosed J))) b q Q.
    Proof. intros H0 HQ. apply wh_with. apply (wh_buf (MClosed J) sio_closed b q (sclosed b) b); try reflexivity; assumption. Qed.
    Lemma wh_send_data x b q (Q : unit -> sio -> list msg -> Prop) : sclosed b = false -> L b q -> L b (q ++ [QStr x]) -> Q tt b (q ++ [QStr x]) -> wh (hm_send_data M x) b q Q.
    Proof. intros Hb H0 H1 HQ. unfold hm_send_data. apply wh_bind, wh_closed; [exact H0|]. rewrite Hb. apply (wh_post (QStr x)); assumption. Qed.

    (** [stp]: the server says that the mirrors have to stop. *)
    Variable stp : bool.
    Hypothesis Hstp : stp = true -> stop_flag E (w_srv w0) true.
    Lemma wh_check b (Q : unit -> sio -> list msg -> Prop) : sclosed b = false -> L b [] -> (stp = false -> Q tt b []) -> wh (hm_check_states M) b [] Q.
    Proof.
      intros Hb H0 HQ. unfold hm_check_states. apply wh_bind, wh_closed; [exact H0|]. rewrite Hb. apply wh_bind. unfold request_then. apply wh_bind.
      apply wh_req with (xs := []); [apply serve_asks|exact H0|exact H0|..].
      - cbn [app got fold_left]. remember (fst (serve E (GetState (Some k_closed)) (w_srv w0))) as a eqn:Ea.
        destruct stp eqn:Es.
        + rewrite (fst_serve_flag _ (Hstp eq_refl)) in Ea. subst a. cbn [fst snd flag_body]. change (200 <? 400) with true. cbn [json_load the_dict bind].
          apply wh_ret; [exact H0|]. apply wh_raise, H0.
        + destruct (_ <? _); [|apply wh_raise_answer, H0]. unfold json_load. destruct (snd a) as [v|]; [|apply wh_raise, H0]. cbn [bind].
          destruct v as [| | | | |fs]; try (apply wh_raise, H0). cbn [the_dict bind]. apply wh_ret; [exact H0|].
          destruct (match jget k_data fs with Some v => v | None => JNull end) as [|[]| | | |]; try (apply wh_ret; auto; fail). apply wh_raise, H0.
      - intros a Ha. apply Nat.ltb_ge in Ha. rewrite Ha. apply wh_raise_answer, H0.
    Qed.
    Definition st (ck : bool) : bool := (stp && ck)%bool.

    (** ** __write *)
    Notation ag := (hm_aggr M).
    Notation ended_by := FlakyProcMir.ended_by.
    Notation HLW ck v data := (forall b q', (st ck = false -> write_left ag v data [] b q') -> (st ck = true -> b = at_end v /\ q' = []) -> L b q').
    Lemma wh_body ck v data : HLW ck v data -> wh (hm_write_body M ck data) (at_end v) [] (fun _ b q' => st ck = false /\ ended_by ag v data [] b q').
    Proof.
      intros HL. assert (H0 : L (at_end v) []) by (apply HL; [intros; constructor|auto]).
      unfold hm_write_body. cbv zeta. apply wh_bind.
      assert (Hck : wh (if ck then hm_check_states M else Ret tt) (at_end v) [] (fun _ b q' => st ck = false /\ b = at_end v /\ q' = [])).
      { destruct ck; [apply wh_check; [reflexivity|exact H0|]|apply wh_ret; [exact H0|]]; unfold st; [intros ->|rewrite andb_false_r]; auto. }
      eapply wh_mono; [|exact Hck]. intros _ b q' (Hst & -> & ->).
      assert (HL' : forall b q', write_left ag v data [] b q' -> L b q') by (intros b q' H; apply HL; [auto|congruence]). clear HL Hck.
      unfold ended_by. destruct ag eqn:Ea.
      - apply wh_bind. apply wh_send_data; [reflexivity|exact H0|apply HL'; constructor; reflexivity|].
        apply wh_ret; [apply HL'; constructor; reflexivity|auto].
      - rewrite trigger_break. destruct (has_break data) eqn:Eb.
        + assert (Hbr : breaks data).
          { exists (fst (seg data)), (snd (seg data)). split; [apply segments_iff; destruct (seg data); reflexivity|]. unfold has_break in Eb. destruct (fst (seg data)); [discriminate|discriminate]. }
          apply wh_bind. apply (wh_buf (MPut J data) (sio_write data) _ _ (length data) (at_end (v ++ data))); [reflexivity|apply FlakyProcMir.write_at_end|exact H0|apply HL'; apply wl_held; reflexivity|].
          apply wh_bind. apply (wh_buf (MGetvalue J) sio_getvalue _ _ (v ++ data) (at_end (v ++ data))); [reflexivity|reflexivity|apply HL'; apply wl_held; reflexivity..|].
          apply wh_bind. apply wh_send_data; [reflexivity|apply HL'; apply wl_held; reflexivity|apply HL'; apply wl_sent; auto|].
          apply wh_bind. apply (wh_buf (MSeek0 J) sio_seek0 _ _ tt (mksio (v ++ data) 0 false)); [reflexivity|reflexivity|apply HL'; apply wl_sent; auto..|].
          apply wh_bind. apply (wh_buf (MTruncate0 J) sio_truncate0 _ _ tt (mksio [] 0 false)); [reflexivity|reflexivity|apply HL'; apply wl_sent; auto..|].
          apply wh_ret; [apply HL'; apply wl_sent; auto|auto].
        + destruct data as [|c data].
          * rewrite (proj2 (no_break_lines [] Eb) eq_refl). apply wh_ret; [exact H0|]. rewrite app_nil_r. auto.
          * rewrite (proj1 (no_break_lines (c :: data) Eb)) by discriminate.
            apply (wh_buf (MPut J (c :: data)) (sio_write (c :: data)) _ _ (length (c :: data)) (at_end (v ++ c :: data))); [reflexivity|apply FlakyProcMir.write_at_end|exact H0|apply HL'; apply wl_held; reflexivity|auto].
    Qed.
    Lemma wh_write v data : HLW true v data -> wh (hm_write M data) (at_end v) [] (fun _ _ _ => True).
    Proof.
      intros HL. assert (H0 : L (at_end v) []) by (apply HL; [intros; constructor|auto]).
      unfold hm_write, hm_writable. apply wh_bind. apply wh_with. apply wh_bind.
      apply (wh_buf (MClosed J) sio_closed _ _ false (at_end v)); try reflexivity; [exact H0..|]. apply wh_ret; [exact H0|]. cbn [negb].
      apply wh_with. eapply wh_mono; [|apply wh_body, HL]. auto.
    Qed.

    (** ** new_line and the messages *)
    Lemma wh_new_line ck v : (forall b q', (st ck = false -> line_left ag v [] b q') -> (st ck = true -> b = at_end v /\ q' = []) -> L b q') ->
      wh (hm_new_line M ck) (at_end v) [] (fun _ b q' => b = at_end (fst (ended ag v [])) /\ q' = snd (ended ag v []) /\ (st ck = true -> v = [])).
    Proof.
      intros HL. assert (H0 : L (at_end v) []) by (apply HL; [intros; left; auto|auto]).
      unfold hm_new_line. apply wh_with. apply wh_bind. apply (wh_buf (MTell J) sio_tell _ _ (length v) (at_end v)); try reflexivity; [exact H0..|].
      destruct (Nat.ltb_spec 0 (length v)) as [Hl|Hl].
      - assert (Hv : v <> []) by (destruct v; [simpl in Hl; lia|discriminate]).
        apply wh_bind. eapply wh_mono; [|apply (wh_body ck v [LF])].
        + intros a b q' [Hst He]. destruct (FlakyProcMir.ended_lf _ _ _ _ _ Hv He) as [-> ->].
          apply wh_ret; [|split; [reflexivity|split; [reflexivity|congruence]]]. apply HL; [|congruence]. intros _. right. split; [exact Hv|].
          unfold ended. destruct v as [|c v']; [congruence|]. destruct ag eqn:Ea; cbn [fst snd].
          * apply wl_direct. reflexivity.
          * apply wl_sent; [reflexivity| |auto]. exists [[]], []. split; [apply segments_iff; reflexivity|discriminate].
        + intros b q' H1 H2. apply HL; [|exact H2]. intros Hs. right. split; [exact Hv|]. apply H1, Hs.
      - destruct v; [|simpl in Hl; lia]. apply wh_ret; [exact H0|auto].
    Qed.
    Definition note ck x : prog ccmd unit :=
      c <- with_lock (hm_lock M) Ex (cop (MClosed J)) ;;
      if c then Ret tt else hm_new_line M ck ;; request_then (PostMsg (BJson (body_of x))) (fun _ => Ret tt).
    Lemma wh_note ck v x : (forall b q', ((st ck = false \/ v = []) -> signal_left ag v [] x b q') -> ((st ck = true /\ v <> []) -> b = at_end v /\ q' = []) -> L b q') ->
      wh (note ck x) (at_end v) [] (fun _ b q' => b = at_end (fst (ended ag v [])) /\ q' = snd (ended ag v []) ++ [x] /\ (st ck = true -> v = [])).
    Proof.
      intros HL. assert (H0 : L (at_end v) []) by (apply HL; [intros; left; left; auto|auto]).
      unfold note. apply wh_bind, wh_closed; [exact H0|]. cbn [at_end sclosed]. apply wh_bind.
      assert (HL2 : forall b q', (st ck = false -> line_left ag v [] b q') -> (st ck = true -> b = at_end v /\ q' = []) -> L b q').
      { intros b q' H1 H2. apply HL; [|intros [Hs _]; auto]. intros Hs. left. destruct (st ck); [left; auto|auto]. }
      eapply wh_mono; [|apply wh_new_line, HL2]. intros _ b q' (-> & -> & Hs).
      assert (HA : forall b q', (b = at_end (fst (ended ag v [])) /\ (q' = snd (ended ag v []) \/ q' = snd (ended ag v []) ++ [x])) -> L b q').
      { intros b q' [-> Hq]. apply HL; [|intros [Ht Hv]; rewrite (Hs Ht) in Hv; congruence]. intros _. destruct Hq as [->| ->]; [left|right; auto].
        unfold line_left, ended. destruct v as [|c v'] eqn:Ev; [left; auto|]. right. split; [discriminate|]. destruct ag eqn:Ea; cbn [fst snd].
        - apply wl_direct. reflexivity.
        - apply wl_sent; [reflexivity| |auto]. exists [[]], []. split; [apply segments_iff; reflexivity|discriminate]. }
      apply wh_post; [apply HA; auto..|auto].
    Qed.
    Lemma wh_clear b q : sclosed b = false -> L b q -> L (mksio (sval b) 0 false) q -> L (mksio [] 0 false) q ->
      wh (hm_clear M) b q (fun _ b' q' => b' = mksio [] 0 false /\ q' = q).
    Proof.
      intros Hc H0 H1 H2. destruct b as [v pos cl]. cbn [sclosed sval] in *. subst cl. unfold hm_clear. apply wh_with. apply wh_bind.
      apply (wh_buf (MSeek0 J) sio_seek0 _ _ tt (mksio v 0 false)); [reflexivity|reflexivity|exact H0|exact H1|].
      apply (wh_buf (MTruncate0 J) sio_truncate0 _ _ tt (mksio [] 0 false)); [reflexivity|reflexivity|exact H1|exact H2|auto].
    Qed.
    Definition asks (exc : option excobj) : bool := match exc with None => true | Some e => negb (is_stop e) end.
    Lemma wh_close v exc : (forall b q', ((st (asks exc) = false \/ v = []) -> close_left ag v [] (FlakyProcMir.end_msg exc) b q') -> ((st (asks exc) = true /\ v <> []) -> b = at_end v /\ q' = []) -> L b q') ->
      wh (hm_close M exc) (at_end v) [] (fun _ _ _ => True).
    Proof.
      intros HL. assert (H0 : L (at_end v) []) by (apply HL; [intros; left; left; left; auto|auto]).
      unfold hm_close. apply wh_bind, wh_closed; [exact H0|]. cbn [at_end sclosed].
      replace (match exc with None => hm_send_eof M | Some e => hm_send_error M e end) with (note (asks exc) (FlakyProcMir.end_msg exc)) by (destruct exc; reflexivity).
      apply wh_bind. eapply wh_mono; [|apply (wh_note (asks exc) v (FlakyProcMir.end_msg exc))].
      - intros _ b q' (-> & -> & Hs).
        assert (HA : forall b, b = at_end (fst (ended ag v [])) \/ b = mksio (fst (ended ag v [])) 0 false \/ b = mksio [] 0 false \/ b = mksio [] 0 true ->
          L b (snd (ended ag v []) ++ [FlakyProcMir.end_msg exc])).
        { intros b Hb. apply HL; [|intros [Ht Hv]; rewrite (Hs Ht) in Hv; congruence]. intros _. destruct Hb as [->|Hb]; [left; right; auto|right; auto]. }
        apply wh_bind. eapply wh_mono; [|apply (wh_clear (at_end (fst (ended ag v [])))); [reflexivity|apply HA; auto..]].
        intros _ b q' [-> ->]. apply wh_with. apply (wh_buf (MClose J) sio_close _ _ tt (mksio [] 0 true)); [reflexivity|reflexivity|apply HA; auto..|exact I].
      - intros b q' H1 H2. apply HL; [|exact H2]. intros Hs. left. auto.
    Qed.
  End Mirror.

  (** ** C108 *)
  Section Contents.
    Variables (M : hmir) (w : world) (v : text) (t : nat) (fs : faults).
    Hypothesis Ho : open_host M w v.
    Notation ag := (hm_aggr M).
    Notation same := (fun b q' => b = at_end v /\ q' = @nil msg).
    Lemma hmir_open c L Q : wh M w L (m_call M c) (at_end v) [] Q -> hmir_left E t M c w fs L.
    Proof.
      destruct Ho as (H1 & H2 & H3). intros H. unfold hmir_left. apply cli_cut with (Q := fun _ _ => True); [exact H1|]. cbn [c_call].
      eapply hal_mono; [|apply (H w)]; [auto|]. exists 0. cbn [got fold_left skipn]. rewrite insert_id by exact H2. destruct w; reflexivity.
    Qed.
    Lemma wh_cres {X} L (f : X -> cres) (p : prog ccmd X) b q0 : wh M w L p b q0 (fun _ _ _ => True) -> wh M w L (as_cres f p) b q0 (fun _ _ _ => True).
    Proof. intros H e He. unfold as_cres. apply hal_then. eapply hal_mono; [|apply H, He]. cbn. auto. Qed.
    Ltac go0 := eapply hmir_open; cbn [m_call]; apply wh_cres.
    Ltac go := go0; eapply wh_mono; [intros; exact I|].
    Let Hok : Forall fault_ok (w_faults w) := proj2 (proj2 Ho).
    Let nostop : false = true -> stop_flag E (w_srv w) true. Proof. discriminate. Qed.
    Lemma c108_write data : hmir_left E t M (HWrite data) w fs (write_left ag v data []).
    Proof. go. apply wh_write with (stp := false); auto. Qed.
    Lemma c108_new_line ck : hmir_left E t M (HNewLine ck) w fs (line_left ag v []).
    Proof. go. apply wh_new_line with (stp := false); auto. Qed.
    Lemma c108_send_data x : hmir_left E t M (HSendData x) w fs (fun b q' => b = at_end v /\ (q' = [] \/ q' = [QStr x])).
    Proof. go0. apply wh_send_data; [exact Hok|reflexivity|split; [reflexivity|left; reflexivity]|split; [reflexivity|right; reflexivity]|exact I]. Qed.
    Lemma c108_signal c x : (c = HSendEof /\ x = Proc.QClose) \/
        (exists e, (c = HSendError e /\ x = Proc.QError (gm_init (GMExc e))) \/ (c = HSendWarning e /\ x = Proc.QWarning (gm_init (GMExc e)))) ->
      hmir_left E t M c w fs (signal_left ag v [] x).
    Proof.
      intros Hc. assert (H : forall ck, wh M w (signal_left ag v [] x) (note M ck x) (at_end v) [] (fun _ _ _ => True)).
      { intros ck. eapply wh_mono; [intros; exact I|]. apply wh_note with (stp := false); auto. }
      destruct Hc as [[-> ->]|(e & [[-> ->]|[-> ->]])]; eapply hmir_open; cbn [m_call]; apply wh_cres; [apply (H true)|apply (H (negb (is_stop e)))|apply (H true)].
    Qed.
    Lemma c108_close exc : hmir_left E t M (HClose exc) w fs (close_left ag v [] (match exc with None => Proc.QClose | Some e => Proc.QError (gm_init (GMExc e)) end)).
    Proof. go. apply wh_close with (stp := false); auto. Qed.
    Lemma c108_clear : hmir_left E t M HClear w fs (fun b q' => clear_left v b /\ q' = []).
    Proof. go. apply wh_clear; [reflexivity|..]; unfold clear_left; auto. Qed.
    (** Everything else changes nothing. *)
    Lemma c108_look c : c = HCheck \/ c = HFlush \/ c = HRead \/ c = HClosed \/ c = HReadable \/ c = HWritable \/ c = HFileno \/ c = HSeek \/ c = HIsatty \/ c = HSeekable ->
      hmir_left E t M c w fs same.
    Proof.
      intros Hc.
      repeat destruct Hc as [->|Hc]; [..|subst c]; go0.
      - apply wh_check with (stp := false); auto.
      - apply wh_with. apply (wh_buf M w same (MFlush (hm_id M)) sio_flush _ _ tt (at_end v)); auto.
      - unfold hm_read, hm_readable. apply wh_bind, wh_with, wh_bind.
        apply (wh_buf M w same (MClosed (hm_id M)) sio_closed _ _ false (at_end v)); auto. apply wh_ret; [auto|]. cbn [negb].
        apply wh_with. apply (wh_buf M w same (MGetvalue (hm_id M)) sio_getvalue _ _ v (at_end v)); auto.
      - apply wh_closed; auto.
      - apply wh_with, wh_bind. apply (wh_buf M w same (MClosed (hm_id M)) sio_closed _ _ false (at_end v)); auto. apply wh_ret; auto.
      - apply wh_with, wh_bind. apply (wh_buf M w same (MClosed (hm_id M)) sio_closed _ _ false (at_end v)); auto. apply wh_ret; auto.
      - apply wh_raise; auto.
      - apply wh_raise; auto.
      - apply wh_ret; auto.
      - apply wh_ret; auto.
    Qed.
    (** A mirror that has to stop. *)
    Lemma c108_stopped c : stop_flag E (w_srv w) true -> (exists data, c = HWrite data) \/ c = HNewLine true \/
        (v <> [] /\ (c = HSendEof \/ c = HClose None \/ (exists e, c = HSendWarning e) \/
                     exists e, is_stop e = false /\ (c = HSendError e \/ c = HClose (Some e)))) ->
      hmir_left E t M c w fs same.
    Proof.
      intros Hs Hc.
      assert (Hsig : forall ck x, ck = true -> v <> [] -> wh M w same (note M ck x) (at_end v) [] (fun _ _ _ => True)).
      { intros ck x -> Hv. eapply wh_mono; [intros; exact I|]. apply wh_note with (stp := true); auto. }
      destruct Hc as [(data & ->)|[->|(Hv & [->|[->|[(e & ->)|(e & He & [->| ->])]]])]]; go.
      - apply wh_write with (stp := true); auto.
      - apply wh_new_line with (stp := true); auto.
      - apply (Hsig true Proc.QClose eq_refl Hv).
      - apply wh_close with (stp := true); auto.
      - apply (Hsig true (Proc.QWarning (gm_init (GMExc e))) eq_refl Hv).
      - apply (Hsig (negb (is_stop e)) (Proc.QError (gm_init (GMExc e)))); [rewrite He; reflexivity|exact Hv].
      - apply wh_close with (stp := true); auto. intros b q' _ H. apply H. unfold st, asks. rewrite He. auto.
    Qed.
  End Contents.

  (** The reader: its one request is handled or not. *)
  Definition quiet {A} (p : prog ccmd A) : Prop := match p with Act _ _ _ => False | _ => True end.
  Lemma quiet_bind {A B} (p : prog ccmd A) (f : A -> prog ccmd B) : quiet p -> (forall a, quiet (f a)) -> quiet (bind p f).
  Proof. destruct p; cbn; auto. Qed.
  Lemma hal_quiet (P : world -> Prop) {A} (p : prog ccmd A) w : quiet p -> P w -> hal P p w (fun _ _ => True).
  Proof. destruct p; cbn; intros H HP; [apply hal_ret; auto|apply hal_raise, HP|contradiction]. Qed.
  Lemma creq_sent r w : sent_or_not E r w (snd (creq E r w)).
  Proof.
    unfold creq, sent_or_not. destruct (w_faults w) as [|[] fl]; try (destruct (serve E r (w_srv w)) as [a d] eqn:Es); cbn [fst snd w_mir w_srv w_faults];
      (split; [reflexivity|split; [|auto]]); [exists 0|exists 1..]; reflexivity.
  Qed.
  Lemma sent_same r w : sent_or_not E r w w.
  Proof. split; [reflexivity|]. split; [exists 0; reflexivity|auto]. Qed.
  Lemma hal_asks {A} r (k : option json -> prog ccmd A) (f : A -> cres) w : (forall b, quiet (k b)) ->
    hal (sent_or_not E r w) (as_cres f (request_then r k)) w (fun _ _ => True).
  Proof.
    intros Hk. unfold as_cres, request_then. apply hal_bind. apply hal_bind.
    apply hal_op; [apply sent_same|apply creq_sent|]. intros a w' Ea.
    assert (Hw : sent_or_not E r w w') by (pose proof (creq_sent r w) as H; cbn [cexec clisem cliexec] in Ea; rewrite Ea in H; exact H).
    assert (Hq : quiet (if fst a <? 400 then k (snd a) else raise_answer (snd a))).
    { destruct (_ <? _); [apply Hk|]. unfold raise_answer, json_load. destruct (snd a) as [[]|]; exact I. }
    destruct (if fst a <? 400 then k (snd a) else raise_answer (snd a)) as [x|e|]; [|apply hal_raise, Hw|destruct Hq].
    apply hal_ret; [exact Hw|]. apply hal_ret; [exact Hw|exact I].
  Qed.
  Ltac qt := repeat first
    [ exact I | apply quiet_bind; [|intros ?]
    | match goal with
      | |- quiet (json_load ?b) => destruct b
      | |- quiet (the_dict ?b) => destruct b
      | |- quiet (index _ ?b) => destruct b; cbn [index]
      | |- quiet (of_out' ?o) => destruct o
      | |- quiet (match ?b with _ => _ end) => destruct b
      end ].
  Lemma c108_reader t c w fs : cli_left E t (OnRd c) w fs (sent_or_not E (request_of c) w).
  Proof.
    apply cli_cut with (Q := fun _ _ => True); [exact I|]. cbn [c_call].
    destruct c; cbn [r_call request_of]; unfold rd_read, rd_get_states, rd_clear, rd_reset_states, rd_stop_all, rd_done; apply hal_asks; intros ob; qt.
  Qed.
  Lemma c108_clear_works t M w b : has_rlock M -> w_mir w !! hm_id M = Some b -> sclosed b = false ->
    call E t (OnMir M HClear) w = (Good CUnit, mkst (mkworld (w_srv w) (<[hm_id M := at_end []]> (w_mir w)) (w_faults w)) ∅).
  Proof.
    intros HM Hb Hc. unfold call. cbn [ev_run c_call]. rewrite (run_ol E (hm_lock M)) by (apply ol_m_call, HM).
    cbn [m_call]. unfold as_cres, hm_clear. rewrite srun_bind, srun_with, srun_bind, srun_op. cbn [cexec clisem cliexec]. rewrite on_mir_eq.
    unfold mget. rewrite Hb. destruct b as [v pos cl]. cbn [sclosed] in Hc. subst cl. cbn [sio_seek0 sio_guard sclosed fst snd].
    rewrite srun_op. cbn [cexec clisem cliexec]. rewrite on_mir_eq, mget_mset, mset_mset. reflexivity.
  Qed.
End Env.
