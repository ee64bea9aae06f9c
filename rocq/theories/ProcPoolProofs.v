(** * ProcPoolProofs: producers and wait() at the same time *)
From stdpp Require Import gmap.
From Coq Require Import List NArith ZArith Bool Arith Lia.
From Verif Require Import PyStr Prog ProgFacts PyIO Base Spec SpecFacts LineBuf LineBufFacts Locks Held Proc ProcSpec ProcFacts ProcMain ProcSeq ProcHist ProcProofs ProcSysProofs ProcTransp ProcMore ProcRun ProcPool KillProcSpec.
Import ListNotations.
Local Open Scope nat_scope.

(** ** Locks of the mirror methods and of wait() *)
Lemma acqs_with_m {A} (body : prog mcmd A) : acqs (fun l => 4 <= l) body -> acqs (fun l => 4 <= l) (with_m body).
Proof.
  intros H. unfold with_m, lm_lock. cbn [op bind acqs]. split; [exact I|]. split; [|simpl; auto].
  assert (G : forall r2 : option nat, acqs (fun l => 4 <= l)
    (bind (match r2 with Some n => Ret (mlock n) | None => Raise AttributeError end) (fun l => with_lock l Ex body))).
  { intros [n|]; [|exact I]. cbn [bind]. apply acqs_with; [unfold mlock; lia|exact H]. }
  intros [r|]; cbn [bind acqs op]; repeat (split; [exact I|]); repeat split; auto; intros; apply G.
Qed.

Ltac acq := repeat lazymatch goal with
  | |- acqs _ (with_m _) => apply acqs_with_m
  | |- acqs _ (bind _ _) => apply acqs_bind; [|intros ?]
  | |- acqs _ (op _) => apply acqs_op
  | |- acqs _ (with_lock _ _ _) => apply acqs_with; [unfold STL, CFG, LL; lia|]
  | |- acqs _ (Ret _) => exact I
  | |- acqs _ (Raise _) => exact I
  | |- acqs _ (if ?b then _ else _) => destruct b
  | |- acqs _ (match ?b with _ => _ end) => destruct b
  end.

Lemma acqs_call c : acqs (fun l => 4 <= l) (lm_call c).
Proof.
  assert (Hsd : forall data, acqs (fun l => 4 <= l) (lm_send_data data)) by (intros; unfold lm_send_data, lm_put; acq).
  assert (Hb : forall data, acqs (fun l => 4 <= l) (lm_write_body data)).
  { intros data. unfold lm_write_body. acq; auto. }
  assert (Hn : acqs (fun l => 4 <= l) lm_new_line) by (unfold lm_new_line; acq; auto).
  assert (Hs : forall m, acqs (fun l => 4 <= l) (lm_send_signal m)) by (intros; unfold lm_send_signal, lm_put; acq; auto).
  assert (Hcl : acqs (fun l => 4 <= l) lm_clear) by (unfold lm_clear; acq).
  destruct c; cbn [lm_call]; unfold mret, lm_write, lm_read, lm_writable, lm_readable, lm_closed, lm_close, lm_send_eof, lm_send_error, lm_send_warning, lm_flush, lm_fileno, lm_seek, lm_isatty, lm_seekable; acq; auto.
Qed.

Lemma acqs_lift_b {A} P (p : prog bcmd A) : acqs P p -> acqs P (on_main p).
Proof.
  induction p as [a|e|X c k IHk h IHh]; simpl; auto. intros (H1 & H2 & H3). split; [destruct c; exact H1|]. auto.
Qed.
Lemma acqs_nolock {C A} P (p : prog C A) : nolock p -> acqs P p.
Proof. induction 1; simpl; auto. Qed.

Lemma acqs_wait fuel : acqs (fun l => l < 4) (lp_wait fuel).
Proof.
  induction fuel as [|f IH]; cbn [lp_wait]; [exact I|]. apply acqs_bind; [|intros []; [exact IH|exact I]].
  unfold lp_receive, lp_check_close. acq. apply acqs_lift_b. unfold lb_write, lb_write_with, lb_write_gen. acq.
  apply acqs_nolock, nolock_write_body, nolock_parse.
Qed.
Lemma main_only_wait fuel : main_only (lp_wait fuel).
Proof.
  induction fuel as [|f IH]; cbn [lp_wait]; [exact I|]. apply main_only_bind; [|intros []; [exact IH|exact I]].
  unfold lp_receive, lp_check_close. apply main_only_with.
  apply main_only_bind; [simpl; auto|]. intros [s|g|g| | |];
    [apply main_only_bind; [apply main_only_on_main|]; simpl; auto|simpl; repeat split; auto..].
Qed.

(** ** A mirror program with an unlimited queue: never blocks, only adds to the queue,
    whatever the queue contains *)
Lemma hrun_frame {A} (p : prog mcmd A) : forall m q st hs r e hs',
  hrun p (mkmenv m q 0 st) hs = Some (r, e, hs') ->
  r <> Block /\ exists m' out, e = mkmenv m' (q ++ out) 0 st /\
    forall q', hrun p (mkmenv m q' 0 st) hs = Some (r, mkmenv m' (q' ++ out) 0 st, hs').
Proof.
  induction p as [a|x|X c k IHk h IHh]; intros m q st hs r e hs' H; simpl in H.
  - injection H as <- <- <-. split; [discriminate|]. exists m, []. rewrite app_nil_r. split; [reflexivity|]. intros q'. rewrite app_nil_r. reflexivity.
  - injection H as <- <- <-. split; [discriminate|]. exists m, []. rewrite app_nil_r. split; [reflexivity|]. intros q'. rewrite app_nil_r. reflexivity.
  - destruct c as [l mo|l|X c]; simpl.
    + destruct (allowedb hs l mo); [|discriminate]. eauto.
    + destruct hs as [|l' hs1]; [discriminate|]. destruct (l' =? l); [|discriminate]. eauto.
    + destruct (mexec_frame c m st) as (r1 & m1 & out1 & Hb & _ & He). rewrite He in H.
      assert (G : r <> Block /\ exists m' out, e = mkmenv m' ((q ++ out1) ++ out) 0 st /\
        forall q', match r1 with Good x => hrun (k x) (mkmenv m1 (q' ++ out1) 0 st) hs | Fail x => hrun (h x) (mkmenv m1 (q' ++ out1) 0 st) hs
                   | Block => Some (Block, mkmenv m1 (q' ++ out1) 0 st, hs) end = Some (r, mkmenv m' ((q' ++ out1) ++ out) 0 st, hs')).
      { destruct r1 as [x|x|]; [| |congruence].
        - destruct (IHk x _ _ _ _ _ _ _ H) as (H1 & m' & out & H2 & H3). eauto 10.
        - destruct (IHh x _ _ _ _ _ _ _ H) as (H1 & m' & out & H2 & H3). eauto 10. }
      destruct G as (G1 & m' & out & G2 & G3). split; [exact G1|]. exists m', (out1 ++ out). rewrite app_assoc. split; [exact G2|].
      intros q'. rewrite He, app_assoc. apply G3.
Qed.

Lemma hok_attempt {C D} `{!Sem C D} {A} (p : prog C A) d hs r d' : hok p d hs r d' ->
  match r with Block => hok (attempt p) d hs Block d' | _ => hok (attempt p) d hs (Good r) d' end.
Proof.
  intros (h1 & E & Hh).
  assert (G : forall d hs r d' h1, hrun p d hs = Some (r, d', h1) ->
    match r with Block => hrun (attempt p) d hs = Some (Block, d', h1) | _ => hrun (attempt p) d hs = Some (Good r, d', h1) end).
  { clear. induction p as [a|x|X c k IHk h IHh]; intros d hs r d' h1 E; simpl in E |- *.
    - injection E as <- <- <-. reflexivity.
    - injection E as <- <- <-. reflexivity.
    - destruct c as [l mo|l|X c].
      + destruct (allowedb hs l mo); [|discriminate]. eapply IHk, E.
      + destruct hs as [|l' hs1]; [discriminate|]. destruct (l' =? l); [|discriminate]. eapply IHk, E.
      + destruct (cexec c d) as [[x|x|] d1]; [eapply IHk, E|eapply IHh, E|]. injection E as <- <- <-. reflexivity. }
  specialize (G _ _ _ _ _ E). destruct r; exists h1; split; auto; intros _; apply Hh; discriminate.
Qed.

(** ** A producer alone *)
Lemma thread_alone st cs : forall m, mwf m ->
  exists rs' m' out, mwf m' /\ forall q rs,
    runs 0 (map lm_call cs) (idle (mkmenv m q 0 st)) = (rs', idle (mkmenv m' (q ++ out) 0 st)) /\
    hok (thread_from rs (map lm_call cs)) (mkmenv m q 0 st) [] (Good (rev rs ++ rs')) (mkmenv m' (q ++ out) 0 st).
Proof.
  induction cs as [|c cs IH]; intros m Hw; cbn [map runs thread_from].
  - exists [], m, []. split; [exact Hw|]. intros q rs. rewrite !app_nil_r. split; [reflexivity|]. apply hok_ret.
  - destruct Hw as (b & a & -> & Hc). destruct (xcall 0 (stopped_of st b) c a []) as [[r a'] q'] eqn:Ex.
    pose proof (lm_call_ok _ _ _ _ _ _ _ _ _ Ex) as Hok.
    pose proof Hok as (hs1 & Eh & Hhs). destruct (hrun_frame _ _ _ _ _ _ _ _ Eh) as (Hnb & m1 & out1 & Ee & Hq).
    specialize (Hhs Hnb). subst hs1. simpl in Ee.
    assert (Hw1 : mwf m1). { injection Ee as <- _. eexists _, _. split; [reflexivity|]. apply xcall_ok in Ex. destruct Ex as [_ Ex]. exact (Ex Hc). }
    destruct (IH m1 Hw1) as (rs' & m' & out & Hw' & H). exists (r :: rs'), m', (out1 ++ out). split; [exact Hw'|]. intros q rs.
    assert (Hq' : hok (lm_call c) (mkmenv (mk b a) q 0 st) [] r (mkmenv m1 (q ++ out1) 0 st)) by (exists []; split; [apply Hq|auto]).
    rewrite (hok_runs 0 _ _ _ _ Hq' Hnb). destruct (H (q ++ out1) (r :: rs)) as [H1 H2]. rewrite H1, app_assoc. split; [reflexivity|].
    cbn [thread_from]. simpl rev in H2. rewrite <- app_assoc in H2. eapply hok_bind; [|exact H2].
    pose proof (hok_attempt _ _ _ _ _ Hq') as Ha. destruct r; [exact Ha|exact Ha|congruence].
Qed.

Lemma hok_wait_any m fuel : forall d a, valid_q d -> main_is m false d a ->
  exists r d', hok (lp_wait fuel) d [] r d'.
Proof.
  induction fuel as [|f IH]; intros d a Hv Hm; cbn [lp_wait]; [eexists _, _; apply hok_raise|].
  destruct (queue d) as [|x xs] eqn:Eq.
  - eexists _, _. apply hok_bind_block, hok_receive_empty, Eq.
  - pose proof (hok_receive m d a x xs Hm Eq) as Hr.
    pose proof Hm as (_ & _ & Hlen & Hm1). pose proof (rstep_len m x a Hlen) as Hlen'.
    destruct (rstep m x a) as [[|] a1]; cbn [fst snd] in *; [|eexists _, _; eapply hok_bind; [exact Hr|apply hok_ret]].
    destruct (IH (main_set m false a1 (set_queue xs d)) a1) as (r & d' & H).
    + rewrite valid_main_set, valid_set_queue. exact Hv.
    + apply main_is_set; assumption.
    + eexists _, _. eapply hok_bind; [exact Hr|exact H].
Qed.

(** ** Counting the events of a tagged log *)
Lemma events_sum {X} (lg : list (nat * X)) n : Forall (fun x => fst x < n) lg ->
  length lg = list_sum (map (fun k => length (events_of k lg)) (seq 0 n)).
Proof.
  induction lg as [|[k x] lg IH]; intros H.
  - simpl. clear. induction (seq 0 n); simpl; auto.
  - inversion H as [|? ? Hk Hr]; subst. simpl in Hk.
    assert (G : forall l, List.NoDup l -> In k l ->
      list_sum (map (fun j => length (events_of j ((k, x) :: lg))) l) = S (list_sum (map (fun j => length (events_of j lg)) l))).
    { clear. induction l as [|j l IH]; intros Hn Hi; [contradiction|]. inversion Hn as [|? ? Hn1 Hn2]; subst.
      assert (Hs : forall l, ~ In k l -> map (fun j => length (events_of j ((k, x) :: lg))) l = map (fun j => length (events_of j lg)) l).
      { clear. intros l Hl. apply map_ext_in. intros j Hj. unfold events_of. simpl.
        rewrite (proj2 (Nat.eqb_neq k j)) by (intros ->; contradiction). reflexivity. }
      destruct Hi as [->|Hi].
      - simpl. rewrite (Hs l Hn1). unfold events_of at 1. simpl. rewrite Nat.eqb_refl. simpl. unfold events_of. lia.
      - simpl. rewrite IH by assumption. unfold events_of at 1. simpl.
        rewrite (proj2 (Nat.eqb_neq k j)) by (intros ->; contradiction). unfold events_of. lia. }
    rewrite G; [simpl; f_equal; apply IH, Hr|apply seq_NoDup|]. apply in_seq. lia.
Qed.

Lemma lookup_map {A B} (f : A -> B) (l : list A) k : map f l !! k = f <$> (l !! k).
Proof. apply list_lookup_fmap. Qed.

Section C23.
  Variables (m : nat) (d : psys) (work : list (nat * list mcall)) (fuel : nat).
  Hypotheses (Hm : 1 <= m) (Hr : preach m d) (Hc : main_closed d = false)
             (Hw : work_ok d work) (Hf : fuel_ok d work fuel).

  Let prog_of (w : nat * list mcall) : prog mcmd presult :=
    bind (thread (map lm_call (snd w))) (fun rs => Ret (Produced rs)).
  Let ws : list (nat * prog mcmd presult) := map (fun w => (fst w, prog_of w)) work.
  Let main0 : prog pcmd presult := bind (attempt (lp_wait fuel)) (fun r => Ret (Waited r)).
  Let fin (k : nat) : outcome presult * menv :=
    match work !! k with
    | Some w => (Good (Produced (fst (alone d w))), dat (snd (alone d w)))
    | None => (Block, get_menv 0 d)
    end.

  Lemma pool_start : processes work fuel = start ws main0.
  Proof. unfold processes, start, ws. rewrite map_map. reflexivity. Qed.
  Lemma ws_len : length ws = length work.
  Proof. apply map_length. Qed.
  Lemma ws_at k w : work !! k = Some w -> ws !! k = Some (fst w, prog_of w).
  Proof. intros H. unfold ws. rewrite lookup_map, H. reflexivity. Qed.
  Lemma ws_inv k w : ws !! k = Some w -> exists w0, work !! k = Some w0 /\ w = (fst w0, prog_of w0).
  Proof. unfold ws. rewrite lookup_map. destruct (work !! k) as [w0|]; [|discriminate]. intros [= <-]. eauto. Qed.

  Lemma in_work k w : work !! k = Some w -> In w work.
  Proof. intros H. apply elem_of_list_In. eapply elem_of_list_lookup_2, H. Qed.

  Lemma alone_ok w : In w work ->
    alone d w = (fst (alone d w), idle (dat (snd (alone d w)))) /\
    hok (prog_of w) (mkmenv (mir_at d (fst w)) [] 0 (s_state d)) [] (Good (Produced (fst (alone d w)))) (dat (snd (alone d w))).
  Proof.
    intros Hin. destruct (proj2 Hw w Hin) as [Hi _].
    destruct (pi_mir m d (preach_pinv m d Hm Hr) (fst w) Hi) as (b & a & Eb & Ha & _).
    assert (Hwf : mwf (mir_at d (fst w))) by (exists b, a; auto).
    destruct (thread_alone (s_state d) (snd w) _ Hwf) as (rs & m' & out & _ & H).
    destruct (H [] []) as [H1 H2]. unfold alone. rewrite H1. simpl. split; [reflexivity|].
    unfold prog_of. eapply hok_bind; [exact H2|]. simpl. apply hok_ret.
  Qed.

  Lemma h_nodup : List.NoDup (map fst ws).
  Proof. unfold ws. rewrite map_map. simpl. apply Hw. Qed.
  Lemma h_ws k w : ws !! k = Some w ->
    fst w < length (s_mirs d) /\ m_q (mir_at d (fst w)) = cur_q d /\ acqs (fun l => 4 <= l) (snd w) /\
    hrun (snd w) (mkmenv (mir_at d (fst w)) [] 0 (s_state d)) [] = Some (fst (fin k), snd (fin k), []).
  Proof.
    intros H. destruct (ws_inv k w H) as (w0 & H0 & ->). cbn [fst snd].
    destruct (proj2 Hw w0 (in_work k w0 H0)) as [H1 H2]. split; [exact H1|]. split; [exact H2|]. split.
    - unfold prog_of. apply acqs_bind; [|simpl; auto]. apply acqs_thread. apply List.Forall_forall. intros p Hp.
      apply in_map_iff in Hp. destruct Hp as (c & <- & _). apply acqs_call.
    - unfold fin. rewrite H0. destruct (alone_ok w0 (in_work k w0 H0)) as (_ & hs & E & Hh).
      rewrite Hh in E by discriminate. exact E.
  Qed.
  Lemma h_q : cur_q d < length (s_qs d).
  Proof. apply (pinv_validq m d (preach_pinv m d Hm Hr)). Qed.
  Lemma h_monly : main_only main0.
  Proof. apply main_only_bind; [apply main_only_attempt, main_only_wait|simpl; auto]. Qed.
  Lemma h_macq : acqs (fun l => l < 4) main0.
  Proof. apply acqs_bind; [apply acqs_attempt, acqs_wait|simpl; auto]. Qed.

  (** wait() alone on any content of the queue *)
  Lemma main_alone q :
    match wait_cut q (s_n d) with
    | Some (h, rest) => q = h ++ rest /\ (length q < fuel -> exists d', hok main0 (set_queue q d) [] (Good (Waited (Good tt))) d' /\
        s_mirs d' = s_mirs d /\ s_cur d' = s_cur d /\ queue d' = rest /\ received m d d' h)
    | None => length q < fuel -> exists d', hok main0 (set_queue q d) [] Block d'
    end.
  Proof.
    pose proof (preach_pinv m d Hm Hr) as Hp. pose proof (pinv_validq m d Hp) as Hv.
    pose proof (pinv_abs m d Hp Hc) as Ha. set (p := (mkslog (records d) (current d), s_n d)) in *.
    assert (Hv' : valid_q (set_queue q d)) by (rewrite valid_set_queue; exact Hv).
    assert (Ha' : main_is m false (set_queue q d) (abs_main m p)) by exact Ha.
    pose proof (queue_set_queue q d Hv) as Eq.
    pose proof (wstep_cut m q (abs_main m p)) as Hs. change (mn (abs_main m p)) with (s_n d) in Hs.
    destruct (wait_cut q (s_n d)) as [[h rest]|].
    - destruct Hs as [E Hs]. split; [exact E|]. intros Hl.
      pose proof (hok_wait_ok m q fuel (set_queue q d) _ _ _ Hv' Ha' Eq Hs ltac:(lia)) as Hok.
      rewrite set_queue_twice in Hok. eexists. split.
      + eapply hok_bind; [exact (hok_attempt _ _ _ _ _ Hok)|apply hok_ret].
      + split; [reflexivity|]. split; [reflexivity|]. split; [apply (queue_set_queue rest d Hv)|].
        rewrite rsteps_gmsgs. apply received_intro.
    - intros Hl. pose proof (hok_wait_block m q fuel (set_queue q d) _ Hv' Ha' Eq Hs Hl) as Hok.
      eexists. eapply hok_bind_block. exact (hok_attempt _ _ _ _ _ Hok).
  Qed.

  Lemma dst_set_queue q : dst d (s_mirs d) q (s_main d) (s_n d) = set_queue q d.
  Proof. reflexivity. Qed.

  Lemma h_disc q : exists r d', hok main0
    (mkps (s_mirs d) (set_nth (cur_q d) q (s_qs d)) (s_state d) (s_main d) (s_n d) (s_cur d) (s_maxlen d)) [] r d'.
  Proof.
    pose proof (preach_pinv m d Hm Hr) as Hp. pose proof (pinv_validq m d Hp) as Hv.
    pose proof (pinv_abs m d Hp Hc) as Ha.
    destruct (hok_wait_any m fuel (set_queue q d) _ ltac:(rewrite valid_set_queue; exact Hv) Ha) as (r & d' & H).
    pose proof (hok_attempt _ _ _ _ _ H) as H'.
    destruct r as [x|x|]; eexists _, _; [eapply hok_bind; [exact H'|apply hok_ret]..|eapply hok_bind_block; exact H'].
  Qed.

  Lemma c23_inv ps' s' lg held qs qm mirs q b n front :
    inv d ws main0 fin ps' s' lg held qs qm mirs q b n front ->
      Forall (fun x => fst x < length work) lg /\
      (forall k w, work !! k = Some w -> exists more, emitted d w = events_of k lg ++ more) /\
      inbox d ++ map snd lg = front ++ inbox (dat s') /\
      (forall k w x, work !! k = Some w -> ps' !! k = Some (Ret x) ->
         x = Produced (fst (alone d w)) /\ events_of k lg = emitted d w /\
         mir_at (dat s') (fst w) = e_mir (dat (snd (alone d w)))) /\
      (forall x, ps' !! length work = Some (Ret x) ->
         x = Waited (Good tt) /\ wait_cut (inbox d ++ map snd lg) (s_n d) = Some (front, inbox (dat s')) /\
         received m d (dat s') front) /\
      ((exists j c, cstep j (ps', s') = Some c) \/
       (forall k w, work !! k = Some w -> exists x, ps' !! k = Some (Ret x)) /\
       ((exists x, ps' !! length work = Some (Ret x)) /\ lks s' = stdpp.base.empty \/
        wait_cut (inbox d ++ map snd lg) (s_n d) = None)) /\
      (forall i, ~ In i (map fst work) -> mir_at (dat s') i = mir_at d i) /\
      (wait_cut (inbox d ++ map snd lg) (s_n d) <> None -> main_goes_on work ps' s') /\
      (forall dead k w, (forall k p l o, k < length work -> ~ In k dead -> ps' !! k = Some p -> top_acq p = S l -> holds o l (lks s') -> ~ In o dead) ->
         work !! k = Some w -> ~ In k dead ->
         (exists x, ps' !! k = Some (Ret x)) \/ exists j c, ~ In j dead /\ cstep j (ps', s') = Some c).
  Proof.
    intros I.
    assert (Einb : inbox (dat s') = q).
    { rewrite (in_dat _ _ _ _ _ _ _ _ _ _ _ _ _ _ _ I). apply (dst_queue d h_q). apply (in_okm _ _ _ _ _ _ _ _ _ _ _ _ _ _ _ I). }
    assert (Hlg : Forall (fun x => fst x < length work) lg).
    { rewrite <- ws_len. exact (in_lg _ _ _ _ _ _ _ _ _ _ _ _ _ _ _ I). }
    assert (Hpre : forall k w, work !! k = Some w -> exists more, emitted d w = events_of k lg ++ more).
    { intros k w Hk. pose proof (ws_at k w Hk) as Hwk.
      destruct (ws_qs d ws h_q k qs (in_len _ _ _ _ _ _ _ _ _ _ _ _ _ _ _ I)) as (w2 & p & H2 & Hp).
      { apply lookup_lt_is_Some_1. eauto. }
      pose proof (in_run _ _ _ _ _ _ _ _ _ _ _ _ _ _ _ I k w2 p H2 Hp) as Hrun.
      destruct (hrun_frame _ _ _ _ _ _ _ _ Hrun) as (_ & m' & out & E & _).
      unfold fin in E. rewrite Hk in E. simpl in E. unfold emitted. rewrite E. simpl. eauto. }
    assert (Hlen : length (inbox d ++ map snd lg) < fuel).
    { rewrite app_length, map_length. unfold fuel_ok in Hf.
      enough (length lg <= list_sum (map (fun w => length (emitted d w)) work)) by lia.
      rewrite (events_sum lg (length work) Hlg). clear - Hpre.
      assert (G : forall work2 o, (forall k w, work2 !! k = Some w -> exists more, emitted d w = events_of (o + k) lg ++ more) ->
        list_sum (map (fun k => length (events_of k lg)) (seq o (length work2))) <= list_sum (map (fun w => length (emitted d w)) work2)).
      { induction work2 as [|w work2 IH]; intros o H; [simpl; lia|]. cbn [length seq map list_sum fold_right].
        destruct (H 0 w eq_refl) as [more E]. rewrite Nat.add_0_r in E. rewrite E, app_length.
        specialize (IH (S o)). unfold list_sum in *. etransitivity; [|apply Nat.add_le_mono_l, IH].
        - cbn [fold_right]. lia.
        - intros k w' Hk. destruct (H (S k) w' Hk) as [more' E']. exists more'. rewrite E'. f_equal. f_equal. lia. }
      apply (G work 0). exact Hpre. }
    split; [exact Hlg|]. split; [exact Hpre|].
    pose proof (in_front _ _ _ _ _ _ _ _ _ _ _ _ _ _ _ I) as Hfr. rewrite Einb. split; [exact Hfr|]. split.
    { intros k w x Hk Hx. pose proof (ws_at k w Hk) as Hwk.
      destruct (ws_qs d ws h_q k qs (in_len _ _ _ _ _ _ _ _ _ _ _ _ _ _ _ I)) as (w2 & p & H2 & Hp).
      { apply lookup_lt_is_Some_1. eauto. }
      rewrite Hwk in H2. injection H2 as <-.
      rewrite (in_ps _ _ _ _ _ _ _ _ _ _ _ _ _ _ _ I k _ p Hwk Hp) in Hx.
      pose proof (in_run _ _ _ _ _ _ _ _ _ _ _ _ _ _ _ I k _ p Hwk Hp) as Hrun.
      destruct p as [y|y|]; try discriminate. simpl in Hx. injection Hx as ->. simpl in Hrun.
      unfold fin in Hrun. rewrite Hk in Hrun. cbn [fst snd] in Hrun. injection Hrun as E1 E2 _.
      split; [exact E1|]. unfold emitted. rewrite <- E2. split; [reflexivity|].
      rewrite (in_dat _ _ _ _ _ _ _ _ _ _ _ _ _ _ _ I). reflexivity. }
    pose proof (main_alone (inbox d ++ map snd lg)) as Hma.
    pose proof (in_main _ _ _ _ _ _ _ _ _ _ _ _ _ _ _ I []) as Hmr. rewrite !app_nil_r in Hmr.
    rewrite dst_set_queue in Hmr. pose proof (in_pm _ _ _ _ _ _ _ _ _ _ _ _ _ _ _ I) as Hpm. rewrite ws_len in Hpm.
    assert (Hret : forall k w p, work !! k = Some w -> qs !! k = Some p -> finished p = true -> exists x, ps' !! k = Some (Ret x)).
    { intros k w p Hk Hp Hfin. pose proof (ws_at k w Hk) as Hwk.
      rewrite (in_ps _ _ _ _ _ _ _ _ _ _ _ _ _ _ _ I k _ p Hwk Hp).
      pose proof (in_run _ _ _ _ _ _ _ _ _ _ _ _ _ _ _ I k _ p Hwk Hp) as Hrun.
      destruct p as [y|y|]; [simpl; eauto| |discriminate]. exfalso. simpl in Hrun. unfold fin in Hrun. rewrite Hk in Hrun.
      simpl in Hrun. discriminate. }
    split; [|split; [|split; [|split]]].
    - intros x Hx. rewrite Hpm in Hx. destruct qm as [y|y|]; try discriminate. simpl in Hx. injection Hx as ->.
      destruct (wait_cut (inbox d ++ map snd lg) (s_n d)) as [[h rest]|].
      + destruct Hma as [Eq Hma]. destruct (Hma Hlen) as (d' & (hs & E & Hh) & E1 & E2 & E3 & E4).
        rewrite E in Hmr. simpl in Hmr. injection Hmr as -> E5 _. split; [reflexivity|].
        assert (Eq2 : q = rest). { rewrite <- E3, <- E5. symmetry. apply (dst_queue d h_q _ q b n (okm_0 d)). }
        rewrite <- Eq2 in Eq |- *. rewrite Hfr in Eq. apply app_inv_tail in Eq. split.
        * rewrite Eq. reflexivity.
        * rewrite Eq. destruct E4 as (g & G1 & G2 & G3 & G4). exists g.
          rewrite <- E5 in G1, G2, G3, G4. rewrite (in_dat _ _ _ _ _ _ _ _ _ _ _ _ _ _ _ I). exact (conj G1 (conj G2 (conj G3 G4))).
      + destruct (Hma Hlen) as (d' & hs & E & _). rewrite E in Hmr. discriminate.
    - destruct (inv_progress d ws main0 fin h_ws h_q h_disc _ _ _ _ _ _ _ _ _ _ _ I) as [Hmv|[Hall Hend]]; [left; exact Hmv|right].
      assert (Hall' : forall k w, work !! k = Some w -> exists x, ps' !! k = Some (Ret x)).
      { intros k w Hk.
        destruct (ws_qs d ws h_q k qs (in_len _ _ _ _ _ _ _ _ _ _ _ _ _ _ _ I)) as (w2 & p & H2 & Hp).
        { apply lookup_lt_is_Some_1. pose proof (ws_at k w Hk). eauto. }
        apply (Hret k w p Hk Hp). eauto. }
      split; [exact Hall'|]. rewrite dst_set_queue in Hend.
      destruct (wait_cut (inbox d ++ map snd lg) (s_n d)) as [[h rest]|]; [|right; reflexivity].
      destruct Hma as [_ Hma]. destruct (Hma Hlen) as (d' & (hs & E & _) & _).
      destruct Hend as [Hfin|(d2 & hs2 & E2)]; [|congruence]. left. split.
      + rewrite E in Hmr. destruct qm as [y|y|]; [rewrite Hpm; simpl; eauto|discriminate|discriminate].
      + eapply (inv_end d ws main0 fin h_q h_disc); eassumption.
    - intros i Hi. rewrite (in_dat _ _ _ _ _ _ _ _ _ _ _ _ _ _ _ I). unfold mir_at. cbn [dst s_mirs].
      apply (in_frame _ _ _ _ _ _ _ _ _ _ _ _ _ _ _ I). unfold ws. rewrite map_map. exact Hi.
    - intros Hcut. unfold main_goes_on.
      pose proof (main_move d ws main0 fin h_q h_disc _ _ _ _ _ _ _ _ _ _ _ I) as Hmm. rewrite ws_len in Hmm.
      destruct Hmm as [Hmv|[Hfin|(d' & hs & E)]]; [right; exact Hmv| |].
      + left. rewrite Hpm. destruct qm as [y|y|]; [simpl; eauto| |discriminate].
        destruct (wait_cut (inbox d ++ map snd lg) (s_n d)) as [[h rest]|]; [|congruence].
        destruct Hma as [_ Hma]. destruct (Hma Hlen) as (d' & (hs & E & _) & _). rewrite E in Hmr. discriminate.
      + exfalso. rewrite dst_set_queue in E. destruct (wait_cut (inbox d ++ map snd lg) (s_n d)) as [[h rest]|]; [|congruence].
        destruct Hma as [_ Hma]. destruct (Hma Hlen) as (d2 & (hs2 & E2 & _) & _). congruence.
    - intros dead k w Hdead Hk Hkd.
      destruct (ws_qs d ws h_q k qs (in_len _ _ _ _ _ _ _ _ _ _ _ _ _ _ _ I)) as (w2 & p & H2 & Hp).
      { apply lookup_lt_is_Some_1. pose proof (ws_at k w Hk). eauto. }
      destruct (finished p) eqn:Hfin; [left; eauto|right].
      destruct p as [a|e|X c kk hh]; [discriminate|discriminate|].
      eapply (prod_move_alive d ws main0 fin h_ws h_q dead _ _ _ _ _ _ _ _ _ _ _ I) with (l := top_acq (Act c kk hh)) (k := k);
        [|exact Hkd|exact H2|exact Hp|exact Hfin|].
      + intros k1 p1 l o Hk1 Hp1 Hl1 Hin.
        assert (Hlt : k1 < length ws) by (rewrite <- (in_len _ _ _ _ _ _ _ _ _ _ _ _ _ _ _ I); apply lookup_lt_is_Some_1; eauto).
        destruct (ws_qs d ws h_q k1 qs (in_len _ _ _ _ _ _ _ _ _ _ _ _ _ _ _ I) Hlt) as (w1 & p1' & Hw1 & Hp1').
        rewrite ws_len in Hlt.
        apply (Hdead k1 (sys_m (fst w1) p1) l o); [exact Hlt|exact Hk1| | |].
        * apply (in_ps _ _ _ _ _ _ _ _ _ _ _ _ _ _ _ I k1 w1 p1 Hw1 Hp1).
        * rewrite <- Hl1. destruct p1 as [|?|X1 c1 kk1 hh1]; [reflexivity|reflexivity|]. destruct c1; reflexivity.
        * pose proof (in_lock _ _ _ _ _ _ _ _ _ _ _ _ _ _ _ I l) as Hl. unfold holds.
          apply (count_occ_In Nat.eq_dec) in Hin.
          destruct (lks s' !! l) as [[o2 n2|os]|].
          -- destruct Hl as (_ & _ & A3). destruct (Nat.eq_dec o2 o) as [|Hne]; [assumption|]. rewrite (A3 o ltac:(congruence)) in Hin. lia.
          -- destruct Hl as (_ & _ & A3). rewrite A3 in Hin. apply (count_occ_In Nat.eq_dec). exact Hin.
          -- rewrite Hl in Hin. lia.
      + intros l' mm kk' hh' E. left. rewrite E. simpl. lia.
  Qed.

  Lemma c23_gen sch ps' s' : sched_run sch (processes work fuel, idle d) = Some (ps', s') ->
    exists lg taken,
      Forall (fun x => fst x < length work) lg /\
      (forall k w, work !! k = Some w -> exists more, emitted d w = events_of k lg ++ more) /\
      inbox d ++ map snd lg = taken ++ inbox (dat s') /\
      (forall k w x, work !! k = Some w -> ps' !! k = Some (Ret x) ->
         x = Produced (fst (alone d w)) /\ events_of k lg = emitted d w /\
         mir_at (dat s') (fst w) = e_mir (dat (snd (alone d w)))) /\
      (forall x, ps' !! length work = Some (Ret x) ->
         x = Waited (Good tt) /\ wait_cut (inbox d ++ map snd lg) (s_n d) = Some (taken, inbox (dat s')) /\
         received m d (dat s') taken) /\
      ((exists j c, cstep j (ps', s') = Some c) \/
       (forall k w, work !! k = Some w -> exists x, ps' !! k = Some (Ret x)) /\
       ((exists x, ps' !! length work = Some (Ret x)) /\ lks s' = stdpp.base.empty \/
        wait_cut (inbox d ++ map snd lg) (s_n d) = None)) /\
      (forall i, ~ In i (map fst work) -> mir_at (dat s') i = mir_at d i).
  Proof.
    intros Hs. rewrite pool_start in Hs.
    pose proof (inv_init d ws main0 fin h_ws h_q h_monly h_macq h_disc) as I0.
    destruct (inv_sched d ws main0 fin h_nodup h_ws h_q h_disc sch _ _ _ _ _ _ _ _ _ _ _ _ _ I0 Hs)
      as (lg & held & qs & qm & mirs & q & b & n & front & I).
    exists lg, front. destruct (c23_inv _ _ _ _ _ _ _ _ _ _ _ I) as (H1 & H2 & H3 & H4 & H5 & H6 & H7 & _). auto 10.
  Qed.

  (** The same in two phases: threads that make no step in the second one send nothing in it. *)
  Definition pool_at (ps' : list (prog scmd presult)) (s' : st psys) lg taken : Prop :=
    sent_so_far m d work ps' s' lg taken /\
    (wait_cut (inbox d ++ map snd lg) (s_n d) <> None -> main_goes_on work ps' s') /\
    (forall dead k w, (forall k p l o, k < length work -> ~ In k dead -> ps' !! k = Some p -> top_acq p = S l -> holds o l (lks s') -> ~ In o dead) ->
         work !! k = Some w -> ~ In k dead ->
       (exists x, ps' !! k = Some (Ret x)) \/ exists j c, ~ In j dead /\ cstep j (ps', s') = Some c).
  Lemma c23_two sch1 ps1 s1 : sched_run sch1 (processes work fuel, idle d) = Some (ps1, s1) ->
    exists lg taken, pool_at ps1 s1 lg taken /\
    forall sch2 ps' s', sched_run sch2 (ps1, s1) = Some (ps', s') ->
    exists more taken', pool_at ps' s' (lg ++ more) taken' /\
      forall k, ~ In k sch2 -> events_of k more = [].
  Proof.
    intros Hs. rewrite pool_start in Hs.
    pose proof (inv_init d ws main0 fin h_ws h_q h_monly h_macq h_disc) as I0.
    destruct (inv_sched d ws main0 fin h_nodup h_ws h_q h_disc sch1 _ _ _ _ _ _ _ _ _ _ _ _ _ I0 Hs)
      as (lg & held & qs & qm & mirs & q & b & n & front & I).
    assert (F : forall ps' s' lg held qs qm mirs q b n front, inv d ws main0 fin ps' s' lg held qs qm mirs q b n front ->
      pool_at ps' s' lg front).
    { clear I lg held qs qm mirs q b n front. intros ps' s' lg held qs qm mirs q b n front I.
      destruct (c23_inv _ _ _ _ _ _ _ _ _ _ _ I) as (H1 & H2 & H3 & H4 & H5 & H6 & H7 & H8 & H9).
      split; [split; auto|auto]. }
    exists lg, front. split; [eauto|]. intros sch2 ps' s' Hs2.
    destruct (inv_sched_log d ws main0 fin h_nodup h_ws h_q h_disc sch2 _ _ _ _ _ _ _ _ _ _ _ _ _ I Hs2)
      as (lg2 & held2 & qs2 & qm2 & mirs2 & q2 & b2 & n2 & front2 & I2 & (more & E) & Hev).
    subst lg2. exists more, front2. split; [eauto|]. intros k Hk. specialize (Hev k Hk). rewrite events_of_app in Hev.
    rewrite <- (app_nil_r (events_of k lg)) in Hev at 2. apply app_inv_head in Hev. exact Hev.
  Qed.

  (** The main process at any time: the rest [qm] of its program, alone, ends like wait()
      on everything that was sent and on whatever is still put into the queue ([fut]). *)
  Lemma c23_main sch ps' s' : sched_run sch (processes work fuel, idle d) = Some (ps', s') ->
    exists lg taken held qm mirs q b n, pool_at ps' s' lg taken /\
      ps' !! length work = Some (sys_p qm) /\ main_only qm /\ acqs (fun l => l < 4) qm /\
      dat s' = dst d mirs q b n /\ okm d mirs /\
      lock_inv held (lks s') /\ Forall (fun l => l < 4) (held (length work)) /\
      (forall k, k <> length work -> Forall (fun l => 4 <= l) (held k)) /\
      forall fut, hrun qm (dst d (s_mirs d) (q ++ fut) b n) (held (length work)) =
                  hrun main0 (set_queue (inbox d ++ map snd lg ++ fut) d) [].
  Proof.
    intros Hs. rewrite pool_start in Hs.
    pose proof (inv_init d ws main0 fin h_ws h_q h_monly h_macq h_disc) as I0.
    destruct (inv_sched d ws main0 fin h_nodup h_ws h_q h_disc sch _ _ _ _ _ _ _ _ _ _ _ _ _ I0 Hs)
      as (lg & held & qs & qm & mirs & q & b & n & front & I).
    exists lg, front, held, qm, mirs, q, b, n. split.
    { destruct (c23_inv _ _ _ _ _ _ _ _ _ _ _ I) as (H1 & H2 & H3 & H4 & H5 & H6 & H7 & H8 & H9). split; [split; auto|auto]. }
    pose proof (in_macq _ _ _ _ _ _ _ _ _ _ _ _ _ _ _ I) as [Hq Hh]. rewrite ws_len in Hh.
    pose proof (in_pm _ _ _ _ _ _ _ _ _ _ _ _ _ _ _ I) as Hpm. rewrite ws_len in Hpm.
    split; [exact Hpm|]. split; [exact (in_monly _ _ _ _ _ _ _ _ _ _ _ _ _ _ _ I)|]. split; [exact Hq|].
    split; [exact (in_dat _ _ _ _ _ _ _ _ _ _ _ _ _ _ _ I)|]. split; [exact (in_okm _ _ _ _ _ _ _ _ _ _ _ _ _ _ _ I)|].
    split; [exact (in_lock _ _ _ _ _ _ _ _ _ _ _ _ _ _ _ I)|]. split; [exact Hh|]. split.
    - intros k Hk. destruct (le_lt_dec (length work) k) as [Hle|Hlt].
      + rewrite (in_out _ _ _ _ _ _ _ _ _ _ _ _ _ _ _ I) by (rewrite ws_len; lia). constructor.
      + destruct (lookup_lt_is_Some_2 qs k) as [p Hp]; [rewrite (in_len _ _ _ _ _ _ _ _ _ _ _ _ _ _ _ I), ws_len; exact Hlt|].
        apply (in_acq _ _ _ _ _ _ _ _ _ _ _ _ _ _ _ I k p Hp).
    - intros fut. pose proof (in_main _ _ _ _ _ _ _ _ _ _ _ _ _ _ _ I fut) as H. rewrite ws_len in H. exact H.
  Qed.
End C23.

(** ** C25 *)
Definition ends (xs : list msg) : nat := length (List.filter is_end xs).
Definition plain (x : msg) : bool := is_data x || is_end x.

Lemma ends_app xs ys : ends (xs ++ ys) = ends xs + ends ys.
Proof. unfold ends. rewrite List.filter_app, app_length. reflexivity. Qed.

Lemma cut_ends xs : forall n h r, Forall (fun x => plain x = true) xs -> wait_cut xs n = Some (h, r) ->
  Z.of_nat (ends h) = Z.max 1 n.
Proof.
  induction xs as [|x xs IH]; intros n h r Hp E; [discriminate|]. inversion Hp as [|? ? Hx Hxs]; subst. cbn [wait_cut] in E.
  destruct (is_data x) eqn:Ed.
  - assert (He : is_end x = false) by (destruct x; try discriminate; reflexivity).
    destruct (wait_cut xs n) as [[h' r']|] eqn:Ew; [|discriminate]. injection E as <- <-.
    unfold ends. cbn [List.filter]. rewrite He. eapply (IH n h' r'); auto.
  - unfold plain in Hx. rewrite Ed in Hx. simpl in Hx. rewrite Hx in E. destruct (Z.ltb_spec 1 n).
    + destruct (wait_cut xs (n - 1)%Z) as [[h' r']|] eqn:Ew; [|discriminate]. injection E as <- <-.
      unfold ends. cbn [List.filter]. rewrite Hx. cbn [length]. specialize (IH _ _ _ Hxs Ew). unfold ends in IH. lia.
    + injection E as <- <-. unfold ends. cbn [List.filter]. rewrite Hx. simpl. lia.
Qed.
Lemma cut_none xs : forall n, Forall (fun x => plain x = true) xs -> wait_cut xs n = None ->
  (Z.of_nat (ends xs) < Z.max 1 n)%Z.
Proof.
  induction xs as [|x xs IH]; intros n Hp E; [unfold ends; simpl; lia|]. inversion Hp as [|? ? Hx Hxs]; subst. cbn [wait_cut] in E.
  destruct (is_data x) eqn:Ed.
  - assert (He : is_end x = false) by (destruct x; try discriminate; reflexivity).
    destruct (wait_cut xs n) as [[h' r']|] eqn:Ew; [discriminate|].
    unfold ends. cbn [List.filter]. rewrite He. eapply (IH n); auto.
  - unfold plain in Hx. rewrite Ed in Hx. simpl in Hx. rewrite Hx in E. destruct (Z.ltb_spec 1 n); [|discriminate].
    destruct (wait_cut xs (n - 1)%Z) as [[h' r']|] eqn:Ew; [discriminate|].
    unfold ends. cbn [List.filter]. rewrite Hx. cbn [length]. specialize (IH _ Hxs Ew). unfold ends in IH. lia.
Qed.
Lemma log_msgs_n xs : forall g n g' n', Forall (fun x => plain x = true) xs -> log_msgs xs (g, n) (g', n') ->
  n' = (n - Z.of_nat (ends xs))%Z.
Proof.
  induction xs as [|x xs IH]; intros g n g' n' Hp H; inversion Hp as [|? ? Hx Hxs]; subst; inversion H as [|x0 xs0 a [g1 n1] c Hm Hms]; subst.
  - unfold ends. simpl. lia.
  - apply IH in Hms; [|exact Hxs]. unfold ends in *. cbn [List.filter].
    inversion Hm; subst; simpl; try lia; discriminate.
Qed.

(** Sum of the end signals over the producers. *)
Lemma ends_sum (lg : list (nat * msg)) n : Forall (fun x => fst x < n) lg ->
  ends (map snd lg) = list_sum (map (fun k => ends (events_of k lg)) (seq 0 n)).
Proof.
  intros H. unfold ends.
  set (lg' := List.filter (fun x => is_end (snd x)) lg).
  assert (E1 : length (List.filter is_end (map snd lg)) = length lg').
  { subst lg'. clear. induction lg as [|[k x] lg IH]; simpl; [reflexivity|]. destruct (is_end x); simpl; auto. }
  assert (E2 : forall k, length (List.filter is_end (events_of k lg)) = length (events_of k lg')).
  { subst lg'. clear. intros k. unfold events_of. induction lg as [|[j x] lg IH]; simpl; [reflexivity|].
    destruct (j =? k) eqn:Ej; cbn [map List.filter snd]; destruct (is_end x) eqn:Ee; cbn [map List.filter fst]; rewrite ?Ej; cbn [map length]; auto. }
  rewrite E1, (events_sum lg' n).
  - f_equal. apply map_ext. intros k. symmetry. apply E2.
  - apply List.Forall_forall. intros x Hx. subst lg'. apply filter_In in Hx. rewrite List.Forall_forall in H. apply H, Hx.
Qed.

Lemma ends_once_prefix xs ys zs : ends_once zs -> zs = xs ++ ys ->
  ends xs <= 1 /\ (ends xs = 1 -> ys = []) /\ Forall (fun x => plain x = true) xs.
Proof.
  intros (pre & e & -> & Hpre & He) E.
  assert (Hd : forall l, Forall (fun x => is_data x = true) l -> ends l = 0 /\ Forall (fun x => plain x = true) l).
  { induction 1 as [|x l Hx _ [I1 I2]]; [split; [reflexivity|constructor]|].
    split; [|constructor; [unfold plain; rewrite Hx; reflexivity|exact I2]].
    unfold ends in *. simpl. destruct x; try discriminate; exact I1. }
  destruct (exists_last (l := xs ++ ys)) as (u & v & Ev); [rewrite <- E; destruct pre; discriminate|].
  destruct ys as [|y ys _] using rev_ind.
  - rewrite app_nil_r in E. subst xs. destruct (Hd pre Hpre) as [D1 D2]. rewrite ends_app. unfold ends at 2. simpl. rewrite He. simpl.
    split; [lia|]. split; [auto|]. apply List.Forall_app. split; [exact D2|]. constructor; [|constructor].
    unfold plain. rewrite He, orb_true_r. reflexivity.
  - rewrite app_assoc in E. apply app_inj_tail in E. destruct E as [-> _]. apply List.Forall_app in Hpre.
    destruct (Hd xs (proj1 Hpre)) as [D1 D2]. rewrite D1. split; [lia|]. split; [discriminate|exact D2].
Qed.

Lemma sum_all_one (f : nat -> nat) l : (forall k, In k l -> f k <= 1) -> list_sum (map f l) = length l -> forall k, In k l -> f k = 1.
Proof.
  induction l as [|j l IH]; intros Hle Hs k Hk; [contradiction|]. simpl in Hs.
  assert (Hl : list_sum (map f l) <= length l).
  { clear - Hle. induction l as [|i l IH]; simpl; [lia|].
    assert (f i <= 1) by (apply Hle; right; left; reflexivity).
    assert (list_sum (map f l) <= length l). { apply IH. intros k Hk. apply Hle. destruct Hk; [left; assumption|right; right; assumption]. } lia. }
  pose proof (Hle j (or_introl eq_refl)). destruct Hk as [->|Hk]; [lia|]. apply IH; auto; [|lia]. intros i Hi. apply Hle. right. exact Hi.
Qed.

Lemma events_nil {X} (lg : list (nat * X)) n : Forall (fun x => fst x < n) lg -> (forall k, k < n -> events_of k lg = []) -> lg = [].
Proof.
  intros H He. apply length_zero_iff_nil. rewrite (events_sum lg n H). clear H.
  assert (G : forall l, (forall k, In k l -> k < n) -> list_sum (map (fun k => length (events_of k lg)) l) = 0).
  { induction l as [|k l IH]; intros Hl; [reflexivity|]. simpl. rewrite He by (apply Hl; left; reflexivity). simpl. apply IH. intros j Hj. apply Hl. right. exact Hj. }
  apply G. intros k Hk. apply in_seq in Hk. lia.
Qed.

(** A prefix of the merged log with all the end signals is everything. *)
Lemma all_ends (work : list (list msg)) (lg1 lg2 : list (nat * msg)) :
  Forall (fun x => fst x < length work) (lg1 ++ lg2) ->
  (forall k xs, work !! k = Some xs -> ends_once xs /\ exists more, xs = events_of k (lg1 ++ lg2) ++ more) ->
  length work <= ends (map snd lg1) ->
  lg2 = [] /\ forall k xs, work !! k = Some xs -> events_of k lg1 = xs.
Proof.
  intros Hk Hw Hn. apply List.Forall_app in Hk. destruct Hk as [Hk1 Hk2].
  assert (Hp : forall k xs, work !! k = Some xs -> ends (events_of k lg1) <= 1 /\
            (ends (events_of k lg1) = 1 -> events_of k lg2 = [] /\ events_of k lg1 = xs)).
  { intros k xs Hx. destruct (Hw k xs Hx) as (Ho & more & E). rewrite events_of_app, <- app_assoc in E.
    destruct (ends_once_prefix _ _ _ Ho E) as (H1 & H2 & _). split; [exact H1|]. intros H3. specialize (H2 H3).
    rewrite H2, app_nil_r in E. apply app_eq_nil in H2. destruct H2 as [H2 _]. auto. }
  assert (Hone : forall k, k < length work -> ends (events_of k lg1) = 1).
  { intros k Hlt. apply (sum_all_one (fun k => ends (events_of k lg1)) (seq 0 (length work))).
    - intros j Hj. apply in_seq in Hj. destruct (lookup_lt_is_Some_2 work j) as [xs Hx]; [lia|]. apply (Hp j xs Hx).
    - rewrite seq_length. apply Nat.le_antisymm.
      + assert (G : forall l, (forall j, In j l -> j < length work) -> list_sum (map (fun k => ends (events_of k lg1)) l) <= length l).
        { induction l as [|j l IH]; intros Hl; simpl; [lia|].
          destruct (lookup_lt_is_Some_2 work j) as [xs Hx]; [apply Hl; left; reflexivity|]. destruct (Hp j xs Hx) as [H1 _].
          specialize (IH (fun i Hi => Hl i (or_intror Hi))). lia. }
        etransitivity; [apply G|rewrite seq_length; lia]. intros j Hj. apply in_seq in Hj. lia.
      + rewrite (ends_sum lg1 _ Hk1) in Hn. exact Hn.
    - apply in_seq. lia. }
  split.
  - apply (events_nil lg2 (length work) Hk2). intros k Hlt. destruct (lookup_lt_is_Some_2 work k Hlt) as [xs Hx].
    apply (Hp k xs Hx), Hone, Hlt.
  - intros k xs Hx. apply (Hp k xs Hx). apply Hone. apply lookup_lt_is_Some_1. eauto.
Qed.

Lemma plain_log (work : list (list msg)) (lg : list (nat * msg)) :
  Forall (fun x => fst x < length work) lg ->
  (forall k xs, work !! k = Some xs -> ends_once xs /\ exists more, xs = events_of k lg ++ more) ->
  Forall (fun x => plain x = true) (map snd lg).
Proof.
  intros Hk Hw. apply List.Forall_forall. intros x Hx. apply in_map_iff in Hx. destruct Hx as ([k y] & <- & Hin). simpl.
  rewrite List.Forall_forall in Hk. pose proof (Hk _ Hin) as Hlt. simpl in Hlt.
  destruct (lookup_lt_is_Some_2 work k Hlt) as [xs Hxs]. destruct (Hw k xs Hxs) as (Ho & more & E).
  destruct (ends_once_prefix _ _ _ Ho E) as (_ & _ & Hp). rewrite List.Forall_forall in Hp. apply Hp.
  unfold events_of. apply in_map_iff. exists (k, y). split; [reflexivity|]. apply filter_In. split; [exact Hin|]. simpl. apply Nat.eqb_refl.
Qed.

Lemma lookup_nth {A} (l : list A) k : nth_error l k = l !! k.
Proof. revert k. induction l as [|x l IH]; intros [|k]; simpl; auto. Qed.

Lemma split_log {X} (lg : list (nat * X)) : forall h r, map snd lg = h ++ r ->
  exists lg1 lg2, lg = lg1 ++ lg2 /\ map snd lg1 = h /\ map snd lg2 = r.
Proof. intros h r E. apply map_eq_app in E. destruct E as (l1 & l2 & -> & E1 & E2). eauto. Qed.

Section C25.
  Variables (m : nat) (d : psys) (work : list (nat * list mcall)) (fuel : nat).
  Hypotheses (Hm : 1 <= m) (Hr : preach m d) (Hc : main_closed d = false)
             (Hw : work_ok d work) (Hf : fuel_ok d work fuel)
             (Hi : inbox d = []) (Hn : s_n d = Z.of_nat (length work)) (Hne : work <> [])
             (He : forall w, In w work -> ends_once (emitted d w)).

  Let xss := map (emitted d) work.
  Lemma xss_ok k xs : xss !! k = Some xs -> exists w, work !! k = Some w /\ xs = emitted d w /\ ends_once xs.
  Proof.
    unfold xss. rewrite lookup_map. destruct (work !! k) as [w|] eqn:E; [|discriminate]. intros [= <-].
    exists w. split; [reflexivity|]. split; [reflexivity|]. apply He. eapply in_work, E.
  Qed.
  Lemma xss_len : length xss = length work.
  Proof. apply map_length. Qed.
  Lemma work_pos : 1 <= length work.
  Proof. destruct work; [congruence|simpl; lia]. Qed.

  (** The end signals of all the producers are what wait() waits for. *)
  Lemma c25_all lg taken rest : Forall (fun x => fst x < length work) lg ->
    (forall k w, work !! k = Some w -> exists more, emitted d w = events_of k lg ++ more) ->
    map snd lg = taken ++ rest -> wait_cut (map snd lg) (s_n d) = Some (taken, rest) ->
    rest = [] /\ forall k w, work !! k = Some w -> events_of k lg = emitted d w.
  Proof.
    intros H1 H2 H3 Hcut.
    destruct (split_log lg taken rest H3) as (lg1 & lg2 & -> & E1 & E2).
    assert (Hxs : forall k xs, xss !! k = Some xs -> ends_once xs /\ exists more, xs = events_of k (lg1 ++ lg2) ++ more).
    { intros k xs Hk. destruct (xss_ok k xs Hk) as (w & Hwk & -> & Ho). split; [exact Ho|]. apply (H2 k w Hwk). }
    rewrite <- xss_len in H1. pose proof (plain_log xss _ H1 Hxs) as Hpl.
    pose proof (cut_ends _ _ _ _ Hpl Hcut) as Hends. rewrite Hn in Hends. pose proof work_pos as Hpos.
    destruct (all_ends xss lg1 lg2 H1 Hxs) as [-> Hall].
    { rewrite E1, xss_len. lia. }
    split; [rewrite <- E2; reflexivity|]. intros k w Hk. rewrite app_nil_r. apply Hall. unfold xss. rewrite lookup_map, Hk. reflexivity.
  Qed.
  Lemma c25_cut lg : Forall (fun x => fst x < length work) lg ->
    (forall k w, work !! k = Some w -> events_of k lg = emitted d w) ->
    wait_cut (map snd lg) (s_n d) <> None.
  Proof.
    intros H1 Hcomplete Hno.
    assert (Hxs : forall k xs, xss !! k = Some xs -> ends_once xs /\ exists more, xs = events_of k lg ++ more).
    { intros k xs Hk. destruct (xss_ok k xs Hk) as (w & Hwk & -> & Ho). split; [exact Ho|]. exists []. rewrite app_nil_r. symmetry. eauto. }
    pose proof H1 as H1'. rewrite <- xss_len in H1'. pose proof (cut_none _ _ (plain_log xss _ H1' Hxs) Hno) as Hlt.
    rewrite (ends_sum lg (length work) H1), Hn in Hlt. pose proof work_pos as Hpos.
    assert (G : forall l, (forall j, In j l -> j < length work) -> list_sum (map (fun k => ends (events_of k lg)) l) = length l).
    { induction l as [|j l IH]; intros Hl; simpl; [reflexivity|].
      destruct (lookup_lt_is_Some_2 work j) as [w Hwk]; [apply Hl; left; reflexivity|].
      rewrite (Hcomplete j w Hwk), IH by (intros i Hii; apply Hl; right; exact Hii).
      destruct (He w (in_work work j w Hwk)) as (pre & e & -> & Hpre & Hee). rewrite ends_app.
      assert (E0 : ends pre = 0). { clear - Hpre. unfold ends. induction Hpre as [|y l Hy _ IHl]; simpl; [reflexivity|]. destruct y; try discriminate; exact IHl. }
      unfold ends at 2. simpl. rewrite Hee, E0. simpl. lia. }
    rewrite G in Hlt; [rewrite seq_length in Hlt; lia|]. intros j Hj. apply in_seq in Hj. lia.
  Qed.

  Lemma c25_returned sch ps' s' x : sched_run sch (processes work fuel, idle d) = Some (ps', s') ->
    ps' !! length work = Some (Ret x) ->
    x = Waited (Good tt) /\ inbox (dat s') = [] /\ s_n (dat s') = 0%Z /\
    exists lg, order_of (map (emitted d) work) lg /\ received m d (dat s') (map snd lg).
  Proof.
    intros Hs Hx. destruct (c23_gen m d work fuel Hm Hr Hc Hw Hf sch ps' s' Hs) as (lg & taken & H1 & H2 & H3 & _ & H5 & _).
    destruct (H5 x Hx) as (-> & Hcut & Hrec). split; [reflexivity|]. rewrite Hi in *. simpl in H3, Hcut.
    destruct (split_log lg taken (inbox (dat s')) H3) as (lg1 & lg2 & -> & E1 & E2).
    assert (Hxs : forall k xs, xss !! k = Some xs -> ends_once xs /\ exists more, xs = events_of k (lg1 ++ lg2) ++ more).
    { intros k xs Hk. destruct (xss_ok k xs Hk) as (w & Hwk & -> & Ho). split; [exact Ho|]. apply (H2 k w Hwk). }
    rewrite <- xss_len in H1. pose proof (plain_log xss _ H1 Hxs) as Hpl.
    pose proof (cut_ends _ _ _ _ Hpl Hcut) as Hends. rewrite Hn in Hends. pose proof work_pos as Hpos.
    destruct (all_ends xss lg1 lg2 H1 Hxs) as [-> Hall].
    { rewrite E1, xss_len. lia. }
    simpl in E2. rewrite <- E2. split; [reflexivity|].
    rewrite app_nil_r in *. destruct Hrec as (g & G1 & G2 & G3 & G4).
    assert (Hp1 : Forall (fun x => plain x = true) taken) by (rewrite <- E1; exact Hpl).
    pose proof (log_msgs_n _ _ _ _ _ Hp1 G1) as En. split; [rewrite En, Hn; lia|].
    exists lg1. split.
    - split; [exact H1|]. intros i cs Hics. rewrite lookup_nth in Hics. apply Hall, Hics.
    - rewrite E1. exists g. auto.
  Qed.

  Lemma c25_progress sch ps' s' : sched_run sch (processes work fuel, idle d) = Some (ps', s') ->
    (exists j c, cstep j (ps', s') = Some c) \/
    (forall p, In p ps' -> exists x, p = Ret x) /\ lks s' = stdpp.base.empty.
  Proof.
    intros Hs. destruct (c23_gen m d work fuel Hm Hr Hc Hw Hf sch ps' s' Hs) as (lg & taken & H1 & H2 & H3 & H4 & H5 & H6 & _).
    destruct H6 as [H6|[Hall H6]]; [left; exact H6|right].
    assert (Hlen : length ps' = S (length work)).
    { assert (G : forall sch (c c' : config (C:=scmd) (D:=psys) presult), sched_run sch c = Some c' -> length (fst c') = length (fst c)).
      { clear. induction sch as [|i sch IH]; intros c c' H; simpl in H; [injection H as <-; reflexivity|].
        destruct (cstep i c) as [c1|] eqn:E; [|discriminate]. rewrite (IH _ _ H). unfold cstep in E.
        destruct (fst c !! i); [|discriminate]. destruct (pstep i _ (snd c)) as [[p1 s1]|]; [|discriminate].
        injection E as <-. simpl. apply insert_length. }
      specialize (G _ _ _ Hs). simpl in G. rewrite G. unfold processes. rewrite app_length, map_length. simpl. lia. }
    destruct H6 as [[[x Hx] Hl]|Hno].
    - split; [|exact Hl]. intros p Hp. apply elem_of_list_In, elem_of_list_lookup_1 in Hp. destruct Hp as [k Hk].
      assert (Hlt : k < S (length work)) by (rewrite <- Hlen; apply lookup_lt_is_Some_1; eauto).
      destruct (decide (k = length work)) as [->|Hnk]; [exists x; congruence|].
      destruct (lookup_lt_is_Some_2 work k) as [w Hwk]; [lia|]. destruct (Hall k w Hwk) as [y Hy]. exists y. congruence.
    - exfalso. rewrite Hi in Hno. simpl in Hno.
      assert (Hcomplete : forall k w, work !! k = Some w -> events_of k lg = emitted d w).
      { intros k w Hwk. destruct (Hall k w Hwk) as [y Hy]. apply (H4 k w y Hwk Hy). }
      exact (c25_cut lg H1 Hcomplete Hno).
  Qed.
End C25.

(** ** What a process that speaks in lines sends (C24) *)
Lemma seg_front p s ls r : no_break p -> segments s ls r ->
  segments (p ++ s) (match ls with [] => [] | l :: ls => (p ++ l) :: ls end) (match ls with [] => p ++ r | _ => r end).
Proof.
  intros Hp Hs. apply segments_iff in Hs. apply segments_iff. rewrite seg_nobreak, Hs by exact Hp. destruct ls; reflexivity.
Qed.

Lemma recorded_app xs is ys js : recorded xs is -> recorded ys js -> recorded (xs ++ ys) (is ++ js).
Proof.
  induction 1 as [|s ls xs is Hs H IH|e xs is H IH|e xs is H IH|x xs is Hx H IH]; intros Hy; simpl.
  - exact Hy.
  - rewrite <- app_assoc. constructor; auto.
  - constructor; auto.
  - constructor; auto.
  - constructor; auto.
Qed.

Lemma xput0 x a q : xput 0 x a q = (Good tt, a, q ++ [x]).
Proof. reflexivity. Qed.

Lemma x_new_line g g1 to : log_new_line g g1 -> no_break (pend g) ->
  pend g1 = [] /\ exists out is, done g1 = done g ++ is /\ recorded out is /\ Forall (fun x => is_data x = true) out /\
    forall q, xnew_line 0 false (mkam (pend g) false false to) q = (Good tt, mkam [] false false to, q ++ out).
Proof.
  intros H Hb. destruct H as [dn|dn p Hp]; simpl in *.
  - split; [reflexivity|]. exists [], []. rewrite app_nil_r. split; [reflexivity|]. split; [constructor|]. split; [constructor|].
    intros q. rewrite app_nil_r. reflexivity.
  - split; [reflexivity|]. exists [QStr (p ++ [LF])], [IStr p]. split; [reflexivity|]. split.
    { change [IStr p] with (map IStr [p] ++ []). constructor; [|constructor].
      apply (seg_front p [LF] [[]] []) in Hb; [rewrite app_nil_r in Hb; exact Hb|]. apply segments_iff. reflexivity. }
    split; [constructor; [reflexivity|constructor]|]. intros q.
    unfold xnew_line. cbn [mc mv]. destruct p as [|c p]; [congruence|]. reflexivity.
Qed.

Lemma x_write data g g1 to : whole_lines data -> log_write data g g1 -> no_break (pend g) ->
  no_break (pend g1) /\ exists out is n, done g1 = done g ++ is /\ recorded out is /\ Forall (fun x => is_data x = true) out /\
    forall q, xwrite 0 false data (mkam (pend g) false false to) q = (Good n, mkam (pend g1) false false to, q ++ out).
Proof.
  intros (ls & r & Hseg & Hw) H Hb. apply segments_iff in Hseg.
  destruct (seg_no_break data) as [_ Hr]. rewrite Hseg in Hr. simpl in Hr.
  unfold xwrite, xbody, has_break. cbn [mc mag mv mto]. rewrite Hseg. cbn [fst].
  destruct H as [dn p r' Hs|dn p l ls' r' Hs]; apply segments_iff in Hs; rewrite Hs in Hseg; injection Hseg as <- <-; simpl in Hb |- *.
  - apply segments_iff in Hs. inversion Hs; subst.
    split; [apply List.Forall_app; auto|]. exists [], [], (length r'). rewrite app_nil_r.
      split; [reflexivity|]. split; [constructor|]. split; [constructor|]. intros q. rewrite app_nil_r. reflexivity.
  - destruct Hw as [Hw| ->]; [discriminate|]. split; [constructor|].
    exists [QStr (p ++ data)], (IStr (p ++ l) :: map IStr ls'), (length data). split; [reflexivity|]. split.
    { change (IStr (p ++ l) :: map IStr ls') with (map IStr ((p ++ l) :: ls')). rewrite <- (app_nil_r (map IStr _)). constructor; [|constructor].
      apply segments_iff in Hs. apply (seg_front p _ _ _ Hb Hs). }
    split; [constructor; [reflexivity|constructor]|]. intros q. reflexivity.
Qed.

Definition call_is c a a' out : Prop := exists r, r <> Block /\ forall q, xcall 0 false c a q = (r, a', q ++ out).
Lemma call_run st b c a a' out q : stopped_of st b = false -> call_is c a a' out ->
  exists r b', stopped_of st b' = false /\ run 0 (lm_call c) (idle (mkmenv (mk b a) q 0 st)) = (r, idle (mkmenv (mk b' a') (q ++ out) 0 st)).
Proof.
  intros Hs (r & Hr & H). exists r, (if uses_lock c then il b else b). split; [destruct (uses_lock c); [rewrite stopped_il|]; exact Hs|].
  apply hok_runs; [|exact Hr]. apply lm_call_ok. rewrite Hs. apply H.
Qed.

Lemma says_run to st cs g g2 : says cs g g2 -> no_break (pend g) ->
  no_break (pend g2) /\ exists out is, done g2 = done g ++ is /\ recorded out is /\ Forall (fun x => is_data x = true) out /\
    forall b q, stopped_of st b = false -> exists rs b', stopped_of st b' = false /\
      runs 0 (map lm_call cs) (idle (mkmenv (mk b (mkam (pend g) false false to)) q 0 st)) =
      (rs, idle (mkmenv (mk b' (mkam (pend g2) false false to)) (q ++ out) 0 st)).
Proof.
  assert (Step : forall c cs g g1 g2 out1 is1,
    call_is c (mkam (pend g) false false to) (mkam (pend g1) false false to) out1 ->
    done g1 = done g ++ is1 -> recorded out1 is1 -> Forall (fun x => is_data x = true) out1 ->
    (no_break (pend g2) /\ exists out is, done g2 = done g1 ++ is /\ recorded out is /\ Forall (fun x => is_data x = true) out /\
      forall b q, stopped_of st b = false -> exists rs b', stopped_of st b' = false /\
      runs 0 (map lm_call cs) (idle (mkmenv (mk b (mkam (pend g1) false false to)) q 0 st)) =
      (rs, idle (mkmenv (mk b' (mkam (pend g2) false false to)) (q ++ out) 0 st))) ->
    no_break (pend g2) /\ exists out is, done g2 = done g ++ is /\ recorded out is /\ Forall (fun x => is_data x = true) out /\
      forall b q, stopped_of st b = false -> exists rs b', stopped_of st b' = false /\
      runs 0 (map lm_call (c :: cs)) (idle (mkmenv (mk b (mkam (pend g) false false to)) q 0 st)) =
      (rs, idle (mkmenv (mk b' (mkam (pend g2) false false to)) (q ++ out) 0 st))).
  { intros c cs0 g0 g1 g3 out1 is1 Hc Hd Hr Hda (Hb & out & is & Hd2 & Hr2 & Hda2 & Hrun). split; [exact Hb|].
    exists (out1 ++ out), (is1 ++ is). split; [rewrite Hd2, Hd, app_assoc; reflexivity|]. split; [apply recorded_app; assumption|].
    split; [apply List.Forall_app; auto|]. intros b q Hs. destruct (call_run st b c _ _ out1 q Hs Hc) as (r & b1 & Hs1 & E1).
    destruct (Hrun b1 (q ++ out1) Hs1) as (rs & b2 & Hs2 & E2). exists (r :: rs), b2. split; [exact Hs2|].
    cbn [map runs]. rewrite E1, E2, app_assoc. reflexivity. }
  induction 1 as [g|data cs g g1 g2 Hw Hl H IH|cs g g1 g2 Hl H IH|e cs g dn p g2 Hl H IH]; intros Hb.
  - split; [exact Hb|]. exists [], []. rewrite app_nil_r. repeat split; try constructor.
    intros b q Hs. exists [], b. split; [exact Hs|]. rewrite app_nil_r. reflexivity.
  - destruct (x_write data g g1 to Hw Hl Hb) as (Hb1 & out & is & n & H1 & H2 & H3 & H4).
    eapply (Step _ cs g g1); [|exact H1|exact H2|exact H3|apply IH, Hb1].
    exists (Good (MNat n)). split; [discriminate|]. intros q. cbn [xcall]. rewrite H4. reflexivity.
  - destruct (x_new_line g g1 to Hl Hb) as (Hb1 & out & is & H1 & H2 & H3 & H4).
    eapply (Step _ cs g g1); [|exact H1|exact H2|exact H3|apply IH; rewrite Hb1; constructor].
    exists (Good (munit tt)). split; [discriminate|]. intros q. cbn [xcall]. rewrite H4, Hb1. reflexivity.
  - destruct (x_new_line g _ to Hl Hb) as (Hb1 & out & is & H1 & H2 & H3 & H4). cbn [pend done] in *. subst p.
    eapply (Step _ cs g (mkslog (dn ++ [IMsg (gm_init (GMExc e))]) []) g2 (out ++ [QWarning (gm_init (GMExc e))]) (is ++ [IMsg (gm_init (GMExc e))]));
      [| |apply recorded_app; [exact H2|constructor; constructor]|apply List.Forall_app; split; [exact H3|constructor; [reflexivity|constructor]]|apply IH; constructor].
    + exists (Good (munit tt)). split; [discriminate|]. intros q. cbn [xcall]. unfold xsignal. cbn [mc]. rewrite H4. cbn [xseq xret].
      rewrite xput0. cbn [xseq pend]. rewrite app_assoc. reflexivity.
    + cbn [done]. rewrite H1, app_assoc. reflexivity.
Qed.

Lemma runs_snoc {C D} `{!Sem C D} {A} t (cs : list (prog C A)) c s : 
  runs t (cs ++ [c]) s = (fst (runs t cs s) ++ [fst (run t c (snd (runs t cs s)))], snd (run t c (snd (runs t cs s)))).
Proof.
  revert s. induction cs as [|p cs IH]; intros s; simpl.
  - destruct (run t c s). reflexivity.
  - destruct (run t p s) as [r s1]. rewrite IH. destruct (runs t cs s1) as [rs s2]. simpl. reflexivity.
Qed.

Lemma said_emitted m d i cs exc items : 1 <= m -> preach m d -> i < length (s_mirs d) -> ready d i ->
  said cs exc items -> ends_once (emitted d (i, cs ++ [CClose exc])) /\ recorded (emitted d (i, cs ++ [CClose exc])) items.
Proof.
  intros Hm Hr Hi (R1 & R2 & R3 & R4) (g & dn & p & Hs & Hl & ->).
  destruct (pi_mir m d (preach_pinv m d Hm Hr) i Hi) as (b & a & Eb & Ha & _). unfold emitted, alone. cbn [fst snd].
  unfold get_menv in R2. rewrite Eb in *. rewrite mk_closed in R1. rewrite stop_seen_mk in R2.
  change (held (mk b a)) with (mv a) in R4. change (m_aggr (mk b a)) with (mag a) in R3.
  destruct a as [v c ag to]. cbn [mc mag mv] in *. subst v c ag.
  destruct (says_run to (s_state d) cs slog0 g Hs ltac:(constructor)) as (Hb & out & is & Hd & Hrec & Hda & Hrun).
  destruct (Hrun b [] R2) as (rs & b' & Hs' & E). change (pend slog0) with (@nil N) in E.
  destruct (x_new_line g _ to Hl Hb) as (Hb1 & out1 & is1 & H1 & H2 & H3 & H4). cbn [pend done] in *. subst p.
  rewrite map_app. cbn [map]. rewrite runs_snoc, E. cbn [snd fst].
  set (sg := match exc with None => QClose | Some e => QError (gm_init (GMExc e)) end).
  destruct (call_run (s_state d) b' (CClose exc) (mkam (pend g) false false to) (mkam [] true false to) (out1 ++ [sg]) ([] ++ out) Hs') as (r & b2 & _ & E2).
  { exists (Good (munit tt)). split; [discriminate|]. intros q. cbn [xcall]. unfold xclose, xsignal. cbn [mc]. fold sg. rewrite H4. cbn [xseq].
    rewrite xput0. cbn [xseq xret mag mto]. rewrite app_assoc. reflexivity. }
  rewrite E2. cbn [snd dat e_q]. change (([] ++ out) ++ out1 ++ [sg]) with (out ++ out1 ++ [sg]). split.
  - exists (out ++ out1), sg. split; [apply app_assoc|]. split; [apply List.Forall_app; auto|]. subst sg. destruct exc; reflexivity.
  - simpl in Hd. rewrite H1, Hd. rewrite <- app_assoc. repeat apply recorded_app; auto. subst sg.
    destruct exc; [constructor; constructor|]. apply re_other; [simpl; auto|constructor].
Qed.

Definition upd_f {X} (f : nat -> X) k x : nat -> X := fun j => if Nat.eqb j k then x else f j.

Lemma events_tag {X} k j (l : list X) : events_of j (map (fun x => (k, x)) l) = if Nat.eqb j k then l else [].
Proof.
  unfold events_of. induction l as [|x l IH]; simpl; [destruct (Nat.eqb j k); reflexivity|].
  rewrite (Nat.eqb_sym k j). destruct (Nat.eqb j k) eqn:E; simpl; rewrite IH; reflexivity.
Qed.

Lemma recorded_cons x xs is : recorded (x :: xs) is -> exists h r, is = h ++ r /\ recorded xs r /\
  forall ys js, recorded ys js -> recorded (x :: ys) (h ++ js).
Proof.
  inversion 1 as [|s ls xs' is' Hs H'|e xs' is' H'|e xs' is' H'|y xs' is' Hy H']; subst.
  - exists (map IStr ls), is'. split; [reflexivity|]. split; [exact H'|]. intros. constructor; auto.
  - exists [IMsg e], is'. split; [reflexivity|]. split; [exact H'|]. intros. constructor; auto.
  - exists [IMsg e], is'. split; [reflexivity|]. split; [exact H'|]. intros. constructor; auto.
  - exists [], is. split; [reflexivity|]. split; [exact H'|]. intros. constructor; auto.
Qed.

Lemma recorded_merge (P : nat -> Prop) (lg : list (nat * msg)) : forall f : nat -> list item,
  Forall (fun x => P (fst x)) lg -> (forall k, recorded (events_of k lg) (f k)) ->
  exists li, Forall (fun x => P (fst x)) li /\ (forall k, events_of k li = f k) /\ recorded (map snd lg) (map snd li).
Proof.
  induction lg as [|[k x] lg IH]; intros f HP H.
  - exists []. split; [constructor|]. split; [|constructor]. intros k. specialize (H k). inversion H. reflexivity.
  - inversion HP as [|y l HPk HP0]; subst. clear HP. rename HP0 into HP.
    pose proof (H k) as Hk. change ((k, x) :: lg) with ([(k, x)] ++ lg) in Hk. rewrite events_of_app in Hk.
    change [(k, x)] with (map (fun y => (k, y)) [x]) in Hk. rewrite events_tag, Nat.eqb_refl in Hk. simpl in Hk.
    destruct (recorded_cons _ _ _ Hk) as (h & r & E & Hr & Hput).
    destruct (IH (upd_f f k r) HP) as (li & H1 & H2 & H3).
    { intros j. unfold upd_f. destruct (Nat.eqb j k) eqn:Ej; [apply Nat.eqb_eq in Ej; subst; exact Hr|].
      specialize (H j). change ((k, x) :: lg) with (map (fun y => (k, y)) [x] ++ lg) in H. rewrite events_of_app, events_tag, Ej in H. exact H. }
    exists (map (fun y => (k, y)) h ++ li). split; [|split].
    + apply List.Forall_app. split; [|exact H1]. apply List.Forall_forall. intros y Hy. apply in_map_iff in Hy. destruct Hy as (z & <- & _). exact HPk.
    + intros j. rewrite events_of_app, events_tag, H2. unfold upd_f. destruct (Nat.eqb j k) eqn:Ej; [|reflexivity].
      apply Nat.eqb_eq in Ej. subst. symmetry. exact E.
    + cbn [map snd]. rewrite map_app, map_map. simpl. rewrite map_id. apply Hput, H3.
Qed.

Section C24.
  Variables (m : nat) (d : psys) (work : list (nat * list mcall)) (fuel : nat) (itemss : list (list item)).
  Hypotheses (Hm : 1 <= m) (Hr : preach m d) (Hc : main_closed d = false)
             (Hw : work_ok d work) (Hf : fuel_ok d work fuel)
             (Hi : inbox d = []) (Hn : s_n d = Z.of_nat (length work)) (Hne : work <> [])
             (Hcur : current d = []) (Hsay : Forall2 (line_process d) work itemss).

  Lemma line_emits w items : In w work -> line_process d w items -> ends_once (emitted d w) /\ recorded (emitted d w) items.
  Proof.
    intros Hin (cs & exc & E & Hrd & Hsd). destruct w as [i cs0]. simpl in *. subst cs0.
    eapply said_emitted; eauto. apply (proj2 Hw _ Hin).
  Qed.
  Lemma line_ends w : In w work -> ends_once (emitted d w).
  Proof.
    intros Hin. apply elem_of_list_In, elem_of_list_lookup_1 in Hin as Hk. destruct Hk as [k Hk].
    destruct (Forall2_lookup_l _ _ _ _ _ Hsay Hk) as (items & _ & H). apply (line_emits w items (proj1 (elem_of_list_In _ _) Hin) H).
  Qed.

  Lemma c24 sch ps' s' x : sched_run sch (processes work fuel, idle d) = Some (ps', s') ->
    ps' !! length work = Some (Ret x) ->
    exists li, order_of itemss li /\ records (dat s') = last_items m (records d ++ map snd li) /\ current (dat s') = [].
  Proof.
    intros Hs Hx. destruct (c25_returned m d work fuel Hm Hr Hc Hw Hf Hi Hn Hne line_ends sch ps' s' x Hs Hx) as (_ & _ & _ & lg & [Hb Ho] & Hrec).
    pose proof (Forall2_length _ _ _ Hsay) as Hlen. rewrite map_length in Hb.
    destruct (recorded_merge (fun k => k < length work) lg (fun k => match itemss !! k with Some l => l | None => [] end) Hb) as (li & L1 & L2 & L3).
    { intros k. destruct (work !! k) as [w|] eqn:Ek.
      - destruct (Forall2_lookup_l _ _ _ _ _ Hsay Ek) as (items & Ei & H). rewrite Ei.
        rewrite (Ho k (emitted d w)) by (rewrite lookup_nth, lookup_map, Ek; reflexivity).
        apply (line_emits w items); [|exact H]. apply elem_of_list_In, elem_of_list_lookup_2 with k. exact Ek.
      - rewrite lookup_ge_None_2 by (rewrite <- Hlen; apply lookup_ge_None_1; exact Ek).
        replace (events_of k lg) with (@nil msg); [constructor|]. apply lookup_ge_None_1 in Ek.
        clear - Hb Ek. unfold events_of. induction Hb as [|[j y] l Hj _ IH]; simpl; [reflexivity|].
        destruct (Nat.eqb j k) eqn:E; [|exact IH]. apply Nat.eqb_eq in E. simpl in Hj. lia. }
    exists li. split.
    - split; [rewrite <- Hlen; exact L1|]. intros i cs Hic. rewrite L2. rewrite lookup_nth in Hic. rewrite Hic. reflexivity.
    - destruct Hrec as (g & G1 & G2 & G3 & _). rewrite Hcur in G1. apply (recorded_log _ _ L3) in G1. subst g.
      auto.
  Qed.
End C24.

Lemma c25_ends m d work fuel : 1 <= m -> preach m d -> main_closed d = false -> work_ok d work -> fuel_ok d work fuel ->
  inbox d = [] -> s_n d = Z.of_nat (length work) -> work <> [] -> (forall w, In w work -> ends_once (emitted d w)) ->
  forall sch ps' s', sched_run sch (processes work fuel, idle d) = Some (ps', s') ->
  (forall j, cstep j (ps', s') = None) ->
  Forall (fun p => exists x, p = Ret x) ps' /\ lks s' = stdpp.base.empty.
Proof.
  intros Hm Hr Hc Hw Hf Hi Hn Hne He sch ps' s' Hs Hno.
  destruct (c25_progress m d work fuel Hm Hr Hc Hw Hf Hi Hn Hne He sch ps' s' Hs) as [(j & c & E)|[H1 H2]].
  - rewrite Hno in E. discriminate.
  - split; [apply List.Forall_forall; exact H1|exact H2].
Qed.

(** ** Computing concrete executions *)
Lemma seg_by s ls r : seg s = (ls, r) -> segments s ls r.
Proof. apply segments_iff. Qed.

Definition waited_ok (p : option (prog scmd presult)) : bool :=
  match p with Some (Ret (Waited (Good tt))) => true | _ => false end.
Lemma drains_witness is (c : config (C:=scmd) (D:=psys) presult) k items :
  waited_ok (fst (plan is c) !! k) = true -> records (dat (snd (plan is c))) = items ->
  exists sch ps' s', sched_run sch c = Some (ps', s') /\ ps' !! k = Some (Ret (Waited (Good tt))) /\ records (dat s') = items.
Proof.
  intros H1 H2. destruct (plan_sched is c) as [sch Hs]. exists sch, (fst (plan is c)), (snd (plan is c)).
  split; [rewrite Hs; destruct (plan is c); reflexivity|]. split; [|exact H2].
  destruct (_ !! k) as [[[|[[]| |]]| |]|]; try discriminate. reflexivity.
Qed.

Lemma c23 m d work fuel sch ps' s' : 1 <= m -> preach m d -> main_closed d = false -> work_ok d work -> fuel_ok d work fuel ->
  sched_run sch (processes work fuel, idle d) = Some (ps', s') ->
  exists lg taken,
    Forall (fun x => fst x < length work) lg /\
    (forall k w, work !! k = Some w -> exists more, emitted d w = events_of k lg ++ more) /\
    inbox d ++ map snd lg = taken ++ inbox (dat s') /\
    (forall k w x, work !! k = Some w -> ps' !! k = Some (Ret x) ->
       x = Produced (fst (alone d w)) /\ events_of k lg = emitted d w /\
       mir_at (dat s') (fst w) = e_mir (dat (snd (alone d w)))) /\
    (forall x, ps' !! length work = Some (Ret x) ->
       x = Waited (Good tt) /\ wait_cut (inbox d ++ map snd lg) (s_n d) = Some (taken, inbox (dat s')) /\
       received m d (dat s') taken).
Proof.
  intros Hm Hr Hc Hw Hf Hs. destruct (c23_gen m d work fuel Hm Hr Hc Hw Hf sch ps' s' Hs) as (lg & taken & H1 & H2 & H3 & H4 & H5 & _).
  exists lg, taken. auto.
Qed.
