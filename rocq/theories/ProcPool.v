(** * ProcPool: any number of processes writing to their mirrors while the main process receives

    A pool of threads of the whole system: thread [k] executes a program of mirror [i_k]
    (different mirrors, same queue), the last thread a program of the main buffer.  The
    only object they share is the queue, so every interleaving acts like: each producer
    alone, its messages merged into the queue, and the main program alone on the merged
    sequence.  [inv] is that statement for a moment of the execution. *)
From stdpp Require Import gmap.
From Coq Require Import List NArith ZArith Bool Arith Lia.
From Verif Require Import PyStr Prog ProgFacts PyIO Base Spec SpecFacts LineBuf Locks Held Proc ProcSpec ProcMain ProcSeq.
Import ListNotations.
Local Open Scope nat_scope.

(** All acquired locks satisfy [P], whatever the commands answer. *)
Section Acqs.
  Context {C : Type -> Type} (P : nat -> Prop).
  Fixpoint acqs {A} (p : prog C A) : Prop :=
    match p with
    | Ret _ | Raise _ => True
    | Act c k h => match c with Acq l _ => P l | _ => True end /\ (forall x, acqs (k x)) /\ (forall e, acqs (h e))
    end.
  Lemma acqs_bind {A B} (p : prog C A) (f : A -> prog C B) : acqs p -> (forall a, acqs (f a)) -> acqs (bind p f).
  Proof. induction p as [a|e|X c k IHk h IHh]; simpl; auto. intros (H1 & H2 & H3) Hf. auto. Qed.
  Lemma acqs_attempt {A} (p : prog C A) : acqs p -> acqs (attempt p).
  Proof. induction p as [a|e|X c k IHk h IHh]; simpl; auto. intros (H1 & H2 & H3). auto. Qed.
  Lemma acqs_try {A} (p : prog C A) fin : acqs p -> acqs fin -> acqs (try_finally p fin).
  Proof.
    intros Hp Hf. induction p as [a|e|X c k IHk h IHh]; simpl.
    - apply acqs_bind; simpl; auto.
    - apply acqs_bind; simpl; auto.
    - destruct Hp as (H1 & H2 & H3). auto.
  Qed.
  Lemma acqs_with {A} l m (p : prog C A) : P l -> acqs p -> acqs (with_lock l m p).
  Proof. intros Hl Hp. simpl. split; [exact Hl|]. split; [|auto]. intros _. apply acqs_try; [exact Hp|]. simpl. auto. Qed.
  Lemma acqs_op {X} (c : C X) : acqs (op c).
  Proof. simpl. auto. Qed.
  Lemma acqs_thread {A} (cs : list (prog C A)) : Forall acqs cs -> forall rs, acqs (thread_from rs cs).
  Proof. induction 1 as [|c cs Hc _ IH]; intros rs; simpl; [auto|]. apply acqs_bind; [apply acqs_attempt, Hc|auto]. Qed.
End Acqs.

(** Commands of the main process that only use the main buffer and take from the queue. *)
Definition main_cmd {X} (c : pcmd X) : bool :=
  match c with PB _ | PN | PSetN _ | PMaxlen | PGet => true | _ => false end.
Fixpoint main_only {A} (p : prog pcmd A) : Prop :=
  match p with
  | Ret _ | Raise _ => True
  | Act c k h => match c with Op c => main_cmd c = true | _ => True end /\
                 (forall x, main_only (k x)) /\ (forall e, main_only (h e))
  end.
Lemma main_only_bind {A B} (p : prog pcmd A) (f : A -> prog pcmd B) :
  main_only p -> (forall a, main_only (f a)) -> main_only (bind p f).
Proof. induction p as [a|e|X c k IHk h IHh]; simpl; auto. intros (H1 & H2 & H3) Hf. auto. Qed.
Lemma main_only_attempt {A} (p : prog pcmd A) : main_only p -> main_only (attempt p).
Proof. induction p as [a|e|X c k IHk h IHh]; simpl; auto. intros (H1 & H2 & H3). auto. Qed.
Lemma main_only_try {A} (p : prog pcmd A) fin : main_only p -> main_only fin -> main_only (try_finally p fin).
Proof.
  intros Hp Hf. induction p as [a|e|X c k IHk h IHh]; simpl.
  - apply main_only_bind; simpl; auto.
  - apply main_only_bind; simpl; auto.
  - destruct Hp as (H1 & H2 & H3). auto.
Qed.
Lemma main_only_with {A} l m (p : prog pcmd A) : main_only p -> main_only (with_lock l m p).
Proof. intros Hp. simpl. split; [auto|]. split; [|auto]. intros _. apply main_only_try; [exact Hp|]. simpl. auto. Qed.
Lemma main_only_on_main {A} (p : prog bcmd A) : main_only (on_main p).
Proof. induction p as [a|e|X c k IHk h IHh]; simpl; auto. repeat split; auto. destruct c; simpl; auto. Qed.

(** A command of a mirror does not depend on the content of an unlimited queue, and at most
    adds to it. *)
Definition framed {X} (c : mcmd X) (m : mir) (st : option bool) : Prop :=
  exists r m' out, r <> Block /\ m_q m' = m_q m /\
    forall q, mexec c (mkmenv m q 0 st) = (r, mkmenv m' (q ++ out) 0 st).
Lemma framed_intro {X} (c : mcmd X) m st r m' out :
  (forall q, mexec c (mkmenv m q 0 st) = (r, mkmenv m' (q ++ out) 0 st)) -> r <> Block -> m_q m' = m_q m -> framed c m st.
Proof. intros. exists r, m', out. auto. Qed.
Lemma framed_nil {X} (c : mcmd X) m st r m' :
  (forall q, mexec c (mkmenv m q 0 st) = (r, mkmenv m' q 0 st)) -> r <> Block -> m_q m' = m_q m -> framed c m st.
Proof. intros. apply (framed_intro c m st r m' []); auto. intros q. rewrite app_nil_r. auto. Qed.
Lemma mexec_frame {X} (c : mcmd X) m st : framed c m st.
Proof.
  destruct c;
    try (eapply framed_nil; [intros q; simpl; reflexivity|discriminate|reflexivity]);
    try (eapply framed_intro; [intros q; unfold mexec, q_full; simpl; reflexivity|discriminate|reflexivity]);
    (let f := lazymatch goal with
              | |- framed MClosed _ _ => constr:(sio_closed) | |- framed MTell _ _ => constr:(sio_tell)
              | |- framed MGetvalue _ _ => constr:(sio_getvalue) | |- framed (MWrite ?s) _ _ => constr:(sio_write s)
              | |- framed MSeek0 _ _ => constr:(sio_seek0) | |- framed MTruncate0 _ _ => constr:(sio_truncate0)
              | |- framed MClose _ _ => constr:(sio_close) | |- framed MFlush _ _ => constr:(sio_flush)
              | |- framed (MRead ?z) _ _ => constr:(sio_read z) end in
         destruct (f (m_buf m)) as [r b] eqn:E;
         eapply (framed_nil _ m st r); [intros q; unfold mexec, on_buf; cbn [e_mir e_q e_qmax e_state]; rewrite E; reflexivity| |reflexivity];
         intros ->; revert E;
         unfold sio_closed, sio_tell, sio_getvalue, sio_write, sio_seek0, sio_truncate0, sio_close, sio_flush, sio_read, sio_guard;
         repeat match goal with |- context [if ?b then _ else _] => destruct b end; discriminate).
Qed.

(** Messages of producer [k] in a log of (producer, message). *)
Lemma events_of_app {X} k (lg1 lg2 : list (nat * X)) : events_of k (lg1 ++ lg2) = events_of k lg1 ++ events_of k lg2.
Proof. unfold events_of. rewrite List.filter_app, map_app. reflexivity. Qed.
Lemma events_of_same {X} k (out : list X) : events_of k (map (pair k) out) = out.
Proof.
  unfold events_of. induction out as [|x out IH]; [reflexivity|]. simpl.
  rewrite Nat.eqb_refl. simpl. f_equal. exact IH.
Qed.
Lemma events_of_other {X} k k' (out : list X) : k <> k' -> events_of k (map (pair k') out) = [].
Proof.
  intros H. unfold events_of. induction out as [|x out IH]; [reflexivity|]. simpl.
  rewrite (proj2 (Nat.eqb_neq k' k)) by congruence. exact IH.
Qed.

(** A thread that cannot acquire an allowed lock waits for another thread that holds it. *)
Lemma acq_block held (k : locks) t l m k' :
  lock_inv held k -> may_acq (held t) l m -> lock_acq (reent l) t l m k = (Block, k') ->
  exists o, o <> t /\ In l (held o).
Proof.
  intros Hl [Hsh Hm] E. unfold lock_acq in E. pose proof (Hl l) as Hll.
  destruct (k !! l) as [[o n|os]|]; [| |destruct m; discriminate].
  - destruct Hll as (H1 & H2 & H3). exists o. split; [|apply cnt_pos_In; lia]. intros ->.
    assert (Hin : In l (held t)) by (apply cnt_pos_In; lia).
    destruct Hm as [Hlt|(-> & Hre & _)].
    + rewrite List.Forall_forall in Hlt. specialize (Hlt l Hin). lia.
    + rewrite Hre, Nat.eqb_refl in E. discriminate.
  - destruct m; [|discriminate]. destruct Hll as (H0 & H1 & H2). destruct os as [|y os]; [congruence|].
    exists y. assert (Hin : In l (held y)). { apply cnt_pos_In. rewrite H2, cnt_cons_eq. lia. }
    split; [|exact Hin]. intros ->. destruct Hm as [Hlt|(_ & Hre & _)]; [|congruence].
    rewrite List.Forall_forall in Hlt. specialize (Hlt l Hin). lia.
Qed.

Section Pool.
  Context {A : Type}.
  Variables (d0 : psys) (ws : list (nat * prog mcmd A)) (main0 : prog pcmd A)
            (fin : nat -> outcome A * menv).
  Notation q0 := (cur_q d0).
  Notation N := (length ws).
  Hypothesis ws_nodup : List.NoDup (map fst ws).
  Hypothesis ws_ok : forall k w, ws !! k = Some w ->
    fst w < length (s_mirs d0) /\ m_q (mir_at d0 (fst w)) = q0 /\ acqs (fun l => 4 <= l) (snd w) /\
    hrun (snd w) (mkmenv (mir_at d0 (fst w)) [] 0 (s_state d0)) [] = Some (fst (fin k), snd (fin k), []).
  Hypothesis q0_ok : q0 < length (s_qs d0).
  Hypothesis main_ok : main_only main0.
  Hypothesis main_acqs : acqs (fun l => l < 4) main0.
  Hypothesis main_disc' : forall q, exists r d', hok main0
    (mkps (s_mirs d0) (set_nth q0 q (s_qs d0)) (s_state d0) (s_main d0) (s_n d0) (s_cur d0) (s_maxlen d0)) [] r d'.

  Definition dst (mirs : list mir) (q : list msg) (b : lbuf) (n : Z) : psys :=
    mkps mirs (set_nth q0 q (s_qs d0)) (s_state d0) b n (s_cur d0) (s_maxlen d0).
  Lemma main_disc q : hrun main0 (dst (s_mirs d0) q (s_main d0) (s_n d0)) [] <> None.
  Proof. destruct (main_disc' q) as (r & d' & hs & E & _). unfold dst. rewrite E. discriminate. Qed.
  Definition okm (mirs : list mir) : Prop :=
    length mirs = length (s_mirs d0) /\
    forall i, m_q (nth i mirs mir0) = m_q (nth i (s_mirs d0) mir0).

  Lemma dst_curq mirs q b n : okm mirs -> cur_q (dst mirs q b n) = q0.
  Proof. intros [_ H]. unfold cur_q, mir_at, dst. simpl. apply H. Qed.
  Lemma dst_queue mirs q b n : okm mirs -> nth (cur_q (dst mirs q b n)) (s_qs (dst mirs q b n)) [] = q.
  Proof. intros H. rewrite dst_curq by exact H. simpl. apply nth_set_nth, q0_ok. Qed.

  Lemma okm_set mirs i m : okm mirs -> m_q m = m_q (nth i mirs mir0) -> okm (set_nth i m mirs).
  Proof.
    intros [H1 H2] Hq. split; [rewrite set_nth_length; exact H1|]. intros j. rewrite <- H2.
    destruct (Nat.eq_dec j i) as [->|Hne]; [|rewrite nth_set_nth_ne by exact Hne; reflexivity].
    destruct (le_lt_dec (length mirs) i) as [Hle|Hlt].
    - rewrite !nth_overflow by (rewrite ?set_nth_length; exact Hle). reflexivity.
    - rewrite nth_set_nth by exact Hlt. exact Hq.
  Qed.

  (** One command of a producer. *)
  Lemma mir_step {X} i (c : mcmd X) mirs q b n : okm mirs -> i < length (s_mirs d0) -> m_q (mir_at d0 i) = q0 ->
    exists r m' out, r <> Block /\ m_q m' = m_q (nth i mirs mir0) /\
      (forall q', mexec c (mkmenv (nth i mirs mir0) q' 0 (s_state d0)) = (r, mkmenv m' (q' ++ out) 0 (s_state d0))) /\
      sexec (SM i c) (dst mirs q b n) = (r, dst (set_nth i m' mirs) (q ++ out) b n).
  Proof.
    intros Ho Hi Hq. destruct (mexec_frame c (nth i mirs mir0) (s_state d0)) as (r & m' & out & Hb & Hm & He).
    exists r, m', out. repeat split; auto.
    assert (Eq : m_q (nth i mirs mir0) = q0) by (rewrite (proj2 Ho); exact Hq).
    unfold sexec, get_menv, mir_at. simpl s_mirs. rewrite Eq. simpl s_qs. rewrite nth_set_nth by exact q0_ok. simpl s_state.
    rewrite He. unfold put_menv, mir_at. simpl. rewrite Eq, set_nth_set_nth. reflexivity.
  Qed.

  (** One command of the main process. *)
  Lemma main_step {X} (c : pcmd X) mirs q b n r d1 : okm mirs -> main_cmd c = true ->
    pexec c (dst mirs q b n) = (r, d1) ->
    (r = Block /\ q = []) \/
    (r <> Block /\ exists front q' b' n', d1 = dst mirs q' b' n' /\ q = front ++ q' /\
       forall mirs' fut, okm mirs' -> pexec c (dst mirs' (q ++ fut) b n) = (r, dst mirs' (q' ++ fut) b' n')).
  Proof.
    intros Ho Hc He. destruct c as [X c| |z| | | | | | |]; try discriminate; simpl in He.
    - destruct (bexec c b) as [r1 b1] eqn:E. injection He as <- <-. right.
      assert (Hnb : r1 <> Block).
      { intros ->. revert E. destruct c; simpl;
          unfold on_file, on_dq, sio_closed, sio_tell, sio_getvalue, sio_write, sio_seek0, sio_truncate0, sio_close, sio_flush, sio_read, sio_truth, sio_guard;
          simpl; repeat (match goal with |- context [if ?b then _ else _] => destruct b end); simpl; try discriminate.
        unfold dq_popleft. destruct (dq (storage b)); discriminate. }
      split; [exact Hnb|]. exists [], q, b1, n. repeat split. intros mirs' fut _. simpl. rewrite E. reflexivity.
    - injection He as <- <-. right. split; [discriminate|]. exists [], q, b, n. auto.
    - injection He as <- <-. right. split; [discriminate|]. exists [], q, b, z. auto.
    - injection He as <- <-. right. split; [discriminate|]. exists [], q, b, n. auto.
    - pose proof (dst_queue mirs q b n Ho) as Eq. pose proof (dst_curq mirs q b n Ho) as Ec. simpl in Eq, He. rewrite Eq in He.
      destruct q as [|x q']; injection He as <- <-; [left; auto|right]. split; [discriminate|].
      exists [x], q', b, n. split; [|split; [reflexivity|]].
      + rewrite Ec. unfold dst. simpl. rewrite set_nth_set_nth. reflexivity.
      + intros mirs' fut Ho'. pose proof (dst_queue mirs' ((x :: q') ++ fut) b n Ho') as Eq'.
        simpl in Eq'. simpl. rewrite Eq'. unfold dst.
        pose proof (dst_curq mirs' ((x :: q') ++ fut) b n Ho') as Ec'. unfold dst in Ec'. simpl in Ec'.
        rewrite Ec'. simpl. rewrite set_nth_set_nth. reflexivity.
  Qed.

  Record inv (ps : list (prog scmd A)) (s : st psys) (lg : list (nat * msg))
             (held : nat -> list nat) (qs : list (prog mcmd A)) (qm : prog pcmd A)
             (mirs : list mir) (q : list msg) (b : lbuf) (n : Z) (front : list msg) : Prop := mkinv {
    in_len : length qs = N;
    in_plen : length ps = S N;
    in_ps : forall k w p, ws !! k = Some w -> qs !! k = Some p -> ps !! k = Some (sys_m (fst w) p);
    in_pm : ps !! N = Some (sys_p qm);
    in_dat : dat s = dst mirs q b n;
    in_okm : okm mirs;
    in_frame : forall i, ~ In i (map fst ws) -> nth i mirs mir0 = nth i (s_mirs d0) mir0;
    in_lock : lock_inv held (lks s);
    in_out : forall j, N < j -> held j = [];
    in_run : forall k w p, ws !! k = Some w -> qs !! k = Some p ->
      hrun p (mkmenv (nth (fst w) mirs mir0) (events_of k lg) 0 (s_state d0)) (held k) = Some (fst (fin k), snd (fin k), []);
    in_acq : forall k p, qs !! k = Some p -> acqs (fun l => 4 <= l) p /\ Forall (fun l => 4 <= l) (held k);
    in_lg : Forall (fun x => fst x < N) lg;
    in_front : inbox d0 ++ map snd lg = front ++ q;
    in_main : forall fut, hrun qm (dst (s_mirs d0) (q ++ fut) b n) (held N) =
                          hrun main0 (dst (s_mirs d0) (inbox d0 ++ map snd lg ++ fut) (s_main d0) (s_n d0)) [];
    in_monly : main_only qm;
    in_macq : acqs (fun l => l < 4) qm /\ Forall (fun l => l < 4) (held N)
  }.

  Definition start : list (prog scmd A) := map (fun w => sys_m (fst w) (snd w)) ws ++ [sys_p main0].

  Lemma okm_0 : okm (s_mirs d0).
  Proof. split; auto. Qed.
  Lemma dst_0 : dst (s_mirs d0) (inbox d0) (s_main d0) (s_n d0) = d0.
  Proof. unfold dst, inbox, cur_q. rewrite set_nth_same by exact q0_ok. destruct d0; reflexivity. Qed.

  Lemma inv_init : inv start (mkst d0 stdpp.base.empty) [] (fun _ => []) (map snd ws) main0 (s_mirs d0) (inbox d0) (s_main d0) (s_n d0) [].
  Proof.
    assert (Hl : forall k w p, ws !! k = Some w -> map snd ws !! k = Some p -> p = snd w).
    { intros k w p Hw Hp. rewrite list_lookup_fmap, Hw in Hp. simpl in Hp. congruence. }
    constructor; auto.
    - apply map_length.
    - unfold start. rewrite app_length, map_length. simpl. lia.
    - intros k w p Hw Hp. rewrite (Hl k w p Hw Hp). unfold start. rewrite lookup_app_l.
      + rewrite list_lookup_fmap, Hw. reflexivity.
      + rewrite map_length. apply lookup_lt_is_Some_1. eauto.
    - unfold start. rewrite lookup_app_r by (rewrite map_length; lia). rewrite map_length, Nat.sub_diag. reflexivity.
    - simpl. symmetry. apply dst_0.
    - apply okm_0.
    - intros l. simpl. rewrite lookup_empty. reflexivity.
    - intros k w p Hw Hp. rewrite (Hl k w p Hw Hp). destruct (ws_ok k w Hw) as (_ & _ & _ & H). exact H.
    - intros k p Hp. rewrite list_lookup_fmap in Hp. destruct (ws !! k) as [w|] eqn:Hw; [|discriminate].
      simpl in Hp. injection Hp as <-. destruct (ws_ok k w Hw) as (_ & _ & H & _). split; [exact H|constructor].
    - simpl. apply app_nil_r.
  Qed.

  Lemma sys_p_act {X} (c : cmd pcmd X) k h : sys_p (A := A) (Act c k h) = Act (lift_cmd (fun X c => SP c) c) (fun x => sys_p (k x)) (fun e => sys_p (h e)).
  Proof. reflexivity. Qed.
  Lemma ws_qs k qs : length qs = N -> k < N -> exists w (p : prog mcmd A), ws !! k = Some w /\ qs !! k = Some p.
  Proof.
    intros Hl Hk. destruct (lookup_lt_is_Some_2 ws k Hk) as [w Hw].
    destruct (lookup_lt_is_Some_2 qs k) as [p Hp]; [lia|]. eauto.
  Qed.
  Lemma ws_inj k k' w w' : ws !! k = Some w -> ws !! k' = Some w' -> fst w = fst w' -> k = k'.
  Proof.
    intros H H' E. assert (G : forall l : list nat, List.NoDup l -> forall i j x, l !! i = Some x -> l !! j = Some x -> i = j).
    { intros l Hn i j x Hi Hj. apply (NoDup_lookup l i j x); auto. apply NoDup_ListNoDup. exact Hn. }
    apply (G (map fst ws) ws_nodup k k' (fst w)); rewrite list_lookup_fmap.
    - rewrite H. reflexivity.
    - rewrite H'. simpl. rewrite E. reflexivity.
  Qed.

  Lemma upd_eq held i hs : upd held i hs i = hs.
  Proof. unfold upd. rewrite Nat.eqb_refl. reflexivity. Qed.
  Lemma upd_ne held i hs j : j <> i -> upd held i hs j = held j.
  Proof. intros H. unfold upd. rewrite (proj2 (Nat.eqb_neq j i)) by exact H. reflexivity. Qed.

  (** A lock command of producer [k]: only its program and held locks change. *)
  Lemma inv_prod_lock ps s lg held qs qm mirs q b n front k w p' hs' lk :
    inv ps s lg held qs qm mirs q b n front ->
    ws !! k = Some w -> k < N ->
    hrun p' (mkmenv (nth (fst w) mirs mir0) (events_of k lg) 0 (s_state d0)) hs' = Some (fst (fin k), snd (fin k), []) ->
    acqs (fun l => 4 <= l) p' -> Forall (fun l => 4 <= l) hs' -> lock_inv (upd held k hs') lk ->
    inv (<[k := sys_m (fst w) p']> ps) (mkst (dat s) lk) lg (upd held k hs') (<[k := p']> qs) qm mirs q b n front.
  Proof.
    intros I Hw Hk Hr Ha Hf Hl. destruct I.
    constructor; auto; try (rewrite insert_length; assumption).
    - intros k1 w1 p1 Hw1 Hp1. destruct (decide (k1 = k)) as [->|Hne].
      + rewrite list_lookup_insert in Hp1 by lia. injection Hp1 as <-. rewrite Hw in Hw1. injection Hw1 as <-.
        apply list_lookup_insert. lia.
      + rewrite list_lookup_insert_ne in Hp1 by congruence. rewrite list_lookup_insert_ne by congruence. eauto.
    - rewrite list_lookup_insert_ne by lia. assumption.
    - intros j Hj. rewrite upd_ne by lia. auto.
    - intros k1 w1 p1 Hw1 Hp1. destruct (decide (k1 = k)) as [->|Hne].
      + rewrite list_lookup_insert in Hp1 by lia. injection Hp1 as <-. rewrite Hw in Hw1. injection Hw1 as <-.
        rewrite upd_eq. exact Hr.
      + rewrite list_lookup_insert_ne in Hp1 by congruence. rewrite upd_ne by exact Hne. eauto.
    - intros k1 p1 Hp1. destruct (decide (k1 = k)) as [->|Hne].
      + rewrite list_lookup_insert in Hp1 by lia. injection Hp1 as <-. rewrite upd_eq. auto.
      + rewrite list_lookup_insert_ne in Hp1 by congruence. rewrite upd_ne by exact Hne. eauto.
    - intros fut. rewrite upd_ne by lia. auto.
    - rewrite upd_ne by lia. assumption.
  Qed.

  (** Any other command of producer [k]. *)
  Lemma inv_prod_op ps s lg held qs qm mirs q b n front k w p' m' out :
    inv ps s lg held qs qm mirs q b n front ->
    ws !! k = Some w -> k < N -> m_q m' = m_q (nth (fst w) mirs mir0) ->
    hrun p' (mkmenv m' (events_of k lg ++ out) 0 (s_state d0)) (held k) = Some (fst (fin k), snd (fin k), []) ->
    acqs (fun l => 4 <= l) p' ->
    inv (<[k := sys_m (fst w) p']> ps) (mkst (dst (set_nth (fst w) m' mirs) (q ++ out) b n) (lks s))
        (lg ++ map (pair k) out) held (<[k := p']> qs) qm (set_nth (fst w) m' mirs) (q ++ out) b n front.
  Proof.
    intros I Hw Hk Hq Hr Ha. destruct I. pose proof (ws_ok k w Hw) as (Hi & Hmq & _).
    constructor; auto; try (rewrite insert_length; assumption).
    - intros k1 w1 p1 Hw1 Hp1. destruct (decide (k1 = k)) as [->|Hne].
      + rewrite list_lookup_insert in Hp1 by lia. injection Hp1 as <-. rewrite Hw in Hw1. injection Hw1 as <-.
        apply list_lookup_insert. lia.
      + rewrite list_lookup_insert_ne in Hp1 by congruence. rewrite list_lookup_insert_ne by congruence. eauto.
    - rewrite list_lookup_insert_ne by lia. assumption.
    - apply okm_set; assumption.
    - intros i Hn. rewrite nth_set_nth_ne; [auto|]. intros ->. apply Hn. apply in_map_iff. exists w. split; [reflexivity|].
      apply elem_of_list_In. eapply elem_of_list_lookup_2, Hw.
    - intros k1 w1 p1 Hw1 Hp1. destruct (decide (k1 = k)) as [->|Hne].
      + rewrite list_lookup_insert in Hp1 by lia. injection Hp1 as <-. rewrite Hw in Hw1. injection Hw1 as <-.
        rewrite nth_set_nth by (rewrite (proj1 in_okm0); exact Hi).
        rewrite events_of_app, events_of_same. exact Hr.
      + rewrite list_lookup_insert_ne in Hp1 by congruence.
        rewrite nth_set_nth_ne by (intros E; apply Hne; eapply ws_inj; eassumption).
        rewrite events_of_app, events_of_other, app_nil_r by exact Hne. eauto.
    - intros k1 p1 Hp1. destruct (decide (k1 = k)) as [->|Hne].
      + rewrite list_lookup_insert in Hp1 by lia. injection Hp1 as <-. split; [exact Ha|].
        destruct (ws_qs k qs in_len0 Hk) as (w2 & p2 & _ & Hp2). apply (in_acq0 k p2 Hp2).
      + rewrite list_lookup_insert_ne in Hp1 by congruence. eauto.
    - apply List.Forall_app. split; [assumption|]. apply List.Forall_forall. intros x Hx.
      apply in_map_iff in Hx. destruct Hx as (y & <- & _). exact Hk.
    - rewrite map_app, map_map. simpl. rewrite map_id, !app_assoc. rewrite in_front0. reflexivity.
    - intros fut. rewrite <- app_assoc. rewrite in_main0. rewrite map_app, map_map. simpl. rewrite map_id, <- app_assoc. reflexivity.
  Qed.

  (** A command of the main process. *)
  Lemma inv_main_upd ps s lg held qs qm mirs q b n front p' hs' q' b' n' fr lk :
    inv ps s lg held qs qm mirs q b n front -> q = fr ++ q' ->
    (forall fut, hrun qm (dst (s_mirs d0) (q ++ fut) b n) (held N) = hrun p' (dst (s_mirs d0) (q' ++ fut) b' n') hs') ->
    main_only p' -> acqs (fun l => l < 4) p' -> Forall (fun l => l < 4) hs' -> lock_inv (upd held N hs') lk ->
    inv (<[N := sys_p p']> ps) (mkst (dst mirs q' b' n') lk) lg (upd held N hs') qs p' mirs q' b' n' (front ++ fr).
  Proof.
    intros I Eq Hr Hm Ha Hf Hl. destruct I.
    constructor; auto; try (rewrite insert_length; assumption).
    - intros k1 w1 p1 Hw1 Hp1. rewrite list_lookup_insert_ne; [eauto|]. apply lookup_lt_Some in Hp1. lia.
    - apply list_lookup_insert. lia.
    - intros j Hj. rewrite upd_ne by lia. auto.
    - intros k1 w1 p1 Hw1 Hp1. rewrite upd_ne by (apply lookup_lt_Some in Hp1; lia). eauto.
    - intros k1 p1 Hp1. rewrite upd_ne by (apply lookup_lt_Some in Hp1; lia). eauto.
    - rewrite in_front0, Eq, app_assoc. reflexivity.
    - intros fut. rewrite upd_eq, <- Hr. auto.
    - rewrite upd_eq. auto.
  Qed.

  Lemma upd_self held i : forall j, held j = upd held i (held i) j.
  Proof. intros j. destruct (decide (j = i)) as [->|H]; [rewrite upd_eq; reflexivity|rewrite upd_ne by exact H; reflexivity]. Qed.

  Lemma inv_step_log ps s lg held qs qm mirs q b n front k ps' s' :
    inv ps s lg held qs qm mirs q b n front -> cstep k (ps, s) = Some (ps', s') ->
    exists lg' held' qs' qm' mirs' q' b' n' front',
      inv ps' s' lg' held' qs' qm' mirs' q' b' n' front' /\ exists out, lg' = lg ++ map (pair k) out.
  Proof.
    intros I Hs. unfold cstep in Hs. cbn [fst snd] in Hs.
    destruct (ps !! k) as [p|] eqn:Ep; [|discriminate].
    destruct (pstep k p s) as [[p1 s1]|] eqn:Es; [|discriminate]. injection Hs as <- <-.
    assert (Hk : k < S N) by (rewrite <- (in_plen _ _ _ _ _ _ _ _ _ _ _ I); apply lookup_lt_is_Some_1; eauto).
    pose proof (in_dat _ _ _ _ _ _ _ _ _ _ _ I) as Hd. pose proof (in_lock _ _ _ _ _ _ _ _ _ _ _ I) as Hl.
    pose proof (in_okm _ _ _ _ _ _ _ _ _ _ _ I) as Ho.
    destruct (decide (k = N)) as [->|Hne].
    - (* main *)
      rewrite (in_pm _ _ _ _ _ _ _ _ _ _ _ I) in Ep. injection Ep as <-.
      pose proof (in_main _ _ _ _ _ _ _ _ _ _ _ I) as Hr.
      pose proof (in_monly _ _ _ _ _ _ _ _ _ _ _ I) as Hmo. pose proof (in_macq _ _ _ _ _ _ _ _ _ _ _ I) as [Hma Hf].
      assert (Hn : forall fut, hrun qm (dst (s_mirs d0) (q ++ fut) b n) (held N) <> None) by (intros fut; rewrite Hr; apply main_disc).
      destruct qm as [a|e|X c kk hh]; [discriminate|discriminate|].
      destruct Hmo as (Hc & Hmk & Hmh). destruct Hma as (Hal & Hak & Hah).
      destruct c as [l m|l|X c].
      + simpl in Es. destruct (lock_acq (reent l) N l m (lks s)) as [r lk] eqn:El.
        assert (Ha : allowedb (held N) l m = true).
        { specialize (Hn []). simpl in Hn. destruct (allowedb (held N) l m); congruence. }
        pose proof (allowedb_may _ _ _ Ha) as Hmay.
        assert (Hnb : r <> Block) by (destruct r; congruence).
        destruct (acq_inv _ _ _ _ _ _ _ Hl (proj1 Hmay) El Hnb) as [-> Hl'].
        injection Es as <- <-. rewrite Hd. exists lg, (upd held N (l :: held N)), qs, (kk tt), mirs, q, b, n, (front ++ []). split; [|exists []; symmetry; apply app_nil_r].
        eapply (inv_main_upd _ _ _ _ _ _ _ _ _ _ _ (kk tt) (l :: held N) q b n []); [exact I|reflexivity| |auto|auto|auto|exact Hl'].
        intros fut. simpl. rewrite Ha. reflexivity.
      + simpl in Es. destruct (lock_rel N l (lks s)) as [r lk] eqn:El.
        assert (Hh : exists hs, held N = l :: hs).
        { specialize (Hn []). simpl in Hn. destruct (held N) as [|l' hs]; [congruence|].
          destruct (Nat.eqb_spec l' l) as [->|]; [eauto|congruence]. }
        destruct Hh as [hs Hh]. destruct (rel_inv _ _ _ _ _ _ _ Hl Hh El) as [-> Hl'].
        injection Es as <- <-. rewrite Hd. exists lg, (upd held N hs), qs, (kk tt), mirs, q, b, n, (front ++ []). split; [|exists []; symmetry; apply app_nil_r].
        eapply (inv_main_upd _ _ _ _ _ _ _ _ _ _ _ (kk tt) hs q b n []); [exact I|reflexivity| |auto|auto| |exact Hl'].
        * intros fut. simpl. rewrite Hh, Nat.eqb_refl. reflexivity.
        * rewrite Hh in Hf. inversion Hf. assumption.
      + simpl in Es, Hc. rewrite Hd in Es. destruct (pexec c (dst mirs q b n)) as [r d1] eqn:Ex.
        destruct (main_step c mirs q b n r d1 Ho Hc Ex) as [[-> _]|(Hnb & fr & q' & b' & n' & -> & Eq & Hx)]; [discriminate|].
        assert (Hl' : lock_inv (upd held N (held N)) (lks s)) by (eapply lock_inv_ext; [apply upd_self|exact Hl]).
        destruct r as [x|e|]; [| |congruence]; injection Es as <- <-.
        * exists lg, (upd held N (held N)), qs, (kk x), mirs, q', b', n', (front ++ fr). split; [|exists []; symmetry; apply app_nil_r].
          eapply (inv_main_upd _ _ _ _ _ _ _ _ _ _ _ (kk x) (held N) q' b' n' fr); [exact I|exact Eq| |auto|auto|auto|exact Hl'].
          intros fut. simpl. rewrite (Hx (s_mirs d0) fut okm_0). reflexivity.
        * exists lg, (upd held N (held N)), qs, (hh e), mirs, q', b', n', (front ++ fr). split; [|exists []; symmetry; apply app_nil_r].
          eapply (inv_main_upd _ _ _ _ _ _ _ _ _ _ _ (hh e) (held N) q' b' n' fr); [exact I|exact Eq| |auto|auto|auto|exact Hl'].
          intros fut. simpl. rewrite (Hx (s_mirs d0) fut okm_0). reflexivity.
    - (* producer *)
      assert (Hk' : k < N) by lia.
      destruct (ws_qs k qs (in_len _ _ _ _ _ _ _ _ _ _ _ I) Hk') as (w & p0 & Hw & Hp).
      rewrite (in_ps _ _ _ _ _ _ _ _ _ _ _ I k w p0 Hw Hp) in Ep. injection Ep as <-.
      pose proof (in_run _ _ _ _ _ _ _ _ _ _ _ I k w p0 Hw Hp) as Hr.
      destruct (in_acq _ _ _ _ _ _ _ _ _ _ _ I k p0 Hp) as [Hma Hf].
      pose proof (ws_ok k w Hw) as (Hi & Hmq & _).
      destruct p0 as [a|e|X c kk hh]; [discriminate|discriminate|].
      destruct Hma as (Hal & Hak & Hah). destruct c as [l m|l|X c]; simpl in Hr.
      + simpl in Es. destruct (lock_acq (reent l) k l m (lks s)) as [r lk] eqn:El.
        destruct (allowedb (held k) l m) eqn:Ha; [|discriminate].
        pose proof (allowedb_may _ _ _ Ha) as Hmay.
        assert (Hnb : r <> Block) by (destruct r; congruence).
        destruct (acq_inv _ _ _ _ _ _ _ Hl (proj1 Hmay) El Hnb) as [-> Hl'].
        injection Es as <- <-. do 9 eexists. split; [|exists []; symmetry; apply app_nil_r]. eapply inv_prod_lock; [exact I|exact Hw|exact Hk'|exact Hr|auto|auto|exact Hl'].
      + simpl in Es. destruct (lock_rel k l (lks s)) as [r lk] eqn:El.
        destruct (held k) as [|l' hs] eqn:Hh; [discriminate|].
        destruct (Nat.eqb_spec l' l) as [->|]; [|discriminate].
        destruct (rel_inv _ _ _ _ _ _ _ Hl Hh El) as [-> Hl'].
        injection Es as <- <-. do 9 eexists. split; [|exists []; symmetry; apply app_nil_r]. eapply inv_prod_lock; [exact I|exact Hw|exact Hk'|exact Hr|auto| |exact Hl'].
        inversion Hf. assumption.
      + change (pstep k (sys_m (fst w) (Act (Op c) kk hh)) s) with
          (match (let '(r, d) := sexec (SM (fst w) c) (dat s) in (r, mkst d (lks s))) with
           | (Good x, s') => Some (sys_m (fst w) (kk x), s')
           | (Fail e, s') => Some (sys_m (fst w) (hh e), s')
           | (Block, _) => None end) in Es.
        rewrite Hd in Es.
        destruct (mir_step (fst w) c mirs q b n Ho Hi Hmq) as (r & m' & out & Hnb & Hmm & He & Hse).
        rewrite Hse in Es. rewrite He in Hr.
        destruct r as [x|e|]; [| |congruence]; injection Es as <- <-.
        * do 9 eexists. split; [|exists out; reflexivity]. eapply inv_prod_op; [exact I|exact Hw|exact Hk'|exact Hmm|exact Hr|auto].
        * do 9 eexists. split; [|exists out; reflexivity]. eapply inv_prod_op; [exact I|exact Hw|exact Hk'|exact Hmm|exact Hr|auto].
  Qed.

  (** The messages of the threads that make no step do not change. *)
  Lemma events_pair k j (out : list msg) : j <> k -> events_of j (map (pair k) out) = [].
  Proof.
    intros H. unfold events_of. induction out as [|x out IH]; simpl; [reflexivity|].
    destruct (Nat.eqb_spec k j) as [E|_]; [congruence|exact IH].
  Qed.
  Lemma inv_sched_log sch : forall ps s lg held qs qm mirs q b n front ps' s',
    inv ps s lg held qs qm mirs q b n front -> sched_run sch (ps, s) = Some (ps', s') ->
    exists lg' held' qs' qm' mirs' q' b' n' front',
      inv ps' s' lg' held' qs' qm' mirs' q' b' n' front' /\
      (exists more, lg' = lg ++ more) /\ forall k, ~ In k sch -> events_of k lg' = events_of k lg.
  Proof.
    induction sch as [|k sch IH]; intros ps s lg held qs qm mirs q b n front ps' s' I Hs; simpl in Hs.
    - injection Hs as <- <-. do 9 eexists. split; [exact I|]. split; [exists []; symmetry; apply app_nil_r|reflexivity].
    - destruct (cstep k (ps, s)) as [[ps1 s1]|] eqn:E; [|discriminate].
      destruct (inv_step_log _ _ _ _ _ _ _ _ _ _ _ _ _ _ I E) as (lg1 & h1 & qs1 & qm1 & mi1 & q1 & b1 & n1 & f1 & I1 & out & E1).
      destruct (IH _ _ _ _ _ _ _ _ _ _ _ _ _ I1 Hs) as (lg2 & h2 & qs2 & qm2 & mi2 & q2 & b2 & n2 & f2 & I2 & (more & E2) & H2).
      exists lg2, h2, qs2, qm2, mi2, q2, b2, n2, f2. split; [exact I2|]. split.
      + exists (map (pair k) out ++ more). rewrite E2, E1, app_assoc. reflexivity.
      + intros j Hj. rewrite H2 by (intros Hin; apply Hj; right; exact Hin). rewrite E1, events_of_app, events_pair.
        * apply app_nil_r.
        * intros ->. apply Hj. left. reflexivity.
  Qed.
  Lemma inv_sched sch : forall ps s lg held qs qm mirs q b n front ps' s',
    inv ps s lg held qs qm mirs q b n front -> sched_run sch (ps, s) = Some (ps', s') ->
    exists lg' held' qs' qm' mirs' q' b' n' front',
      inv ps' s' lg' held' qs' qm' mirs' q' b' n' front'.
  Proof.
    intros ps s lg held qs qm mirs q b n front ps' s' I Hs.
    destruct (inv_sched_log sch _ _ _ _ _ _ _ _ _ _ _ _ _ I Hs) as (lg2 & h2 & qs2 & qm2 & mi2 & q2 & b2 & n2 & f2 & I2 & _).
    do 9 eexists. exact I2.
  Qed.

  Definition top_acq {C B} (p : prog C B) : nat :=
    match p with Act c _ _ => match c with Acq l _ => S l | _ => 0 end | _ => 0 end.
  (** A producer that is not finished: some producer can move.  Producers in [dead] are
      not asked to move; the others do not wait for their locks. *)
  Lemma prod_move_alive dead ps s lg held qs qm mirs q b n front :
    inv ps s lg held qs qm mirs q b n front ->
    (forall k p l o, ~ In k dead -> qs !! k = Some p -> top_acq p = S l -> In l (held o) -> ~ In o dead) -> forall l k w p,
    ~ In k dead -> ws !! k = Some w -> qs !! k = Some p -> finished p = false ->
    (forall l' m kk hh, p = Act (Acq l' m) kk hh -> l' < l \/ exists c, cstep k (ps, s) = Some c) ->
    exists j c, ~ In j dead /\ cstep j (ps, s) = Some c.
  Proof.
    intros I Hdead l. induction (lt_wf l) as [l _ IH]. intros k w p Hkd Hw Hp Hf Hlt.
    pose proof (in_run _ _ _ _ _ _ _ _ _ _ _ I k w p Hw Hp) as Hr.
    pose proof (in_ps _ _ _ _ _ _ _ _ _ _ _ I k w p Hw Hp) as Hps.
    pose proof (in_dat _ _ _ _ _ _ _ _ _ _ _ I) as Hd. pose proof (in_lock _ _ _ _ _ _ _ _ _ _ _ I) as Hl.
    pose proof (in_okm _ _ _ _ _ _ _ _ _ _ _ I) as Ho. pose proof (ws_ok k w Hw) as (Hi & Hmq & _).
    destruct p as [a|e|X c kk hh]; [discriminate|discriminate|].
    assert (Hmv : pstep k (sys_m (fst w) (Act c kk hh)) s <> None -> exists j c, ~ In j dead /\ cstep j (ps, s) = Some c).
    { intros Hn. exists k. unfold cstep. cbn [fst snd]. rewrite Hps.
      destruct (pstep k (sys_m (fst w) (Act c kk hh)) s) as [[p1 s1]|]; [eauto|congruence]. }
    destruct c as [l' m|l'|X c]; simpl in Hr.
    - destruct (allowedb (held k) l' m) eqn:Ha; [|discriminate]. apply allowedb_may in Ha.
      destruct (lock_acq (reent l') k l' m (lks s)) as [r lk] eqn:El.
      destruct r as [x|e|]; [apply Hmv; simpl; rewrite El; discriminate..|].
      destruct (Hlt l' m kk hh eq_refl) as [Hll|[c Hc]]; [|eauto].
      destruct (acq_block _ _ _ _ _ _ Hl Ha El) as (o & Hok & Hin).
      destruct (in_acq _ _ _ _ _ _ _ _ _ _ _ I k _ Hp) as [(Hal & _) _].
      assert (Hoo : o < N).
      { destruct (lt_eq_lt_dec o N) as [[H|H]|H]; [exact H| |].
        - subst o. destruct (in_macq _ _ _ _ _ _ _ _ _ _ _ I) as [_ Hf4]. rewrite List.Forall_forall in Hf4.
          specialize (Hf4 l' Hin). simpl in Hal. lia.
        - rewrite (in_out _ _ _ _ _ _ _ _ _ _ _ I o H) in Hin. contradiction. }
      destruct (ws_qs o qs (in_len _ _ _ _ _ _ _ _ _ _ _ I) Hoo) as (wo & po & Hwo & Hpo).
      pose proof (in_run _ _ _ _ _ _ _ _ _ _ _ I o wo po Hwo Hpo) as Hro.
      apply (IH l' Hll o wo po).
      + exact (Hdead k _ l' o Hkd Hp eq_refl Hin).
      + exact Hwo.
      + exact Hpo.
      + destruct po; simpl in Hro |- *; [..|reflexivity]; injection Hro as _ _ E; rewrite E in Hin; contradiction.
      + intros l2 m2 k2 h2 ->. simpl in Hro.
        destruct (allowedb (held o) l2 m2) eqn:Ha2; [|discriminate]. apply allowedb_may in Ha2.
        destruct Ha2 as [Hsh [Hall|(-> & Hre & Hin2)]].
        * left. rewrite List.Forall_forall in Hall. auto.
        * right. unfold cstep. cbn [fst snd].
          rewrite (in_ps _ _ _ _ _ _ _ _ _ _ _ I o wo _ Hwo Hpo). simpl.
          destruct (lock_acq (reent l2) o l2 Ex (lks s)) as [r2 lk2] eqn:El2.
          destruct r2 as [x|e|]; [eauto..|]. exfalso.
          destruct (acq_block held (lks s) o l2 Ex lk2 Hl) as (o2 & Ho2 & Hin3); [|exact El2|].
          { split; [exact Hsh|]. right. auto. }
          pose proof (Hl l2) as Hl2. unfold lock_acq in El2. destruct (lks s !! l2) as [[o3 n3|os]|]; [| |discriminate].
          { destruct Hl2 as (A1 & A2 & A3). assert (E : o = o3).
            { destruct (decide (o = o3)) as [|Hne]; [assumption|]. apply (count_occ_In Nat.eq_dec) in Hin2. rewrite (A3 o Hne) in Hin2. lia. }
            subst o3. rewrite Hre, Nat.eqb_refl in El2. discriminate. }
          { destruct Hl2 as (A0 & _). congruence. }
    - destruct (held k) as [|l2 hs] eqn:Hh; [discriminate|]. destruct (Nat.eqb_spec l2 l') as [->|]; [|discriminate].
      apply Hmv. simpl. destruct (lock_rel k l' (lks s)) as [r lk] eqn:El.
      destruct (rel_inv _ _ _ _ _ _ _ Hl Hh El) as [-> _]. discriminate.
    - apply Hmv. 
      change (pstep k (sys_m (fst w) (Act (Op c) kk hh)) s) with
          (match (let '(r, d) := sexec (SM (fst w) c) (dat s) in (r, mkst d (lks s))) with
           | (Good x, s') => Some (sys_m (fst w) (kk x), s')
           | (Fail e, s') => Some (sys_m (fst w) (hh e), s')
           | (Block, _) => None end).
      rewrite Hd. destruct (mir_step (fst w) c mirs q b n Ho Hi Hmq) as (r & m' & out & Hnb & _ & _ & Hse).
      rewrite Hse. destruct r; congruence.
  Qed.

  Lemma prod_move ps s lg held qs qm mirs q b n front :
    inv ps s lg held qs qm mirs q b n front -> forall l k w p,
    ws !! k = Some w -> qs !! k = Some p -> finished p = false ->
    (forall l' m kk hh, p = Act (Acq l' m) kk hh -> l' < l \/ exists c, cstep k (ps, s) = Some c) ->
    exists j c, cstep j (ps, s) = Some c.
  Proof.
    intros I l k w p Hw Hp Hf Hlt.
    destruct (prod_move_alive [] _ _ _ _ _ _ _ _ _ _ _ I (fun _ _ _ _ _ _ _ _ H => H) l k w p (fun H => H) Hw Hp Hf Hlt) as (j & c & _ & E).
    eauto.
  Qed.

  Lemma qs_finished ps s lg held qs qm mirs q b n front k :
    inv ps s lg held qs qm mirs q b n front -> k < N ->
    (forall p, qs !! k = Some p -> finished p = true) -> held k = [].
  Proof.
    intros I Hk Hf. destruct (ws_qs k qs (in_len _ _ _ _ _ _ _ _ _ _ _ I) Hk) as (w & p & Hw & Hp).
    pose proof (in_run _ _ _ _ _ _ _ _ _ _ _ I k w p Hw Hp) as Hr. specialize (Hf p Hp).
    destruct p; simpl in *; congruence.
  Qed.

  (** The main process: it can move, or is finished, or waits for more messages; whatever
      the producers do. *)
  Lemma main_move ps s lg held qs qm mirs q b n front :
    inv ps s lg held qs qm mirs q b n front ->
    (exists c, cstep N (ps, s) = Some c) \/ finished qm = true \/
    exists d' hs, hrun main0 (dst (s_mirs d0) (inbox d0 ++ map snd lg) (s_main d0) (s_n d0)) [] = Some (Block, d', hs).
  Proof.
    intros I.
    pose proof (in_dat _ _ _ _ _ _ _ _ _ _ _ I) as Hd. pose proof (in_lock _ _ _ _ _ _ _ _ _ _ _ I) as Hl.
    pose proof (in_okm _ _ _ _ _ _ _ _ _ _ _ I) as Ho.
    pose proof (in_main _ _ _ _ _ _ _ _ _ _ _ I) as Hr. pose proof (in_pm _ _ _ _ _ _ _ _ _ _ _ I) as Hpm.
    pose proof (in_monly _ _ _ _ _ _ _ _ _ _ _ I) as Hmo. destruct (in_macq _ _ _ _ _ _ _ _ _ _ _ I) as [Hma _].
    assert (Hn : hrun qm (dst (s_mirs d0) (q ++ []) b n) (held N) <> None) by (rewrite Hr; apply main_disc).
    destruct qm as [a|e|X c kk hh]; [right; auto|right; auto|].
    assert (Hmv : pstep N (sys_p (Act c kk hh)) s <> None -> exists c, cstep N (ps, s) = Some c).
    { intros Hx. unfold cstep. cbn [fst snd]. rewrite Hpm.
      destruct (pstep N (sys_p (Act c kk hh)) s) as [[p1 s1]|]; [eauto|congruence]. }
    destruct Hmo as (Hc & _ & _). destruct c as [l m|l|X c].
    + left. apply Hmv. simpl in Hn |- *. destruct (allowedb (held N) l m) eqn:Ha; [|congruence]. apply allowedb_may in Ha.
      destruct (acq_free held (lks s) N l m Hl Ha) as [k' E]; [|rewrite E; discriminate].
      intros j Hj. destruct (lt_eq_lt_dec j N) as [[H|H]|H]; [|congruence|].
      * destruct (ws_qs j qs (in_len _ _ _ _ _ _ _ _ _ _ _ I) H) as (w & p & Hw & Hp).
        destruct (in_acq _ _ _ _ _ _ _ _ _ _ _ I j p Hp) as [_ Hf4]. rewrite List.Forall_forall in Hf4.
        apply count_occ_not_In. intros Hin. specialize (Hf4 _ Hin). simpl in Hma, Hf4. lia.
      * rewrite (in_out _ _ _ _ _ _ _ _ _ _ _ I j H). reflexivity.
    + left. apply Hmv. simpl in Hn |- *. destruct (held N) as [|l' hs] eqn:Hh; [congruence|].
      destruct (Nat.eqb_spec l' l) as [->|]; [|congruence].
      destruct (lock_rel N l (lks s)) as [r lk] eqn:El. destruct (rel_inv _ _ _ _ _ _ _ Hl Hh El) as [-> _]. discriminate.
    + destruct (pexec c (dst mirs q b n)) as [r d1] eqn:Ex.
      destruct (main_step c mirs q b n r d1 Ho Hc Ex) as [[-> Hq]|(Hnb & _)].
      * right. right. subst q.
        specialize (Hr []). rewrite !app_nil_r in Hr. rewrite <- Hr. simpl.
        destruct (pexec c (dst (s_mirs d0) [] b n)) as [r2 d2] eqn:Ex2.
        destruct (main_step c (s_mirs d0) [] b n r2 d2 okm_0 Hc Ex2) as [[-> _]|(Hnb2 & f2 & q2 & b2 & n2 & -> & Eq2 & Hx2)]; [eauto|].
        exfalso. specialize (Hx2 mirs [] Ho). rewrite !app_nil_r in Hx2. congruence.
      * left. apply Hmv. simpl. rewrite Hd, Ex. destruct r; congruence.
  Qed.

  (** Progress: someone can move, or all are finished, or all the producers are finished
      and the main program, alone on all the messages, waits for more. *)
  Lemma inv_progress ps s lg held qs qm mirs q b n front :
    inv ps s lg held qs qm mirs q b n front ->
    (exists j c, cstep j (ps, s) = Some c) \/
    (forall k p, qs !! k = Some p -> finished p = true) /\
    (finished qm = true \/
     exists d' hs, hrun main0 (dst (s_mirs d0) (inbox d0 ++ map snd lg) (s_main d0) (s_n d0)) [] = Some (Block, d', hs)).
  Proof.
    intros I.
    assert (Hd : (exists k p, qs !! k = Some p /\ finished p = false) \/ (forall k p, qs !! k = Some p -> finished p = true)).
    { clear. induction qs as [|p qs IH]; [right; intros k p H; destruct k; discriminate|].
      destruct (finished p) eqn:E.
      - destruct IH as [(k & p' & H1 & H2)|H]; [left; exists (S k), p'; auto|right].
        intros [|k] p' Hp; simpl in Hp; [congruence|eauto].
      - left. exists 0, p. auto. }
    destruct Hd as [(k & p & Hp & Hf)|Hall].
    - left. assert (Hk : k < N) by (rewrite <- (in_len _ _ _ _ _ _ _ _ _ _ _ I); apply lookup_lt_is_Some_1; eauto).
      destruct (ws_qs k qs (in_len _ _ _ _ _ _ _ _ _ _ _ I) Hk) as (w & p2 & Hw & Hp2).
      destruct p as [a|e|X c kk hh]; [discriminate|discriminate|].
      eapply (prod_move _ _ _ _ _ _ _ _ _ _ _ I (top_acq (Act c kk hh)) k w _ Hw Hp Hf).
      intros l' m kk' hh' E. left. 
      rewrite E. simpl. lia.
    - destruct (main_move _ _ _ _ _ _ _ _ _ _ _ I) as [(c & Hc)|H]; [left; eauto|right; auto].
  Qed.

  (** The end of an execution. *)
  Lemma inv_end ps s lg held qs qm mirs q b n front :
    inv ps s lg held qs qm mirs q b n front ->
    (forall k p, qs !! k = Some p -> finished p = true) -> finished qm = true ->
    lks s = stdpp.base.empty.
  Proof.
    intros I Hq Hm. apply (held_none held); [exact (in_lock _ _ _ _ _ _ _ _ _ _ _ I)|]. intros i.
    destruct (lt_eq_lt_dec i N) as [[H|H]|H].
    - apply (qs_finished _ _ _ _ _ _ _ _ _ _ _ i I H). intros p Hp. eauto.
    - subst i. pose proof (in_main _ _ _ _ _ _ _ _ _ _ _ I []) as Hr.
      destruct (main_disc' (inbox d0 ++ map snd lg ++ [])) as (r & d' & hs & E & Hh). unfold dst in Hr. rewrite E in Hr.
      destruct qm; simpl in Hr; try discriminate; injection Hr as <- _ <-; apply Hh; discriminate.
    - apply (in_out _ _ _ _ _ _ _ _ _ _ _ I i H).
  Qed.
End Pool.
