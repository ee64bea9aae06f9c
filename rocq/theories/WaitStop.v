(** * WaitStop: force_stop() ends wait() while the others go on (lemmas for C110) *)
From stdpp Require Import gmap.
From Coq Require Import List NArith ZArith Bool Arith Lia.
From Verif Require Import PyStr Prog ProgFacts PyIO Base Spec SpecFacts LineBuf LineBufFacts Locks Held Proc ProcSpec ProcFacts ProcMain ProcSeq ProcHist ProcProofs ProcSysProofs ProcRun ProcPool ProcPoolProofs CountSpec StopProofs WaitStopSpec.
Import ListNotations.
Local Open Scope nat_scope.

(** ** Locks: all acquired and released locks satisfy [P] *)
Section LockP.
  Context {C : Type -> Type} (P : nat -> Prop).
  Fixpoint lockp {A} (p : prog C A) : Prop :=
    match p with
    | Ret _ | Raise _ => True
    | Act c k h => match c with Acq l _ => P l | Rel l => P l | Op _ => True end /\ (forall x, lockp (k x)) /\ (forall e, lockp (h e))
    end.
  Lemma lockp_bind {A B} (p : prog C A) (f : A -> prog C B) : lockp p -> (forall a, lockp (f a)) -> lockp (bind p f).
  Proof. induction p as [a|e|X c k IHk h IHh]; simpl; auto. intros (H1 & H2 & H3) Hf. auto. Qed.
  Lemma lockp_try {A} (p : prog C A) fin : lockp p -> lockp fin -> lockp (try_finally p fin).
  Proof.
    intros Hp Hf. induction p as [a|e|X c k IHk h IHh]; simpl.
    - apply lockp_bind; simpl; auto.
    - apply lockp_bind; simpl; auto.
    - destruct Hp as (H1 & H2 & H3). auto.
  Qed.
  Lemma lockp_with {A} l m (p : prog C A) : P l -> lockp p -> lockp (with_lock l m p).
  Proof. intros Hl Hp. simpl. split; [exact Hl|]. split; [|auto]. intros _. apply lockp_try; [exact Hp|]. simpl. auto. Qed.
  Lemma lockp_op {X} (c : C X) : lockp (op c).
  Proof. simpl. auto. Qed.
End LockP.

Lemma lockp_with_m {A} (body : prog mcmd A) : lockp (fun l => 4 <= l) body -> lockp (fun l => 4 <= l) (with_m body).
Proof.
  intros H. unfold with_m, lm_lock. cbn [op bind lockp]. split; [exact I|]. split; [|simpl; auto].
  assert (G : forall r2 : option nat, lockp (fun l => 4 <= l)
    (bind (match r2 with Some n => Ret (mlock n) | None => Raise AttributeError end) (fun l => with_lock l Ex body))).
  { intros [n|]; [|exact I]. cbn [bind]. apply lockp_with; [unfold mlock; lia|exact H]. }
  intros [r|]; cbn [bind lockp op]; repeat (split; [exact I|]); repeat split; auto; intros; apply G.
Qed.
Ltac lkp := repeat lazymatch goal with
  | |- lockp _ (with_m _) => apply lockp_with_m
  | |- lockp _ (bind _ _) => apply lockp_bind; [|intros ?]
  | |- lockp _ (op _) => apply lockp_op
  | |- lockp _ (with_lock _ _ _) => apply lockp_with; [unfold STL; lia|]
  | |- lockp _ (Ret _) => exact I
  | |- lockp _ (Raise _) => exact I
  | |- lockp _ (if ?b then _ else _) => destruct b
  | |- lockp _ (match ?b with _ => _ end) => destruct b
  end.
Lemma lockp_call c : lockp (fun l => 4 <= l) (lm_call c).
Proof.
  assert (Hsd : forall data, lockp (fun l => 4 <= l) (lm_send_data data)) by (intros; unfold lm_send_data, lm_put; lkp).
  assert (Hb : forall data, lockp (fun l => 4 <= l) (lm_write_body data)).
  { intros data. unfold lm_write_body. lkp; auto. }
  assert (Hn : lockp (fun l => 4 <= l) lm_new_line) by (unfold lm_new_line; lkp; auto).
  assert (Hs : forall m, lockp (fun l => 4 <= l) (lm_send_signal m)) by (intros; unfold lm_send_signal, lm_put; lkp; auto).
  assert (Hcl : lockp (fun l => 4 <= l) lm_clear) by (unfold lm_clear; lkp).
  destruct c; cbn [lm_call]; unfold mret, lm_write, lm_read, lm_writable, lm_readable, lm_closed, lm_close, lm_send_eof, lm_send_error, lm_send_warning, lm_flush, lm_fileno, lm_seek, lm_isatty, lm_seekable; lkp; auto.
Qed.

(** ** Programs of the other threads *)
Definition aside_cmd {X} (c : scmd X) : Prop :=
  match c with SM _ _ => True | SP c => match c with PPut _ | PStSet _ => True | _ => False end end.
Fixpoint asidep {A} (p : prog scmd A) : Prop :=
  match p with
  | Ret _ | Raise _ => True
  | Act c k h => match c with Acq l _ => 4 <= l | Rel l => 4 <= l | Op c => aside_cmd c end /\
                 (forall x, asidep (k x)) /\ (forall e, asidep (h e))
  end.
Lemma asidep_bind {A B} (p : prog scmd A) (f : A -> prog scmd B) : asidep p -> (forall a, asidep (f a)) -> asidep (bind p f).
Proof. induction p as [a|e|X c k IHk h IHh]; simpl; auto. intros (H1 & H2 & H3) Hf. auto. Qed.
Lemma asidep_attempt {A} (p : prog scmd A) : asidep p -> asidep (attempt p).
Proof. induction p as [a|e|X c k IHk h IHh]; simpl; auto. intros (H1 & H2 & H3). auto. Qed.
Lemma asidep_m {A} i (p : prog mcmd A) : lockp (fun l => 4 <= l) p -> asidep (sys_m i p).
Proof. unfold sys_m. induction p as [a|e|X c k IHk h IHh]; simpl; auto. intros (H1 & H2 & H3). split; [destruct c; simpl; auto|]. auto. Qed.
Lemma asidep_call c : aside c -> asidep (s_call c).
Proof.
  destruct c as [c|i c]; simpl; intros H.
  - destruct c; try contradiction; cbn; repeat split; auto; unfold STL; lia.
  - apply asidep_m. apply lockp_bind; [apply lockp_call|intros; exact I].
Qed.
Lemma asidep_thread cs : Forall aside cs -> forall rs, asidep (thread_from rs (map s_call cs)).
Proof. induction 1 as [|c cs Hc _ IH]; intros rs; simpl; [auto|]. apply asidep_bind; [apply asidep_attempt, asidep_call, Hc|auto]. Qed.
Lemma asidep_caller cs : Forall aside cs -> asidep (caller cs).
Proof. intros H. unfold caller. apply asidep_bind; [apply asidep_thread, H|intros; exact I]. Qed.

(** ** [d2] is [d] for the main process, with [ext] added to the queue *)
Definition vq (d : psys) : Prop := cur_q d < length (s_qs d).
Definition above (ext : list msg) (d d2 : psys) : Prop :=
  vq d /\ vq d2 /\ s_main d2 = s_main d /\ s_n d2 = s_n d /\ s_maxlen d2 = s_maxlen d /\ inbox d2 = inbox d ++ ext.
Lemma above_refl d : vq d -> above [] d d.
Proof. intros H. repeat split; auto. rewrite app_nil_r. reflexivity. Qed.
Lemma above_trans e1 e2 d1 d2 d3 : above e1 d1 d2 -> above e2 d2 d3 -> above (e1 ++ e2) d1 d3.
Proof.
  intros (A1 & A2 & A3 & A4 & A5 & A6) (B1 & B2 & B3 & B4 & B5 & B6). repeat split; try congruence.
  rewrite B6, A6, app_assoc. reflexivity.
Qed.
Definition addq (ext : list msg) (d : psys) : psys := set_queue (inbox d ++ ext) d.
Lemma above_addq ext d : vq d -> above ext d (addq ext d).
Proof.
  intros H. unfold addq. repeat split; auto.
  - apply valid_set_queue. exact H.
  - apply queue_set_queue. exact H.
Qed.
Lemma above_same e d d1 d2 : above e d d1 -> above e d d2 -> above [] d1 d2.
Proof.
  intros (A1 & A2 & A3 & A4 & A5 & A6) (B1 & B2 & B3 & B4 & B5 & B6). repeat split; try congruence.
  rewrite app_nil_r. congruence.
Qed.

(** A command of another thread. *)
Lemma vq_inbox d q : vq d -> nth (cur_q d) (set_nth (cur_q d) q (s_qs d)) [] = q.
Proof. apply nth_set_nth. Qed.
Lemma other_op {X} (c : scmd X) d r d' : aside_cmd c -> vq d -> sexec c d = (r, d') ->
  exists ext, length ext <= 1 /\ above ext d d'.
Proof.
  intros Hc Hv E. destruct c as [i X c|X c]; simpl in E.
  - destruct (mexec c (get_menv i d)) as [r1 e] eqn:Em. injection E as <- <-.
    pose proof (mexec_keeps c _ _ _ Em) as (_ & _ & Eq). cbn [get_menv e_q] in Eq.
    destruct (mexec_frame c (mir_at d i) (s_state d)) as (r2 & m' & out & _ & Hm & He).
    unfold get_menv in Em. rewrite He in Em. injection Em as _ <-. cbn [e_q] in Eq. apply app_inv_head in Eq.
    assert (Hcur : cur_q (put_menv i (mkmenv m' (nth (m_q (mir_at d i)) (s_qs d) [] ++ out) 0 (s_state d)) d) = cur_q d).
    { unfold cur_q, put_menv, mir_at. cbn [s_mirs s_cur e_mir]. destruct (Nat.eq_dec (s_cur d) i) as [->|Hne].
      - destruct (le_lt_dec (length (s_mirs d)) i) as [Hle|Hlt].
        + rewrite !nth_overflow by (rewrite ?set_nth_length; exact Hle). reflexivity.
        + rewrite nth_set_nth by exact Hlt. exact Hm.
      - rewrite nth_set_nth_ne by exact Hne. reflexivity. }
    set (d' := put_menv _ _ _) in *. assert (Hv' : vq d').
    { unfold vq. rewrite Hcur. unfold d'. cbn [put_menv s_qs]. rewrite set_nth_length. exact Hv. }
    destruct (Nat.eq_dec (cur_q d) (m_q (mir_at d i))) as [Heq|Hne].
    + exists out. split; [subst out; unfold posted; destruct c; simpl; try lia; destruct r1; simpl; lia|]. repeat split; auto.
      unfold inbox. fold (cur_q d'). rewrite Hcur. fold (cur_q d). unfold d'. cbn [put_menv s_qs e_q]. rewrite <- Heq. apply nth_set_nth, Hv.
    + exists []. split; [simpl; lia|]. repeat split; auto. rewrite app_nil_r.
      unfold inbox. fold (cur_q d'). rewrite Hcur. fold (cur_q d). unfold d'. cbn [put_menv s_qs e_q]. apply nth_set_nth_ne, Hne.
  - destruct c; try contradiction; simpl in E; injection E as <- <-.
    + exists [m]. split; [simpl; lia|]. repeat split; auto.
      * apply valid_set_queue. exact Hv.
      * apply (queue_set_queue (inbox d ++ [m])). exact Hv.
    + exists []. split; [simpl; lia|]. repeat split; auto. rewrite app_nil_r. reflexivity.
Qed.

(** A command of the main process. *)
Lemma main_op {X} (c : pcmd X) ext d d2 r d1 : main_cmd c = true -> above ext d d2 -> pexec c d = (r, d1) -> r <> Block ->
  vq d1 /\ (exists fr, length fr <= 1 /\ inbox d = fr ++ inbox d1) /\ exists d3, pexec c d2 = (r, d3) /\ above ext d1 d3.
Proof.
  intros Hc (A1 & A2 & A3 & A4 & A5 & A6) E Hb. destruct c; try discriminate; simpl in E |- *.
  - rewrite A3. destruct (bexec c (s_main d)) as [r1 b1]. injection E as <- <-. split; [exact A1|].
    split; [exists []; split; [simpl; lia|reflexivity]|]. eexists. split; [reflexivity|]. repeat split; auto.
  - injection E as <- <-. rewrite A4. split; [exact A1|].
    split; [exists []; split; [simpl; lia|reflexivity]|]. eexists. split; [reflexivity|]. repeat split; auto.
  - injection E as <- <-. split; [exact A1|].
    split; [exists []; split; [simpl; lia|reflexivity]|]. eexists. split; [reflexivity|]. repeat split; auto.
  - injection E as <- <-. rewrite A5. split; [exact A1|].
    split; [exists []; split; [simpl; lia|reflexivity]|]. eexists. split; [reflexivity|]. repeat split; auto.
  - unfold inbox in A6. fold (cur_q d) (cur_q d2) in A6. rewrite A6. unfold inbox. fold (cur_q d).
    destruct (nth (cur_q d) (s_qs d) []) as [|x q] eqn:Eq; injection E as <- <-; [congruence|]. cbn [app].
    assert (V : forall q d, vq d -> vq (set_queue q d)) by (intros q' d' H; apply valid_set_queue, H).
    change (mkps (s_mirs d) (set_nth (cur_q d) q (s_qs d)) (s_state d) (s_main d) (s_n d) (s_cur d) (s_maxlen d)) with (set_queue q d).
    split; [apply V, A1|]. split.
    + exists [x]. split; [simpl; lia|]. simpl. f_equal. symmetry. apply (queue_set_queue q d A1).
    + eexists. split; [reflexivity|].
      change (mkps (s_mirs d2) (set_nth (cur_q d2) (q ++ ext) (s_qs d2)) (s_state d2) (s_main d2) (s_n d2) (s_cur d2) (s_maxlen d2)) with (set_queue (q ++ ext) d2).
      split; [apply V, A1|]. split; [apply V, A2|]. repeat split; auto.
      unfold inbox at 1. change (nth _ _ _) with (queue (set_queue (q ++ ext) d2)). rewrite queue_set_queue by exact A2.
      f_equal. symmetry. apply (queue_set_queue q d A1).
Qed.

(** Number of commands of the main process running alone. *)
Fixpoint len {A} (p : prog pcmd A) (d : psys) : nat :=
  match p with
  | Ret _ | Raise _ => 0
  | Act c k h =>
      match c in cmd _ X return (X -> psys -> nat) -> nat with
      | Acq l m => fun go => S (go tt d)
      | Rel l => fun go => S (go tt d)
      | Op c => fun go => match pexec c d with
                          | (Good x, d') => S (go x d')
                          | (Fail e, d') => S (len (h e) d')
                          | (Block, _) => 0
                          end
      end (fun x d' => len (k x) d')
  end.

Lemma above_hrun {A} (p : prog pcmd A) : main_only p -> forall ext d d2 hs r d1 hs1, above ext d d2 ->
  hrun p d hs = Some (r, d1, hs1) -> r <> Block -> exists d3, hrun p d2 hs = Some (r, d3, hs1) /\ above ext d1 d3.
Proof.
  induction p as [a|e|X c k IHk h IHh]; intros Hm ext d d2 hs r d1 hs1 Ha E Hb; simpl in E |- *.
  - injection E as <- <- <-. eauto.
  - injection E as <- <- <-. eauto.
  - destruct Hm as (Hc & Hk & Hh). destruct c as [l m|l|X c]; simpl in E |- *.
    + destruct (allowedb hs l m); [|discriminate]. eapply IHk; eauto.
    + destruct hs as [|l' hs0]; [discriminate|]. destruct (l' =? l); [|discriminate]. eapply IHk; eauto.
    + change (@cexec pcmd psys psem X c) with (@pexec X c) in E |- *. destruct (pexec c d) as [r1 d'] eqn:Ec.
      assert (Hb1 : r1 <> Block) by (intros ->; injection E as <- _ _; congruence).
      destruct (main_op c ext d d2 r1 d' Hc Ha Ec Hb1) as (_ & _ & d3 & -> & Ha').
      destruct r1 as [x|e|]; [eapply IHk; eauto|eapply IHh; eauto|congruence].
Qed.

(** ** The locks of the main process *)
Section Main.
  Variable t0 : nat.
  Definition mlk (hs : list nat) (k : locks) : Prop :=
    exists k4, (forall l, l < 4 -> k !! l = k4 !! l) /\ lock_inv (only t0 hs) k4.
  Lemma only_same t hs : only t hs t = hs.
  Proof. unfold only. rewrite Nat.eqb_refl. reflexivity. Qed.
  Lemma acq_agree re t l m (k k4 : locks) r k4' : k !! l = k4 !! l -> lock_acq re t l m k4 = (r, k4') ->
    exists k', lock_acq re t l m k = (r, k') /\ (forall l', k !! l' = k4 !! l' -> k' !! l' = k4' !! l').
  Proof.
    intros H. unfold lock_acq. rewrite H. intros E.
    assert (G : forall x l', k !! l' = k4 !! l' -> <[l := x]> k !! l' = <[l := x]> k4 !! l').
    { intros x l' Hl. destruct (decide (l' = l)) as [->|]; [rewrite !lookup_insert; reflexivity|rewrite !lookup_insert_ne by auto; exact Hl]. }
    destruct (k4 !! l) as [[o n|os]|], m; try (destruct (re && (o =? t))); injection E as <- <-; eauto.
  Qed.
  Lemma rel_agree t l (k k4 : locks) r k4' : k !! l = k4 !! l -> lock_rel t l k4 = (r, k4') ->
    exists k', lock_rel t l k = (r, k') /\ (forall l', k !! l' = k4 !! l' -> k' !! l' = k4' !! l').
  Proof.
    intros H. unfold lock_rel. rewrite H. intros E.
    assert (G : forall x l', k !! l' = k4 !! l' -> <[l := x]> k !! l' = <[l := x]> k4 !! l').
    { intros x l' Hl. destruct (decide (l' = l)) as [->|]; [rewrite !lookup_insert; reflexivity|rewrite !lookup_insert_ne by auto; exact Hl]. }
    assert (G' : forall l', k !! l' = k4 !! l' -> delete l k !! l' = delete l k4 !! l').
    { intros l' Hl. destruct (decide (l' = l)) as [->|]; [rewrite !lookup_delete; reflexivity|rewrite !lookup_delete_ne by auto; exact Hl]. }
    destruct (k4 !! l) as [[o [|[|n]]|os]|]; [..|destruct (remove1 t os)|]; injection E as <- <-; eauto.
  Qed.
  Lemma mlk_acq hs k l m : mlk hs k -> l < 4 -> allowedb hs l m = true ->
    exists k', lock_acq (reent l) t0 l m k = (Good tt, k') /\ mlk (l :: hs) k'.
  Proof.
    intros (k4 & Hk & Hl) Hlt Ea. apply allowedb_may in Ea. rewrite <- (only_same t0 hs) in Ea.
    destruct (acq_free (only t0 hs) k4 t0 l m Hl Ea) as [k4' E].
    { intros j Hj. unfold only. apply Nat.eqb_neq in Hj. rewrite Hj. reflexivity. }
    destruct (acq_agree _ _ _ _ k k4 _ _ (Hk l Hlt) E) as (k' & E' & Hk'). exists k'. split; [exact E'|].
    exists k4'. split; [auto|]. destruct (acq_inv _ _ _ _ _ _ _ Hl (proj1 Ea) E ltac:(discriminate)) as [_ Hl1].
    rewrite only_same in Hl1. eapply lock_inv_ext; [|exact Hl1]. apply only_upd.
  Qed.
  Lemma mlk_rel hs k l : mlk (l :: hs) k -> l < 4 -> exists k', lock_rel t0 l k = (Good tt, k') /\ mlk hs k'.
  Proof.
    intros (k4 & Hk & Hl) Hlt. destruct (lock_rel t0 l k4) as [r k4'] eqn:E.
    destruct (rel_inv _ _ _ _ hs _ _ Hl (only_same t0 _) E) as [-> Hl1].
    destruct (rel_agree _ _ k k4 _ _ (Hk l Hlt) E) as (k' & E' & Hk'). exists k'. split; [exact E'|].
    exists k4'. split; [auto|]. eapply lock_inv_ext; [|exact Hl1]. apply only_upd.
  Qed.
  Lemma mlk_far hs k k' : mlk hs k -> (forall l, l < 4 -> k' !! l = k !! l) -> mlk hs k'.
  Proof. intros (k4 & Hk & Hl) H. exists k4. split; [|exact Hl]. intros l Hlt. rewrite H by exact Hlt. auto. Qed.
  Lemma acq_far re t l m (k : locks) r k' : 4 <= l -> lock_acq re t l m k = (r, k') -> forall l', l' < 4 -> k' !! l' = k !! l'.
  Proof.
    intros Hl E l' Hl'. unfold lock_acq in E. assert (l <> l') by lia.
    destruct m, (k !! l) as [[o n|os]|]; try (destruct (re && (o =? t))); injection E as _ <-; rewrite ?lookup_insert_ne by auto; reflexivity.
  Qed.
  Lemma rel_far t l (k : locks) r k' : 4 <= l -> lock_rel t l k = (r, k') -> forall l', l' < 4 -> k' !! l' = k !! l'.
  Proof.
    intros Hl E l' Hl'. unfold lock_rel in E. assert (l <> l') by lia.
    destruct (k !! l) as [[o [|[|n]]|os]|]; [..|destruct (remove1 t os)|]; injection E as _ <-; rewrite ?lookup_delete_ne, ?lookup_insert_ne by auto; reflexivity.
  Qed.

  (** The main process alone, whatever other locks are held. *)
  Lemma mid_run {A} (p : prog pcmd A) : acqs (fun l => l < 4) p -> forall d hs r d' hs' k, Forall (fun l => l < 4) hs -> mlk hs k ->
    hrun p d hs = Some (r, d', hs') -> exists k', run t0 p (mkst d k) = (r, mkst d' k').
  Proof.
    induction p as [a|e|X c k0 IHk h IHh]; intros Hq d hs r d' hs' k Hf Hk E; simpl in E |- *.
    - injection E as <- <- _. eauto.
    - injection E as <- <- _. eauto.
    - destruct Hq as (Hc & Hqk & Hqh). destruct c as [l m|l|X c]; simpl in E |- *.
      + destruct (allowedb hs l m) eqn:Ea; [|discriminate]. destruct (mlk_acq hs k l m Hk Hc Ea) as (k' & -> & Hk').
        eapply (IHk tt (Hqk tt)); [|exact Hk'|exact E]. constructor; assumption.
      + destruct hs as [|l' hs0]; [discriminate|]. destruct (Nat.eqb_spec l' l) as [->|]; [|discriminate]. inversion Hf; subst.
        destruct (mlk_rel hs0 k l Hk ltac:(assumption)) as (k' & -> & Hk'). exact (IHk tt (Hqk tt) _ _ _ _ _ _ ltac:(eassumption) Hk' E).
      + change (@cexec pcmd psys psem X c) with (@pexec X c) in E |- *. destruct (pexec c d) as [[x|e|] d1]; [exact (IHk x (Hqk x) _ _ _ _ _ _ Hf Hk E)|exact (IHh e (Hqh e) _ _ _ _ _ _ Hf Hk E)|]. injection E as <- <- _. eauto.
  Qed.

  (** ** Steps of the pool *)
  Record base {A} (qm : prog pcmd A) (hs : list nat) (ps : list (prog scmd A)) (s : st psys) : Prop := {
    b_pm : ps !! t0 = Some (sys_p qm);
    b_only : main_only qm;
    b_acq : acqs (fun l => l < 4) qm;
    b_hs : Forall (fun l => l < 4) hs;
    b_mlk : mlk hs (lks s);
    b_vq : vq (dat s);
    b_oth : forall j p, j <> t0 -> ps !! j = Some p -> asidep p }.

  Lemma step_other {A} (qm : prog pcmd A) hs ps s j ps' s' : base qm hs ps s -> j <> t0 -> cstep j (ps, s) = Some (ps', s') ->
    base qm hs ps' s' /\ exists ext, length ext <= 1 /\ above ext (dat s) (dat s').
  Proof.
    intros B Hj E. unfold cstep in E. cbn [fst snd] in E. destruct (ps !! j) as [p|] eqn:Ep; [|discriminate].
    pose proof (b_oth _ _ _ _ B j p Hj Ep) as Hp. destruct (pstep j p s) as [[p' s1]|] eqn:Es; [|discriminate]. injection E as <- <-.
    destruct p as [a|e|X c k h]; try discriminate. cbn [asidep] in Hp. destruct Hp as (Hc & Hk & Hh). cbn [pstep] in Es.
    assert (G : forall o, exec j c s = (o, s1) -> mlk hs (lks s1) /\ exists ext, length ext <= 1 /\ above ext (dat s) (dat s1)).
    { intros o Eo. pose proof (b_mlk _ _ _ _ B) as Hm. pose proof (b_vq _ _ _ _ B) as Hv.
      destruct c as [l m|l|X c]; simpl in Eo.
      - destruct (lock_acq (reent l) j l m (lks s)) as [r k1] eqn:El. injection Eo as _ <-. cbn [lks dat].
        split; [apply (mlk_far _ _ _ Hm), (acq_far _ _ _ _ _ _ _ Hc El)|]. exists []. split; [simpl; lia|apply above_refl, Hv].
      - destruct (lock_rel j l (lks s)) as [r k1] eqn:El. injection Eo as _ <-. cbn [lks dat].
        split; [apply (mlk_far _ _ _ Hm), (rel_far _ _ _ _ _ Hc El)|]. exists []. split; [simpl; lia|apply above_refl, Hv].
      - destruct (sexec c (dat s)) as [r d1] eqn:El. injection Eo as _ <-. cbn [lks dat]. split; [exact Hm|].
        exact (other_op c (dat s) r d1 Hc Hv El). }
    destruct (exec j c s) as [[x|e|] s2] eqn:Eo; [| |discriminate]; injection Es as <- <-;
      destruct (G _ eq_refl) as (G1 & ext & G2 & G3); (split; [|eauto]);
      (constructor; [rewrite list_lookup_insert_ne by auto; apply B|apply B|apply B|apply B|exact G1|apply G3|];
       intros i q Hi Hq; destruct (decide (i = j)) as [->|Hne];
         [rewrite list_lookup_insert in Hq by (eapply lookup_lt_Some, Ep); injection Hq as <-; auto
         |rewrite list_lookup_insert_ne in Hq by auto; apply (b_oth _ _ _ _ B i q Hi Hq)]).
  Qed.

  Lemma base_main {A} (qm qm' : prog pcmd A) hs hs' ps s s' : base qm hs ps s ->
    main_only qm' -> acqs (fun l => l < 4) qm' -> Forall (fun l => l < 4) hs' -> mlk hs' (lks s') -> vq (dat s') ->
    base qm' hs' (<[t0 := sys_p qm']> ps) s'.
  Proof.
    intros B H1 H2 H3 H4 H5. constructor; auto.
    - apply list_lookup_insert. eapply lookup_lt_Some, (b_pm _ _ _ _ B).
    - intros j p Hj Hp. rewrite list_lookup_insert_ne in Hp by auto. apply (b_oth _ _ _ _ B j p Hj Hp).
  Qed.

  (** A step of the main process whose way to the end is known. *)
  Lemma step_main {A} (qm : prog pcmd A) hs ps s ext d0 r dend : base qm hs ps s -> above ext d0 (dat s) ->
    hrun qm d0 hs = Some (Good r, dend, []) ->
    (qm = Ret r /\ d0 = dend) \/
    exists qm' hs' d1 ps' s', cstep t0 (ps, s) = Some (ps', s') /\ base qm' hs' ps' s' /\ above ext d1 (dat s') /\
      hrun qm' d1 hs' = Some (Good r, dend, []) /\ len qm d0 = S (len qm' d1).
  Proof.
    intros B Ha E. destruct B as [H1 H2 H3 H4 H5 H6 H7] eqn:EB. clear EB. pose proof B as B0.
    unfold cstep. cbn [fst snd]. rewrite H1. destruct qm as [a|e|X c k h]; simpl in E.
    - injection E as <- <- _. left. auto.
    - discriminate.
    - right. destruct H2 as (Hc & Hk & Hh), H3 as (Hq & Hqk & Hqh). destruct c as [l m|l|X c]; unfold sys_p at 1; simpl lift; simpl pstep.
      + destruct (allowedb hs l m) eqn:Ea; [|discriminate]. destruct (mlk_acq hs _ l m H5 Hq Ea) as (k' & -> & Hk').
        exists (k tt), (l :: hs), d0, (<[t0 := sys_p (k tt)]> ps), (mkst (dat s) k'). split; [reflexivity|].
        split; [eapply base_main; eauto|]. repeat split; auto; apply Ha.
      + destruct hs as [|l' hs0]; [discriminate|]. destruct (Nat.eqb_spec l' l) as [->|]; [|discriminate]. inversion H4; subst.
        destruct (mlk_rel hs0 _ l H5 ltac:(assumption)) as (k' & -> & Hk').
        exists (k tt), hs0, d0, (<[t0 := sys_p (k tt)]> ps), (mkst (dat s) k'). split; [reflexivity|].
        split; [eapply base_main; eauto|]. repeat split; auto; apply Ha.
      + change (@cexec pcmd psys psem X c) with (@pexec X c) in E. destruct (pexec c d0) as [r1 d1] eqn:Ec.
        assert (Hb : r1 <> Block) by (intros ->; discriminate).
        destruct (main_op c ext d0 (dat s) r1 d1 Hc Ha Ec Hb) as (_ & _ & d3 & E3 & Ha').
        rewrite E3. cbn [len]. rewrite Ec. destruct r1 as [x|e|]; [..|congruence].
        * exists (k x), hs, d1, (<[t0 := sys_p (k x)]> ps), (mkst d3 (lks s)). split; [reflexivity|].
          split; [eapply base_main; eauto; apply Ha'|]. repeat split; auto; apply Ha'.
        * exists (h e), hs, d1, (<[t0 := sys_p (h e)]> ps), (mkst d3 (lks s)). split; [reflexivity|].
          split; [eapply base_main; eauto; apply Ha'|]. repeat split; auto; apply Ha'.
  Qed.

  (** ** After force_stop() *)
  Definition onway {A} (r : A) (dend : psys) (n : nat) (ps : list (prog scmd A)) (s : st psys) : Prop :=
    exists qm hs d0 ext, base qm hs ps s /\ above ext d0 (dat s) /\ hrun qm d0 hs = Some (Good r, dend, []) /\ len qm d0 = n.
  Lemma onway_step {A} (r : A) dend n ps s j ps' s' : onway r dend n ps s -> cstep j (ps, s) = Some (ps', s') ->
    exists n', onway r dend n' ps' s' /\ (if j =? t0 then n = S n' else n' = n).
  Proof.
    intros (qm & hs & d0 & ext & B & Ha & E & En) Es. destruct (Nat.eqb_spec j t0) as [->|Hj].
    - destruct (step_main qm hs ps s ext d0 r dend B Ha E) as [[-> ->]|(qm' & hs' & d1 & ps1 & s1 & E1 & B1 & A1 & R1 & L1)].
      + exfalso. unfold cstep in Es. cbn [fst snd] in Es. rewrite (b_pm _ _ _ _ B) in Es. discriminate.
      + rewrite E1 in Es. injection Es as <- <-. exists (len qm' d1). split; [|congruence]. exists qm', hs', d1, ext. auto.
    - destruct (step_other qm hs ps s j ps' s' B Hj Es) as (B' & e & _ & Ha'). exists n. split; [|reflexivity].
      exists qm, hs, d0, (ext ++ e). split; [exact B'|]. split; [eapply above_trans; eauto|]. auto.
  Qed.
  Lemma onway_run {A} (r : A) dend sch : forall n ps s ps' s', onway r dend n ps s -> sched_run sch (ps, s) = Some (ps', s') ->
    exists n', onway r dend n' ps' s' /\ n = n' + count_occ Nat.eq_dec sch t0.
  Proof.
    induction sch as [|j sch IH]; intros n ps s ps' s' O E; simpl in E.
    - injection E as <- <-. exists n. split; [exact O|]. simpl. lia.
    - destruct (cstep j (ps, s)) as [[ps1 s1]|] eqn:Es; [|discriminate].
      destruct (onway_step r dend n ps s j ps1 s1 O Es) as (n1 & O1 & Hn). destruct (IH n1 ps1 s1 ps' s' O1 E) as (n' & O' & Hn').
      exists n'. split; [exact O'|]. cbn [count_occ]. destruct (Nat.eq_dec j t0) as [->|Hj].
      + rewrite Nat.eqb_refl in Hn. lia.
      + apply Nat.eqb_neq in Hj. rewrite Hj in Hn. lia.
  Qed.
  Lemma onway_end {A} (r : A) dend n ps s : onway r dend n ps s ->
    (exists later, ps !! t0 = Some (Ret r) /\ above later dend (dat s)) \/ (0 < n /\ can_step t0 (ps, s)).
  Proof.
    intros (qm & hs & d0 & ext & B & Ha & E & En).
    destruct (step_main qm hs ps s ext d0 r dend B Ha E) as [[-> ->]|(qm' & hs' & d1 & ps1 & s1 & E1 & B1 & A1 & R1 & L1)].
    - left. exists ext. split; [exact (b_pm _ _ _ _ B)|exact Ha].
    - right. split; [lia|]. exists (ps1, s1). exact E1.
  Qed.

  (** ** Before force_stop(): with the marker in the queue, wait() would end.  [taken]: what
      it has received so far; [Q xs d']: the end state [d'] is right for the sequence [xs]. *)
  Definition stopped (f : nat) (xs : list msg) : Prop := exists pre post, xs = pre ++ QStop :: post /\ length pre < f.
  Variable Q : list msg -> psys -> Prop.
  Hypothesis Q_ext : forall xs d d', Q xs d -> above [] d d' -> Q xs d'.
  Definition would {A} (r : A) (f : nat) (taken : list msg) (qm : prog pcmd A) (hs : list nat) (d : psys) : Prop :=
    forall ext, stopped f (inbox d ++ ext) -> exists dend, hrun qm (addq ext d) hs = Some (Good r, dend, []) /\ Q (taken ++ inbox d ++ ext) dend.
  Lemma would_other {A} (r : A) f tk (qm : prog pcmd A) hs d d' e : main_only qm -> would r f tk qm hs d -> above e d d' -> would r f tk qm hs d'.
  Proof using Q_ext.
    intros Hm W Ha ext S. pose proof Ha as (V & V' & _ & _ & _ & Ei). rewrite Ei, <- app_assoc in S |- *. destruct (W _ S) as (dend & E & HQ).
    destruct (above_hrun qm Hm [] (addq (e ++ ext) d) (addq ext d') hs _ _ _
      (above_same _ _ _ _ (above_addq _ _ V) (above_trans _ _ _ _ _ Ha (above_addq ext _ V'))) E ltac:(discriminate)) as (d3 & E3 & A3). eauto.
  Qed.
  Lemma would_main {A} (r : A) f tk (qm : prog pcmd A) hs ps s ps' s' : base qm hs ps s -> would r (S f) tk qm hs (dat s) -> length (inbox (dat s)) <= f ->
    cstep t0 (ps, s) = Some (ps', s') ->
    exists qm' hs' fr, base qm' hs' ps' s' /\ would r f (tk ++ fr) qm' hs' (dat s') /\ inbox (dat s) = fr ++ inbox (dat s').
  Proof using Q_ext.
    intros B W Hl Es. pose proof B as [H1 H2 H3 H4 H5 H6 H7].
    destruct (W [QStop]) as (dx & Ex & _). { exists (inbox (dat s)), []. split; [reflexivity|lia]. }
    unfold cstep in Es. cbn [fst snd] in Es. rewrite H1 in Es. destruct qm as [a|e|X c k h]; try discriminate.
    destruct H2 as (Hc & Hk & Hh), H3 as (Hq & Hqk & Hqh). destruct c as [l m|l|X c]; unfold sys_p in Es; simpl in Es.
    - simpl in Ex. destruct (allowedb hs l m) eqn:Ea; [|discriminate]. destruct (mlk_acq hs _ l m H5 Hq Ea) as (k' & E & Hk').
      rewrite E in Es. injection Es as <- <-. exists (k tt), (l :: hs), []. split; [eapply base_main; eauto|]. split; [|reflexivity].
      intros ext (pre & post & S1 & S2). rewrite app_nil_r. destruct (W ext) as (dend & Ed & HQ); [exists pre, post; split; [exact S1|lia]|].
      simpl in Ed. rewrite Ea in Ed. eauto.
    - simpl in Ex. destruct hs as [|l' hs0]; [discriminate|]. destruct (Nat.eqb_spec l' l) as [->|]; [|discriminate]. inversion H4; subst.
      destruct (mlk_rel hs0 _ l H5 ltac:(assumption)) as (k' & E & Hk'). rewrite E in Es. injection Es as <- <-.
      exists (k tt), hs0, []. split; [eapply base_main; eauto|]. split; [|reflexivity].
      intros ext (pre & post & S1 & S2). rewrite app_nil_r. destruct (W ext) as (dend & Ed & HQ); [exists pre, post; split; [exact S1|lia]|].
      simpl in Ed. rewrite Nat.eqb_refl in Ed. eauto.
    - destruct (pexec c (dat s)) as [r1 d1] eqn:Ec.
      assert (Hb : r1 <> Block) by (intros ->; discriminate).
      destruct (main_op c [] (dat s) (dat s) r1 d1 Hc (above_refl _ H6) Ec Hb) as (V1 & (fr & F1 & F2) & _).
      assert (G : forall qm', main_only qm' -> (forall d2 d3, pexec c d2 = (r1, d3) -> hrun (Act (Op c) k h) d2 hs = hrun qm' d3 hs) -> would r f (tk ++ fr) qm' hs d1).
      { intros qm' Hm' Hrw ext (pre & post & S1 & S2).
        destruct (W ext) as (dend & Ed & HQ). { exists (fr ++ pre), post. rewrite F2, <- !app_assoc, S1, app_length. split; [reflexivity|lia]. }
        destruct (main_op c ext (dat s) (addq ext (dat s)) r1 d1 Hc (above_addq _ _ H6) Ec Hb) as (_ & _ & d3 & E3 & A3).
        rewrite (Hrw _ _ E3) in Ed.
        destruct (above_hrun qm' Hm' [] d3 (addq ext d1) hs _ _ _ (above_same _ _ _ _ A3 (above_addq _ _ V1)) Ed ltac:(discriminate)) as (d4 & E4 & A4).
        exists d4. split; [exact E4|]. rewrite F2 in HQ. rewrite <- !app_assoc in HQ |- *. eauto. }
      destruct r1 as [x|e|]; [..|congruence]; injection Es as <- <-.
      + exists (k x), hs, fr. split; [eapply base_main; eauto|]. split; [|exact F2]. apply G; [auto|].
        intros d2 d3 E. simpl. change (@cexec pcmd psys psem X c d2) with (pexec c d2). rewrite E. reflexivity.
      + exists (h e), hs, fr. split; [eapply base_main; eauto|]. split; [|exact F2]. apply G; [auto|].
        intros d2 d3 E. simpl. change (@cexec pcmd psys psem X c d2) with (pexec c d2). rewrite E. reflexivity.
  Qed.
  Lemma would_run {A} (r : A) sch : forall f tk qm hs ps s ps' s', base qm hs ps s -> would r f tk qm hs (dat s) ->
    length (inbox (dat s)) + length sch < f -> sched_run sch (ps, s) = Some (ps', s') ->
    exists f' tk' qm' hs', base qm' hs' ps' s' /\ would r f' tk' qm' hs' (dat s') /\ length (inbox (dat s')) < f' /\
      tk' ++ inbox (dat s') = tk ++ inbox (dat s) ++ arrivals t0 sch (ps, s).
  Proof using Q_ext.
    induction sch as [|j sch IH]; intros f tk qm hs ps s ps' s' B W Hl E; simpl in E, Hl |- *.
    - injection E as <- <-. exists f, tk, qm, hs. split; [exact B|]. split; [exact W|]. split; [lia|]. rewrite app_nil_r. reflexivity.
    - destruct (cstep j (ps, s)) as [[ps1 s1]|] eqn:Es; [|discriminate]. cbn [snd]. destruct (Nat.eqb_spec j t0) as [->|Hj].
      + destruct f as [|f]; [lia|]. destruct (would_main r f tk qm hs ps s ps1 s1 B W ltac:(lia) Es) as (qm' & hs' & fr & B' & W' & L').
        destruct (IH f (tk ++ fr) qm' hs' ps1 s1 ps' s' B' W') as (f2 & tk2 & qm2 & hs2 & B2 & W2 & L2 & T2); [rewrite L', app_length in Hl; lia|exact E|].
        exists f2, tk2, qm2, hs2. split; [exact B2|]. split; [exact W2|]. split; [exact L2|]. rewrite T2, L', <- !app_assoc. reflexivity.
      + destruct (step_other qm hs ps s j ps1 s1 B Hj Es) as (B' & e & Le & Ha). pose proof Ha as (_ & _ & _ & _ & _ & Ei).
        destruct (IH f tk qm hs ps1 s1 ps' s' B' (would_other r f tk qm hs _ _ e (b_only _ _ _ _ B) W Ha)) as (f2 & tk2 & qm2 & hs2 & B2 & W2 & L2 & T2); [|exact E|].
        { rewrite Ei, app_length. lia. }
        exists f2, tk2, qm2, hs2. split; [exact B2|]. split; [exact W2|]. split; [exact L2|].
        rewrite T2, Ei, List.skipn_app, List.skipn_all, Nat.sub_diag, <- !app_assoc. reflexivity.
  Qed.
End Main.

(** ** C110 *)
(** Where wait() ends when the sequence [xs] is received from [d] on. *)
Definition ended (m : nat) (d : psys) (xs : list msg) (d' : psys) : Prop :=
  exists h rest, wait_cut xs (s_n d) = Some (h, rest) /\ received m d d' h /\ inbox d' = rest.
Lemma ended_ext m d xs d1 d2 : ended m d xs d1 -> above [] d1 d2 -> ended m d xs d2.
Proof.
  intros (h & rest & E1 & (g & G1 & G2 & G3 & G4) & E3) (_ & _ & A3 & A4 & _ & A6). exists h, rest. split; [exact E1|].
  split; [|rewrite A6, app_nil_r; exact E3]. exists g. unfold records, current, main_closed in *. rewrite A3, A4. auto.
Qed.
Lemma wait_would m d fuel : 1 <= m -> preach m d -> main_closed d = false ->
  would (ended m d) (WaitEnds (Good tt)) fuel [] (bind (attempt (lp_wait fuel)) (fun r => Ret (WaitEnds r))) [] d.
Proof.
  intros Hm Hr Hc ext (pre & post & S1 & S2).
  pose proof (preach_pinv m d Hm Hr) as Hp. pose proof (pinv_validq m d Hp) as Hv.
  pose proof (pinv_abs m d Hp Hc) as Ha. set (p := (mkslog (records d) (current d), s_n d)) in *.
  set (q := pre ++ [QStop]).
  assert (Hv' : valid_q (set_queue q d)) by (rewrite valid_set_queue; exact Hv).
  assert (Ha' : main_is m false (set_queue q d) (abs_main m p)) by exact Ha.
  pose proof (queue_set_queue q d Hv) as Eq.
  pose proof (wstep_cut m q (abs_main m p)) as Hs. change (mn (abs_main m p)) with (s_n d) in Hs.
  assert (Hcut : exists h rest, wait_cut q (s_n d) = Some (h, rest)).
  { unfold q. clear Hs. destruct (wait_cut pre (s_n d)) as [[h r]|] eqn:Ew; [rewrite (cut_app _ _ _ _ [QStop] Ew)|rewrite (cut_stop_none _ _ Ew)]; eauto. }
  destruct Hcut as (h & rest & Ecut). rewrite Ecut in Hs. destruct Hs as [_ Hs].
  pose proof (hok_wait_ok m q fuel (set_queue q d) _ _ _ Hv' Ha' Eq Hs ltac:(unfold q; rewrite app_length; simpl; lia)) as Hok.
  assert (Hok2 : hok (bind (attempt (lp_wait fuel)) (fun r => Ret (WaitEnds r))) (set_queue q d) [] (Good (WaitEnds (Good tt)))
    (main_set m false (rsteps m h (abs_main m p)) (set_queue rest (set_queue q d)))).
  { eapply hok_bind; [exact (hok_attempt _ _ _ _ _ Hok)|apply hok_ret]. }
  destruct Hok2 as (hs & E & Hh). rewrite (Hh ltac:(discriminate)) in E.
  assert (Hmo : main_only (bind (attempt (lp_wait fuel)) (fun r => Ret (WaitEnds r)))).
  { apply main_only_bind; [apply main_only_attempt, main_only_wait|simpl; auto]. }
  assert (Hab : above post (set_queue q d) (addq ext d)).
  { assert (V : vq (addq ext d)) by (apply valid_set_queue; exact Hv). repeat split; auto.
    change (inbox (addq ext d)) with (queue (set_queue (inbox d ++ ext) d)). rewrite queue_set_queue by exact Hv.
    change (inbox (set_queue q d)) with (queue (set_queue q d)). rewrite Eq. unfold q. rewrite <- app_assoc. exact S1. }
  destruct (above_hrun _ Hmo post _ _ _ _ _ _ Hab E ltac:(discriminate)) as (d3 & E3 & A3).
  exists d3. split; [exact E3|]. exists h, (rest ++ post). split.
  { cbn [app]. rewrite S1. change (QStop :: post) with ([QStop] ++ post). rewrite app_assoc. apply cut_app, Ecut. }
  set (dr := main_set _ _ _ _) in *.
  assert (Hrec : received m d dr h).
  { unfold dr. rewrite rsteps_gmsgs. rewrite set_queue_twice. apply received_intro. }
  assert (Hin : inbox dr = rest). { unfold dr. rewrite set_queue_twice. apply (queue_set_queue rest d Hv). }
  destruct A3 as (_ & _ & A3 & A4 & _ & A6). split; [|rewrite A6, Hin; reflexivity].
  destruct Hrec as (g & G1 & G2 & G3 & G4). exists g. unfold records, current, main_closed in *. rewrite A3, A4. auto.
Qed.

Lemma with_wait_base css fuel d : Forall (Forall aside) css -> vq d ->
  base (length css) (bind (attempt (lp_wait fuel)) (fun r => Ret (WaitEnds r))) [] (with_wait css fuel) (idle d).
Proof.
  intros Ho Hv. unfold with_wait. constructor.
  - rewrite <- (map_length caller css), list_lookup_middle; reflexivity.
  - apply main_only_bind; [apply main_only_attempt, main_only_wait|simpl; auto].
  - apply acqs_bind; [apply acqs_attempt, acqs_wait|simpl; auto].
  - constructor.
  - exists (lks (idle d)). split; [reflexivity|]. intros l. cbn [lks]. rewrite lookup_empty. intros i. unfold only. destruct (i =? _); reflexivity.
  - exact Hv.
  - intros j p Hj Hp. rewrite lookup_app in Hp. rewrite lookup_map in Hp. destruct (css !! j) as [cs|] eqn:Ej.
    + simpl in Hp. injection Hp as <-. apply asidep_caller. rewrite List.Forall_forall in Ho. apply Ho.
      apply elem_of_list_In. eapply elem_of_list_lookup_2, Ej.
    + simpl in Hp. apply lookup_ge_None in Ej. rewrite map_length in Hp. destruct (j - length css) as [|n] eqn:En; [lia|]. discriminate.
Qed.

Lemma stop_ends_wait m d css fuel sch ps s t : 1 <= m -> preach m d -> main_closed d = false -> Forall (Forall aside) css ->
  sched_run sch (with_wait css fuel, idle d) = Some (ps, s) -> length (inbox d) + length sch < fuel ->
  exists s1 p N s2, run t (s_call (ToMain PForceStop)) s = (Good (FromMain RUnit), s1) /\ lks s1 = lks s /\
    ps !! length css = Some p /\ run (length css) p s1 = (Good (WaitEnds (Good tt)), s2) /\
    (let xs := inbox d ++ arrivals (length css) sch (with_wait css fuel, idle d) in
     match wait_cut xs (s_n d) with
     | None => received m d (dat s2) (xs ++ [QStop]) /\ inbox (dat s2) = []
     | Some (h, rest) => received m d (dat s2) h /\ inbox (dat s2) = rest ++ [QStop]
     end) /\
    forall sch' ps' s', sched_run sch' (ps, s1) = Some (ps', s') ->
      (exists later, ps' !! length css = Some (Ret (WaitEnds (Good tt))) /\
         s_main (dat s') = s_main (dat s2) /\ s_n (dat s') = s_n (dat s2) /\ inbox (dat s') = inbox (dat s2) ++ later) \/
      (count_occ Nat.eq_dec sch' (length css) < N /\ can_step (length css) (ps', s')).
Proof.
  intros Hm Hr Hc Ho E Hl. pose proof (preach_pinv m d Hm Hr) as Hp. pose proof (pinv_validq m d Hp) as Hv.
  destruct (would_run (length css) (ended m d) (ended_ext m d) (WaitEnds (Good tt)) sch fuel [] _ [] _ _ ps s (with_wait_base css fuel d Ho Hv) (wait_would m d fuel Hm Hr Hc) Hl E)
    as (f & tk & qm & hs & B & W & Lf & Htk).
  destruct (W [QStop]) as (dend & Ed & HQ). { exists (inbox (dat s)), []. split; [reflexivity|exact Lf]. }
  set (s1 := mkst (addq [QStop] (dat s)) (lks s)).
  destruct (mid_run (length css) qm (b_acq _ _ _ _ _ B) _ _ _ _ _ (lks s) (b_hs _ _ _ _ _ B) (b_mlk _ _ _ _ _ B) Ed) as [k' Erun].
  exists s1, (sys_p qm), (len qm (dat s1)), (mkst dend k'). split; [reflexivity|]. split; [reflexivity|].
  split; [exact (b_pm _ _ _ _ _ B)|]. split; [rewrite run_sys_p; exact Erun|]. split.
  { cbn [app dat] in Htk |- *. rewrite app_assoc, Htk in HQ. destruct HQ as (h & rest & E1 & E2 & E3). set (xs := inbox d ++ arrivals _ _ _) in *.
    destruct (wait_cut xs (s_n d)) as [[h0 r0]|] eqn:Ew.
    - rewrite (cut_app _ _ _ _ [QStop] Ew) in E1. injection E1 as <- <-. auto.
    - rewrite (cut_stop_none _ _ Ew) in E1. injection E1 as <- <-. auto. }
  pose proof (above_addq [QStop] _ (b_vq _ _ _ _ _ B)) as Ha.
  assert (O : onway (length css) (WaitEnds (Good tt)) dend (len qm (dat s1)) ps s1).
  { exists qm, hs, (dat s1), []. split; [|split; [apply above_refl, Ha|auto]].
    destruct B as [B1 B2 B3 B4 B5 B6 B7]. constructor; auto. apply Ha. }
  intros sch' ps' s' E'. destruct (onway_run _ _ _ _ _ _ _ _ _ O E') as (n' & O' & En).
  destruct (onway_end _ _ _ _ _ _ O') as [(later & L1 & L2)|[H0 Hs]].
  - left. exists later. destruct L2 as (_ & _ & L3 & L4 & _ & L5). auto.
  - right. split; [lia|exact Hs].
Qed.
