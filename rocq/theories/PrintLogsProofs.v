(** * PrintLogsProofs: processes that print into LineFileBuffers on one log *)
From stdpp Require Import gmap.
From Coq Require Import List NArith ZArith Bool Arith Lia.
From Verif Require Import PyStr Prog ProgFacts PyIO Base Spec SpecFacts LineBuf LineBufFacts LineBufSpec LineBufProofs
  Conc Locks Atomic Serial Held Blocks FileBuf FileFacts FileSpec FileMore FileStmt FileProofs FileConcSpec FileConc FileTmpSpec FileTmp
  Ctx Print PrintSpec PrintProofs PrintPool PrintLogs.
From Verif Require ProcPool ProcPoolProofs PrintFile PrintPoolProofs PrintCliProofs ProcRun.
Import ListNotations.
Local Open Scope prog_scope.
Local Open Scope nat_scope.

(** ** One process alone *)
Lemma bal_fwrite b data : b_tl b <> b_fl b -> bal [b_tl b; b_fl b] (fb_write b data).
Proof.
  intros Hlk. unfold fb_write. apply bal_bind; [apply bal_both; [exact Hlk|]; apply bal_bind; intros; [apply bal_op|apply bal_ret]|].
  intros w. destruct (negb w); [apply bal_raise|apply bal_write_body].
Qed.
Lemma on_run b {A} t (p : prog fcmd A) d : bal [b_tl b; b_fl b] p ->
  exists r d', run t p (mkst d ∅) = (r, mkst d' ∅) /\ r <> Block /\ on p d = (r, d').
Proof.
  intros Hb. assert (Hu : unlocked b ∅) by (split; apply lookup_empty).
  eexists _, _. split; [apply (run_bal b t p d ∅ Hu Hb)|]. split; [apply srun_nb, fexec_nb|].
  unfold on. rewrite (run_bal b 0 p d ∅ Hu Hb). reflexivity.
Qed.
Lemma c94_alone b k exc c s d t r s' d' : wf_fbuf b ->
  kexec (file_buffer k b (fun _ d => d) exc) c s d = (r, s', d') ->
  run t (fil_code b k exc c s) (mkst d ∅) = (Good (r, s'), mkst d' ∅) /\ r <> Hangs.
Proof.
  intros [_ Hlk] Ek.
  destruct (PrintCliProofs.kprog_run t (fil_write b k) (fil_exit b k) exc (file_buffer k b (fun _ d => d) exc) eq_refl (fun _ _ => eq_refl))
    with (b := c) (s := s) (d := d) as (r1 & s1 & d1 & E1 & Hr & H).
  - intros o data d0. unfold fil_write, file_buffer. cbn [c_write alone].
    destruct (o =? k); [|eexists _, _; split; [reflexivity|split; [discriminate|reflexivity]]].
    apply (on_run b), bal_fwrite, Hlk.
  - intros o e d0. unfold fil_exit, file_buffer. cbn [c_exit alone].
    destruct (o =? k); [|eexists _, _; split; [reflexivity|split; [discriminate|reflexivity]]].
    destruct e; apply (on_run b); [apply bal_send_exc|apply bal_new_line].
  - rewrite Ek in E1. injection E1 as <- <- <-. auto.
Qed.

(** ** One process among others *)
(** What the calls should be, as a class of Print.v. *)
Definition exit_call (e : option excobj) : fcall := match e with None => XNewLine | Some x => XSendExc x end.
Definition fres_of (data : text) : nat := write_result (fst (seg data)) (snd (seg data)).
Definition ideal_file (k : nat) (exc : exn -> excobj) : classes (list fcall) :=
  alone k (fun data w => (Good (fres_of data), w ++ [XWrite data])) (fun e w => (Good tt, w ++ [exit_call e])) (fun _ w => w) exc.
Lemma plays_one m c o es o' r : plays m c o es o' r -> plays_all m [c] o es o' [r].
Proof. intros H. rewrite <- (app_nil_r es). econstructor; [exact H|constructor]. Qed.
Lemma plays_all_cat m cs1 o es1 o1 rs1 : plays_all m cs1 o es1 o1 rs1 -> forall cs2 es2 o2 rs2, plays_all m cs2 o1 es2 o2 rs2 ->
  plays_all m (cs1 ++ cs2) o (es1 ++ es2) o2 (rs1 ++ rs2).
Proof.
  induction 1 as [|c cs o es o1 r es' o2 rs H H' IH]; intros; [assumption|]. cbn [app]. rewrite <- app_assoc. econstructor; eauto.
Qed.
Lemma ideal_block k exc b s r s' cs : well_nested b -> ~ In k (entered b) ->
  kexec (ideal_file k exc) (KWith (Buf k) b) s [] = (r, s', cs) ->
  exists l, told exc (Some k) (Some k) b l r /\ all_good l /\ out s' = out s /\ err s' = err s /\
    cs = map XWrite (texts_to k l) ++ [exit_call (exc_value r)].
Proof.
  intros Hn Hk Ek. unfold ideal_file in Ek.
  destruct (with_alone _ _ _ _ _ _ _ _ _ _ _ Hn Hk Ek) as (l & r0 & x1 & H1 & H2 & _ & H4).
  assert (Hw : within (fun _ => True) (entered b) l).
  { eapply told_within; [|exact H1]. apply List.Forall_forall. auto. }
  assert (Hstep : forall (w0 : list fcall) ts (w : list fcall) data, w = w0 ++ map XWrite ts -> True ->
    exists n w1, (Good (fres_of data), w ++ [XWrite data]) = (Good n, w1) /\ w1 = w0 ++ map XWrite (ts ++ [data])).
  { intros w0 ts w data -> _. eexists _, _. split; [reflexivity|]. rewrite map_app, app_assoc. reflexivity. }
  destruct (alone_effects k _ _ _ _ (fun w0 ts w => w = w0 ++ map XWrite ts) (fun _ => True) l Hstep (fun _ _ _ _ H => H) (entered b) Hk Hw [] [] [] x1 eq_refl H2)
    as [Hg Hx]. cbn [app] in Hx. subst x1.
  pose proof (told_good _ _ _ _ _ _ H1 Hg) as Hr0. destruct (H4 Hr0) as (Ho & Hrr & x & Hx & Hrx).
  injection Hx as <- <-. cbn [after_call] in Hrx. subst r. exists l. auto.
Qed.

(** ** Lock discipline of the calls *)
Section Unret.
  Context {C : Type -> Type}.
  Definition wshape {A} (b hs : list nat) (q : prog C A) : Prop :=
    match q with
    | Ret _ | Raise _ => hs = b
    | @Act _ _ X c k h =>
        match c in cmd _ X return (X -> prog C A) -> (exn -> prog C A) -> Prop with
        | Op c => fun k h => (forall x, wlk b hs (k x)) /\ (forall e, wlk b hs (h e))
        | Acq l m => fun k _ => may_acq hs l m /\ wlk b (l :: hs) (k tt)
        | Rel l => fun k _ => exists hs', hs = l :: hs' /\ wlk b hs' (k tt)
        end k h
    end.
  Lemma wlk_shape {A} b hs (q : prog C A) : wlk b hs q -> wshape b hs q.
  Proof. destruct 1; simpl; eauto. Qed.
  Lemma wlk_unret {A B} b (f : A -> B) (p : prog C A) : forall hs, wlk b hs (bind p (fun a => Ret (f a))) -> wlk b hs p.
  Proof.
    induction p as [a|e|X c k IHk h IHh]; intros hs H; apply wlk_shape in H; simpl in H.
    - subst. constructor.
    - subst. constructor.
    - destruct c as [l m|l|X c]; [|destruct H as (hs' & -> & H)|]; constructor; try apply H; intros; (apply IHk || apply IHh); apply H.
  Qed.
  Lemma acqs_unret {A B} P (f : A -> B) (p : prog C A) : ProcPool.acqs P (bind p (fun a => Ret (f a))) -> ProcPool.acqs P p.
  Proof. induction p as [a|e|X c k IHk h IHh]; simpl; auto. intros (H1 & H2 & H3). auto. Qed.
  Lemma wlk_kprog write exit_ exc : (forall o data, wlk [] [] (write o data)) -> (forall o e, wlk [] [] (exit_ o e)) ->
    forall c s, wlk [] [] (kprog (C:=C) write exit_ exc c s).
  Proof.
    intros Hw Hx. induction c as [|te data|k|e|b1 IH1 b2 IH2|b IH|mg b IH]; intros s; cbn [kprog]; try (constructor; fail).
    - destruct (target te (out s) (err s)); [|constructor]. apply wlk_bind; [apply wlk_attempt, Hw|intros; constructor].
    - apply wlk_bind; [apply IH1|]. intros [[|e|] s1]; cbn [fst snd]; [apply IH2|constructor..].
    - apply wlk_bind; [apply IH|intros; constructor].
    - apply wlk_bind; [apply IH|]. intros x. destruct mg; [|constructor..]. apply wlk_bind; [apply wlk_attempt, Hx|intros; constructor].
  Qed.
End Unret.

(** ** Which process holds a lock *)
Section Holders.
  Context {C : Type -> Type} {D : Type} `{!Sem C D}.
  Variable P : nat -> nat -> Prop.
  Definition holders {A} (ps : list (prog C A)) (k : locks) : Prop :=
    (forall i p, ps !! i = Some p -> ProcPool.acqs (P i) p) /\ (forall l t q, k !! l = Some (Excl t q) -> P t l).
  Lemma holders_sched {A} sch : forall (ps : list (prog C A)) s ps' s', holders ps (lks s) -> sched_run sch (ps, s) = Some (ps', s') -> holders ps' (lks s').
  Proof.
    induction sch as [|i sch IH]; intros ps s ps' s' H Hr; simpl in Hr; [injection Hr as <- <-; exact H|].
    destruct (cstep i (ps, s)) as [[ps1 s1]|] eqn:E; [|discriminate]. apply (IH ps1 s1 ps' s'); [|exact Hr]. clear IH Hr.
    unfold cstep in E. simpl in E. destruct (ps !! i) as [p|] eqn:Ep; [|discriminate]. destruct H as [H1 H2].
    destruct (pstep i p s) as [[p1 s2]|] eqn:Es; [|discriminate]. injection E as <- <-.
    pose proof (H1 i p Ep) as Ha. assert (Hi : i < length ps) by (eapply lookup_lt_Some; eauto).
    assert (Hgo : ProcPool.acqs (P i) p1 -> (forall l t q, lks s2 !! l = Some (Excl t q) -> P t l) -> holders (<[i:=p1]> ps) (lks s2)).
    { intros G1 G2. split; [|exact G2]. intros j pj Hj. destruct (decide (j = i)) as [->|Hne].
      - rewrite list_lookup_insert in Hj by exact Hi. injection Hj as <-. exact G1.
      - rewrite list_lookup_insert_ne in Hj by auto. eauto. }
    destruct p as [a|e|X c k h]; [discriminate|discriminate|]. simpl in Es, Ha. destruct Ha as (A1 & A2 & A3).
    destruct c as [l m|l|X c]; simpl in Es.
    - unfold lock_acq in Es.
      destruct (lks s !! l) as [[o q|os]|] eqn:El, m; try discriminate.
      + destruct (reent l && (o =? i)) eqn:Eo; [|discriminate]. apply andb_true_iff in Eo. destruct Eo as [_ Eo]. apply Nat.eqb_eq in Eo. subst o.
        injection Es as <- <-. apply Hgo; [apply A2|]. intros l' t q' Hl. cbn in Hl. destruct (decide (l' = l)) as [->|Hne].
        * rewrite lookup_insert in Hl. injection Hl as <- _. exact A1.
        * rewrite lookup_insert_ne in Hl by auto. eauto.
      + injection Es as <- <-. apply Hgo; [apply A2|]. intros l' t q' Hl. cbn in Hl. destruct (decide (l' = l)) as [->|Hne].
        * rewrite lookup_insert in Hl. discriminate.
        * rewrite lookup_insert_ne in Hl by auto. eauto.
      + injection Es as <- <-. apply Hgo; [apply A2|]. intros l' t q' Hl. cbn in Hl. destruct (decide (l' = l)) as [->|Hne].
        * rewrite lookup_insert in Hl. injection Hl as <- _. exact A1.
        * rewrite lookup_insert_ne in Hl by auto. eauto.
      + injection Es as <- <-. apply Hgo; [apply A2|]. intros l' t q' Hl. cbn in Hl. destruct (decide (l' = l)) as [->|Hne].
        * rewrite lookup_insert in Hl. discriminate.
        * rewrite lookup_insert_ne in Hl by auto. eauto.
    - assert (Hk : forall r k', lock_rel i l (lks s) = (r, k') -> forall l' t q, k' !! l' = Some (Excl t q) -> P t l').
      { intros r k' Hrel l' t q Hl. unfold lock_rel in Hrel. destruct (lks s !! l) as [[o [|[|q0]]|os]|] eqn:El.
        - injection Hrel as <- <-. apply lookup_delete_Some in Hl. destruct Hl as [_ Hl]. eauto.
        - injection Hrel as <- <-. apply lookup_delete_Some in Hl. destruct Hl as [_ Hl]. eauto.
        - injection Hrel as <- <-. destruct (decide (l' = l)) as [->|Hne].
          + rewrite lookup_insert in Hl. injection Hl as <- _. eauto.
          + rewrite lookup_insert_ne in Hl by auto. eauto.
        - destruct (remove1 i os) eqn:Eo; injection Hrel as <- <-.
          + apply lookup_delete_Some in Hl. destruct Hl as [_ Hl]. eauto.
          + destruct (decide (l' = l)) as [->|Hne]; [rewrite lookup_insert in Hl; discriminate|rewrite lookup_insert_ne in Hl by auto; eauto].
        - injection Hrel as <- <-. eauto. }
      destruct (lock_rel i l (lks s)) as [[x|e|] k'] eqn:Er; [| |discriminate]; injection Es as <- <-; (apply Hgo; [auto|]); apply (Hk _ _ eq_refl).
    - destruct (cexec c (dat s)) as [[x|e|] d'] eqn:Ec; [| |discriminate]; injection Es as <- <-; (apply Hgo; [auto|exact H2]).
  Qed.
End Holders.

(** The locks of a buffer. *)
Section Locks2.
  Variable b : fbuf.
  Notation aq := (ProcPool.acqs (fun l => l = b_tl b \/ l = b_fl b)).
  Ltac aqs := repeat match goal with
    | H : aq ?p |- aq ?p => exact H
    | |- aq (bind _ _) => apply ProcPool.acqs_bind; [|intros ?]
    | |- aq (op _) => apply ProcPool.acqs_op
    | |- aq (with_lock (b_tl b) _ _) => apply ProcPool.acqs_with; [left; reflexivity|]
    | |- aq (with_lock (b_fl b) _ _) => apply ProcPool.acqs_with; [right; reflexivity|]
    | |- aq (Ret _) => exact I
    | |- aq (Raise _) => exact I
    | |- aq (if ?x then _ else _) => destruct x
    | |- aq (match ?x with _ => _ end) => destruct x
    end.
  Lemma acqs_fcall c : aq (fb_call b c).
  Proof.
    assert (Hput : forall x s, aq (put_chars x s)) by (intros x s; induction s; cbn [put_chars]; aqs; auto).
    assert (Hfw : forall f s, aq (file_write f s)) by (intros f s; unfold file_write; aqs; apply Hput).
    assert (Hget : aq (fb_get_last_line b)) by (unfold fb_get_last_line; aqs).
    assert (Hwl : forall s, aq (fb_write_last_line b s)) by (intros s; unfold fb_write_last_line; aqs; apply Hfw).
    assert (Hcl : aq (fb_clean_last_line b)) by (unfold fb_clean_last_line; aqs).
    assert (Hco : forall k, aq (fb_count b k)) by (intros k; unfold fb_count; aqs).
    assert (Hmv : forall k k1, aq (fb_move b k k1)) by (intros k k1; induction k; cbn [fb_move]; aqs; auto).
    assert (Hst : forall ls, aq (fb_store b ls)) by (intros ls; induction ls; cbn [fb_store]; aqs; auto).
    assert (Hup : forall ls, aq (fb_update_records b ls)) by (intros ls; unfold fb_update_records; aqs; auto).
    assert (Hpl : forall ls, aq (fb_parse_lines b ls)) by (intros ls; unfold fb_parse_lines; aqs; auto).
    assert (Hbody : forall s, aq (fb_write_body b s)) by (intros s; unfold fb_write_body; cbv zeta; aqs; auto).
    assert (Hclosed : aq (fb_closed b)) by (unfold fb_closed; aqs).
    assert (Hnl : aq (fb_new_line b)) by (unfold fb_new_line; aqs; auto).
    assert (Hse : forall e, aq (fb_send_exc b e)) by (intros e; unfold fb_send_exc; aqs; auto).
    assert (Hrf : forall k, aq (fb_read_files b k)) by (intros k; induction k; cbn [fb_read_files]; aqs; auto).
    assert (Hra : forall ns, aq (fb_remove_all ns)) by (intros ns; induction ns; cbn [fb_remove_all]; aqs; auto).
    destruct c; cbn [fb_call]; unfold as_fres, fb_write, fb_read, fb_readable, fb_writable, fb_clear, fb_close, fb_len; cbv zeta; aqs;
      solve [auto|exact I].
  Qed.
  Lemma acqs_work exc x : aq (print_file exc b x).
  Proof.
    destruct x as [j|cs]; cbn [print_file]; (apply ProcPool.acqs_bind; [|intros; exact I]).
    - apply PrintPoolProofs.acqs_kprog; intros o y; [unfold fil_write|unfold fil_exit]; (destruct (o =? fj_obj j); [|exact I]).
      + apply (acqs_unret _ VNat). apply (acqs_fcall (XWrite y)).
      + destruct y as [y|]; apply (acqs_unret _ (fun _ => VUnit)); [apply (acqs_fcall (XSendExc y))|apply (acqs_fcall XNewLine)].
    - apply ProcPool.acqs_thread, List.Forall_map, List.Forall_forall. intros c _. apply acqs_fcall.
  Qed.
End Locks2.

Section OneLog.
  Variables (n : nat) (name : text) (fl : nat) (bs : nat -> fbuf) (m : nat).
  Hypothesis Hol : one_log n name fl bs.
  Hypothesis Hmax : forall i, i < n -> b_max (bs i) = m.
  Variables (l0 : list text) (v0 : text -> text).
  Section One.
    Variable i : nat.
    Hypothesis Hi : i < n.
    Notation b := (bs i).
    Notation bl o R p := (blk (mainl n fl bs) (eqF n fl bs) (openb n bs) (Jf n name fl bs m l0 v0) i o R p).
    Notation bnd := (blk_bind (mainl n fl bs) (eqF n fl bs) (openb n bs) (Jf n name fl bs m l0 v0) i).

    Lemma blk_fwrite data : utf8 data -> bl true (fun es o' r => o' = true /\ r = Good (fres_of data) /\
        plays m (XWrite data) true es true (Good (VNat (fres_of data)))) (fb_write b data).
    Proof using Hol Hmax Hi.
      intros Hu. unfold fb_write. eapply (bnd true (fun es o' r => es = [] /\ o' = true /\ r = Good true)); [apply blk_both; [exact Hi|auto]| |].
      2: { intros es o' e (_ & _ & E'). discriminate. }
      intros es o' a (-> & -> & E'). injection E' as ->. cbn [negb app].
      eapply blk_more; [apply (blk_write_body n name fl bs m Hol Hmax l0 v0 i Hi data Hu)|]. intros es o' r (x & -> & -> & ->).
      split; [reflexivity|]. split; [reflexivity|]. constructor. apply seg_segments.
    Qed.
    Lemma blk_fexit e : (forall x, e = Some x -> utf8 (ex_text x)) ->
      bl true (fun es o' r => o' = true /\ r = Good tt /\ plays m (exit_call e) true es true (Good VUnit))
        (match e with None => fb_new_line b | Some x => fb_send_exc b x end).
    Proof using Hol Hmax Hi.
      intros He. destruct e as [x|]; cbn [exit_call].
      - eapply blk_more; [apply (blk_send_exc n name fl bs m Hol Hmax l0 v0 i Hi x (He x eq_refl))|]. intros es o' r (H & -> & ->). auto.
      - eapply blk_more; [apply (blk_new_line n name fl bs m Hol Hmax l0 v0 i Hi)|]. intros es o' r (H & -> & ->). auto.
    Qed.

    Definition kpost (k : nat) (exc : exn -> excobj) (c : code) (s : sys) (w : list fcall) (es : list fstep) (o' : bool) (r : outcome (ending * sys)) : Prop :=
      o' = true /\ exists e s' cs rs, kexec (ideal_file k exc) c s w = (e, s', w ++ cs) /\ r = Good (e, s') /\ e <> Hangs /\
        (forall x, e = Throws x -> utf8 (ex_text x)) /\ plays_all m cs true es true rs.
    Lemma blk_kprog k exc c : Forall utf8 (code_texts c) -> Forall (fun e => utf8 (ex_text e)) (raised c) -> forall s w,
      bl true (kpost k exc c s w) (fil_code b k exc c s).
    Proof using Hol Hmax Hi.
      unfold fil_code. induction c as [|te data|j|e|c1 IH1 c2 IH2|c IH|mg c IH]; intros Ht Hr s w; cbn [kprog code_texts raised] in *.
      - apply blk_ret. split; [reflexivity|]. exists Ends, s, [], []. rewrite app_nil_r. repeat split; (discriminate || constructor).
      - unfold kpost. cbn [kexec]. destruct (target te (out s) (err s)) as [o|].
        2: { apply blk_ret. split; [reflexivity|]. exists Ends, s, [], []. rewrite app_nil_r. repeat split; (discriminate || constructor). }
        unfold ideal_file. cbn [c_write c_exc alone]. unfold fil_write. destruct (o =? k).
        + eapply (bnd true (fun es o' r => o' = true /\ r = Good (Good (fres_of data)) /\ plays m (XWrite data) true es true (Good (VNat (fres_of data))))).
          * eapply blk_attempt; [apply (blk_fwrite data (List.Forall_inv Ht))|]. intros es o' r (-> & -> & H). auto.
          * intros es o' a (-> & E & H). injection E as ->. apply blk_ret. split; [reflexivity|].
            exists Ends, s, [XWrite data], [Good (VNat (fres_of data))]. rewrite app_nil_r.
            repeat split; try discriminate. apply plays_one, H.
          * intros es o' e (_ & E & _). discriminate.
        + cbn [attempt bind]. apply blk_ret. split; [reflexivity|]. exists Ends, s, [], []. rewrite app_nil_r. repeat split; (discriminate || constructor).
      - apply blk_ret. split; [reflexivity|]. exists Ends, s, [], []. rewrite app_nil_r. repeat split; (discriminate || constructor).
      - apply blk_ret. split; [reflexivity|]. exists (Throws e), s, [], []. rewrite app_nil_r. split; [reflexivity|]. split; [reflexivity|].
        split; [discriminate|]. split; [|constructor]. intros x [= <-]. apply (List.Forall_inv Hr).
      - apply List.Forall_app in Ht as [Ht1 Ht2]. apply List.Forall_app in Hr as [Hr1 Hr2].
        eapply bnd; [apply (IH1 Ht1 Hr1 s w)|..].
        2: { intros es o' e (_ & e1 & s1 & cs & rs & _ & E & _). discriminate. }
        intros es o' a (-> & e & s1 & cs & rs & E1 & Ea & He & Hx & HP). injection Ea as ->. cbn [fst snd].
        destruct e as [|x|]; [| |congruence].
        + eapply blk_more; [apply (IH2 Ht2 Hr2 s1 (w ++ cs))|]. intros es' o' r (-> & e2 & s2 & cs2 & rs2 & F1 & -> & F2 & F3 & F4).
          split; [reflexivity|]. exists e2, s2, (cs ++ cs2), (rs ++ rs2). cbn [kexec]. rewrite E1, F1, app_assoc.
          split; [reflexivity|]. split; [reflexivity|]. split; [exact F2|]. split; [exact F3|]. eapply plays_all_cat; eauto.
        + apply blk_ret. rewrite app_nil_r. split; [reflexivity|]. exists (Throws x), s1, cs, rs. cbn [kexec]. rewrite E1. auto 6.
      - eapply bnd; [apply (IH Ht Hr s w)|..].
        2: { intros es o' e (_ & e1 & s1 & cs & rs & _ & E & _). discriminate. }
        intros es o' a (-> & e & s1 & cs & rs & E1 & Ea & He & Hx & HP). injection Ea as ->. cbn [fst snd].
        apply blk_ret. rewrite app_nil_r. split; [reflexivity|]. cbn [kexec]. rewrite E1.
        destruct e as [|x|]; [| |congruence]; (exists Ends, s1, cs, rs; repeat split; (discriminate || assumption)).
      - eapply bnd; [apply (IH Ht Hr (enter mg s) w)|..].
        2: { intros es o' e (_ & e1 & s1 & cs & rs & _ & E & _). discriminate. }
        intros es o' a (-> & e & s1 & cs & rs & E1 & Ea & He & Hx & HP). injection Ea as ->. cbn [fst snd].
        unfold kpost. cbn [kexec]. rewrite E1. destruct mg as [o|o u|o u].
        2,3: apply blk_ret; rewrite app_nil_r; split; [reflexivity|]; destruct e as [|x|]; [| |congruence];
             (eexists _, _, cs, rs; repeat split; [discriminate|exact Hx|exact HP]).
        unfold ideal_file. cbn [c_exit c_exc alone]. unfold fil_exit. destruct (o =? k).
        + eapply (bnd true (fun es o' r => o' = true /\ r = Good (Good tt) /\ plays m (exit_call (exc_value e)) true es true (Good VUnit))).
          * eapply blk_attempt; [apply (blk_fexit (exc_value e))|].
            { intros x E. apply Hx. destruct e; [discriminate| |discriminate]. cbn in E. congruence. }
            intros es' o' r (-> & -> & H). auto.
          * intros es' o' a (-> & E & H). injection E as ->. apply blk_ret. split; [reflexivity|].
            exists e, (leave (Buf o) s1), (cs ++ [exit_call (exc_value e)]), (rs ++ [Good VUnit]). rewrite !app_nil_r, app_assoc.
            split; [destruct e; [reflexivity..|congruence]|]. split; [reflexivity|]. split; [exact He|]. split; [exact Hx|].
            eapply plays_all_cat; [exact HP|]. apply plays_one, H.
          * intros es' o' x (_ & E & _). discriminate.
        + cbn [attempt bind]. apply blk_ret. rewrite app_nil_r. split; [reflexivity|]. exists e, (leave (Buf o) s1), cs, rs.
          split; [destruct e; [reflexivity..|congruence]|]. auto.
    Qed.

    Lemma blk_work exc x o : fwork_ok name x -> (forall j, x = FPrints j -> o = true) ->
      bl o (fun es o' r => exists res, r = Good res /\ fwork_plays exc m x o es o' res) (print_file exc b x).
    Proof using Hol Hmax Hi.
      intros Hx Ho. destruct x as [j|cs]; cbn [print_file fwork_ok] in *.
      - destruct Hx as (W1 & W2 & W3 & W4). rewrite (Ho j eq_refl). eapply bnd; [apply (blk_kprog _ exc (KWith (Buf (fj_obj j)) (fj_code j)) W3 W4 (fj_sys j) [])|..].
        2: { intros es o' e (_ & e1 & s1 & cs & rs & _ & E & _). discriminate. }
        intros es o' a (-> & e & s1 & cs & rs & E1 & Ea & He & Hx & HP). injection Ea as ->. apply blk_ret. cbn [fst snd]. rewrite app_nil_r.
        eexists. split; [reflexivity|]. cbn [app] in E1. destruct (ideal_block _ _ _ _ _ _ _ W1 W2 E1) as (l & L1 & L2 & L3 & L4 & ->).
        exists l, e, s1, rs. split; [split; assumption|]. auto.
      - eapply bnd; [apply (blk_calls _ _ _ _ (fb_call b) (fun c o es o' r => plays m c o es o' r) i cs o [])|..].
        + apply List.Forall_forall. intros c Hc q. apply (blk_call n name fl bs m Hol Hmax l0 v0 i Hi). rewrite List.Forall_forall in Hx. apply Hx, Hc.
        + intros es o' a (rs & E & H). injection E as ->. apply blk_ret. rewrite app_nil_r. eexists. split; [reflexivity|].
          exists rs. split; [reflexivity|]. apply chain_plays, H.
        + intros es o' e (rs & E & _). discriminate.
    Qed.
  End One.

  (** ** Locks *)
  Lemma wlk_fwrite i data : i < n -> wlk [] [] (fb_write (bs i) data).
  Proof using Hol. intros Hi. apply (wlk_unret _ VNat). apply (wlk_call' n name fl bs Hol i (XWrite data) Hi). Qed.
  Lemma wlk_fexit i e : i < n -> wlk [] [] (match e with None => fb_new_line (bs i) | Some x => fb_send_exc (bs i) x end).
  Proof using Hol.
    intros Hi. destruct e as [x|]; apply (wlk_unret _ (fun _ => VUnit)); [apply (wlk_call' n name fl bs Hol i (XSendExc x) Hi)|apply (wlk_call' n name fl bs Hol i XNewLine Hi)].
  Qed.
  Lemma wlk_work exc i x : i < n -> wlk [] [] (print_file exc (bs i) x).
  Proof using Hol.
    intros Hi. destruct x as [j|cs]; cbn [print_file]; (apply wlk_bind; [|intros; constructor]).
    - apply wlk_kprog; intros o y; [unfold fil_write|unfold fil_exit]; (destruct (o =? fj_obj j); [|constructor]); [apply wlk_fwrite, Hi|apply wlk_fexit, Hi].
    - apply wlk_thread, List.Forall_map, List.Forall_forall. intros c _. apply (wlk_call' n name fl bs Hol i c Hi).
  Qed.
  Lemma wlk_works exc ws : length ws = n -> Forall (wlk [] []) (print_files exc bs ws).
  Proof using Hol.
    intros Hlen. apply Forall_lookup. intros i p Hp. unfold print_files in Hp. rewrite list_lookup_imap in Hp.
    destruct (ws !! i) as [x|] eqn:Hx; [|discriminate]. injection Hp as <-. apply wlk_work. apply lookup_lt_Some in Hx. rewrite <- Hlen. exact Hx.
  Qed.
End OneLog.

Lemma flag_open n bs i d q : i < n -> open_flag (bs i) d q <-> openb n bs i d = q.
Proof.
  intros Hi. unfold open_flag, openb, is_open, is_closed. rewrite (proj2 (Nat.ltb_lt i n) Hi).
  destruct q, (fclosed d !! b_id (bs i)) as [[]|]; split; intros H; congruence || reflexivity.
Qed.
Lemma pool_job exc bs ws i p : print_files exc bs ws !! i = Some p -> exists x, ws !! i = Some x /\ p = print_file exc (bs i) x.
Proof.
  unfold print_files. rewrite list_lookup_imap. destruct (ws !! i) as [x|]; [|discriminate]. intros [= <-]. eauto.
Qed.

Section Core.
  Variables (n : nat) (name : text) (fl : nat) (bs : nat -> fbuf) (m : nat) (exc : exn -> excobj) (ws : list fwork)
    (d0 : fdir) (sch : list nat) (ps' : list (prog fcmd fresult)) (s' : st fdir) (l : list text) (v : text -> text) (o : nat -> bool).
  Hypotheses (Hol : one_log n name fl bs) (Hmax : forall i, i < n -> b_max (bs i) = m) (Hlen : length ws = n)
    (Hok : Forall (fwork_ok name) ws) (Hrec : records name (files d0) l) (Hll : length l <= m)
    (Hv : forall i, i < n -> open_flag (bs i) d0 (o i) /\
     unfinished name (b_tmp (bs i)) (files d0) = v (b_tmp (bs i)) /\ no_break (v (b_tmp (bs i))) /\ utf8 (v (b_tmp (bs i))))
    (Hopen : forall i j, nth_error ws i = Some (FPrints j) -> o i = true)
    (Hr : sched_run sch (print_files exc bs ws, mkst d0 ∅) = Some (ps', s')).

  Lemma core_len : length ps' = n.
  Proof using Hlen Hr. pose proof (sched_length sch _ _ Hr) as H. cbn [fst] in H. rewrite H. unfold print_files. rewrite imap_length. exact Hlen. Qed.
  Lemma core_any :
    exists g g2 d2, Forall (fun e => fst e < n) (g ++ g2) /\
      (forall i x p, nth_error ws i = Some x -> nth_error ps' i = Some p -> finished p = true ->
         exists res, p = Ret res /\ fwork_plays exc m x (o i) (events_of i g) (openb n bs i (dat s')) res) /\
      (forall L, mainl n fl bs L -> (forall t p, ps' !! t = Some p -> finished p = false -> ~ tab Ex t (lks s' !! L)) ->
         Jf n name fl bs m l v L g (dat s')) /\
      (forall i x, nth_error ws i = Some x -> exists o' res, fwork_plays exc m x (o i) (events_of i (g ++ g2)) o' res) /\
      (forall L, mainl n fl bs L -> Jf n name fl bs m l v L (g ++ g2) d2).
  Proof using All.
    pose (Rf := fun (i : nat) (es : list fstep) (q : bool) (r : outcome fresult) =>
      exists x res, ws !! i = Some x /\ r = Good res /\ fwork_plays exc m x (o i) es q res).
    pose proof (blocks_any (mainl n fl bs) fexec_nb (eqF n fl bs) (eqF_equiv n fl bs) (openb n bs)
      (Jf n name fl bs m l v) (Jf_eq n name fl bs m Hol l v) Rf sch (print_files exc bs ws) d0 ps' s') as HB.
    destruct HB as (g & g2 & d2 & G1 & G2 & G3 & G4 & G5); auto.
    - eapply wlk_works; eauto.
    - intros i p Hp. destruct (pool_job _ _ _ _ _ Hp) as (x & Hx & ->).
      assert (Hi : i < n) by (apply lookup_lt_Some in Hx; lia).
      destruct (Hv i Hi) as (Ho & _). apply (flag_open n bs i d0 (o i)) in Ho; [|exact Hi]. rewrite Ho.
      eapply blk_more; [apply (blk_work n name fl bs m Hol Hmax l v i Hi exc x (o i))|].
      + rewrite Forall_lookup in Hok. eauto.
      + intros j ->. apply (Hopen i j). rewrite nth_lookup. exact Hx.
      + intros es o' r (res & -> & H). exists x, res. auto.
    - intros L HL. split.
      + intros _. cbn. auto.
      + intros i Hi _. cbn. destruct (Hv i Hi) as (_ & V1 & V2 & V3). auto.
    - pose proof core_len as Hl. rewrite Hl in G1, G4. exists g, g2, d2. split; [exact G1|]. split; [|split; [exact G3|split; [|exact G5]]].
      + intros i x p Hx Hp Hfin. rewrite nth_lookup in Hx. rewrite nth_lookup in Hp. destruct (G2 i p Hp Hfin) as (r & Ep & _ & x1 & res & E1 & -> & H).
        rewrite Hx in E1. injection E1 as <-. eauto.
      + intros i x Hx. assert (Hi : i < n) by (rewrite <- Hlen; apply nth_error_Some; congruence). rewrite nth_lookup in Hx.
        destruct (G4 i Hi) as (o' & r & _ & x1 & res & E1 & _ & H). rewrite Hx in E1. injection E1 as <-. eauto.
  Qed.
End Core.

Theorem c94_account n name fl bs m exc ws d0 sch ps' s' l v o :
  one_log n name fl bs -> (forall i, i < n -> b_max (bs i) = m) -> length ws = n -> Forall (fwork_ok name) ws ->
  records name (files d0) l -> length l <= m ->
  (forall i, i < n -> open_flag (bs i) d0 (o i) /\
     unfinished name (b_tmp (bs i)) (files d0) = v (b_tmp (bs i)) /\ no_break (v (b_tmp (bs i))) /\ utf8 (v (b_tmp (bs i)))) ->
  (forall i j, nth_error ws i = Some (FPrints j) -> o i = true) ->
  sched_run sch (print_files exc bs ws, mkst d0 ∅) = Some (ps', s') -> Forall (fun p => finished p = true) ps' ->
  exists (g : list (nat * fstep)) (o' : nat -> bool),
    Forall (fun e => fst e < n) g /\
    (forall i x, nth_error ws i = Some x -> open_flag (bs i) (dat s') (o' i) /\
       exists res, nth_error ps' i = Some (Ret res) /\ fwork_plays exc m x (o i) (events_of i g) (o' i) res) /\
    story m (fun i => b_tmp (bs i)) g l v (fun l' v' =>
      records name (files (dat s')) l' /\ length l' <= m /\
      forall i, i < n -> unfinished name (b_tmp (bs i)) (files (dat s')) = v' (b_tmp (bs i))).
Proof.
  intros Hol Hmax Hlen Hok Hrec Hll Hv Hopen Hr Hfin.
  destruct (core_any n name fl bs m exc ws d0 sch ps' s' l v o) as (g & g2 & d2 & G1 & G2 & G3 & _ & _); auto.
  pose proof (core_len n bs exc ws d0 sch ps' s' Hlen Hr) as Hl. apply List.Forall_app in G1. destruct G1 as [G1 _].
  assert (HJ : forall L, mainl n fl bs L -> Jf n name fl bs m l v L g (dat s')).
  { intros L HL. apply G3; [exact HL|]. intros t p Hp Hf. rewrite Forall_lookup in Hfin. rewrite (Hfin t p Hp) in Hf. discriminate. }
  exists g, (fun i => openb n bs i (dat s')). split; [exact G1|]. split.
  - intros i x Hx. assert (Hi : i < n) by (rewrite <- Hlen; apply nth_error_Some; congruence).
    split; [apply (flag_open n bs i (dat s') _ Hi); reflexivity|]. destruct (nth_error ps' i) as [p|] eqn:Hp; [|apply nth_error_None in Hp; lia].
    destruct (G2 i x p Hx Hp) as (res & -> & H); [|eauto]. rewrite Forall_lookup in Hfin. rewrite nth_lookup in Hp. eauto.
  - destruct (HJ fl (or_introl eq_refl)) as [J1 _]. destruct (J1 eq_refl) as (S1 & S2 & S3).
    assert (Ht : forall i, i < n -> gott (fun i => b_tmp (bs i)) (b_tmp (bs i)) g (v (b_tmp (bs i))) /\
      unfinished name (b_tmp (bs i)) (files (dat s')) = tmpf (fun i => b_tmp (bs i)) (b_tmp (bs i)) g (v (b_tmp (bs i)))).
    { intros i Hi. destruct (HJ (b_tl (bs i))) as [_ J2]; [right; eauto|]. destruct (J2 i Hi eq_refl) as (T1 & T2 & _). auto. }
    apply story_parts.
    + exact S1.
    + intros e He. rewrite List.Forall_forall in G1. apply Ht, G1, He.
    + intros v' Ev. split; [exact S2|]. split; [exact S3|]. intros i Hi. rewrite Ev. apply Ht, Hi.
Qed.

Theorem c94_no_deadlock n name fl bs exc ws d0 sch ps' s' :
  one_log n name fl bs -> length ws = n ->
  sched_run sch (print_files exc bs ws, mkst d0 ∅) = Some (ps', s') ->
  (Forall (fun p => finished p = true) ps' /\ lks s' = ∅) \/ (exists i c, cstep i (ps', s') = Some c).
Proof.
  intros Hol Hlen Hr. apply (lock_progress fexec_nb (print_files exc bs ws) d0 sch ps' s'); [|exact Hr].
  eapply wlk_works; eauto.
Qed.

Lemma logs_run {V} turns exc bs ws d0 (f : fdir -> V) v :
  let c := ProcRun.plan turns (print_files exc bs ws, mkst d0 ∅) in
  forallb finished (fst c) = true -> f (dat (snd c)) = v ->
  exists sch ps' s', sched_run sch (print_files exc bs ws, mkst d0 ∅) = Some (ps', s') /\ Forall (fun p => finished p = true) ps' /\ f (dat s') = v.
Proof.
  intros c H1 H2. destruct (ProcRun.plan_sched turns (print_files exc bs ws, mkst d0 ∅)) as [sch Hs].
  exists sch, (fst c), (snd c). split; [rewrite Hs; fold c; destruct c; reflexivity|]. split; [|exact H2].
  apply List.Forall_forall. intros p Hp. rewrite forallb_forall in H1. apply H1, Hp.
Qed.
