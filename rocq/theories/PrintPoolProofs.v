(** * PrintPoolProofs: processes that print into their mirrors, and wait() *)
From stdpp Require Import gmap.
From Coq Require Import List NArith ZArith Bool Arith Lia.
From Verif Require Import PyStr Prog ProgFacts PyIO Base Spec SpecFacts LineBuf LineBufFacts Locks Held
  Proc ProcSpec ProcFacts ProcMain ProcSeq ProcHist ProcProofs ProcSysProofs ProcTransp ProcMore ProcRun ProcPool ProcPoolProofs ProcGen
  Ctx Print PrintSpec PrintProofs PrintPool.
From Verif Require PrintProc.
Import ListNotations.
Local Open Scope nat_scope.

(** ** [kprog] by one thread is [kexec] *)
Section Kprog.
  Context {C : Type -> Type} {D : Type} `{!Sem C D}.
  Variables (write : nat -> text -> prog C nat) (exit_ : nat -> option excobj -> prog C unit) (exc : exn -> excobj)
            (cl : classes D) (I : D -> Prop).
  Hypotheses (Hexc : c_exc cl = exc) (Hev : forall n d, c_event cl n d = d)
    (Hw : forall o data d, I d -> exists r d', hok (write o data) d [] r d' /\ r <> Block /\ c_write cl o data d = (r, d') /\ I d')
    (Hx : forall o e d, I d -> exists r d', hok (exit_ o e) d [] r d' /\ r <> Block /\ c_exit cl o e d = (r, d') /\ I d').

  Lemma hok_att {A} (p : prog C A) d r d' : hok p d [] r d' -> r <> Block -> hok (attempt p) d [] (Good r) d'.
  Proof. intros H Hr. pose proof (hok_attempt _ _ _ _ _ H) as G. destruct r; [exact G|exact G|congruence]. Qed.

  Lemma kprog_hok b : forall s d, I d -> exists r s' d', kexec cl b s d = (r, s', d') /\ r <> Hangs /\
    hok (kprog write exit_ exc b s) d [] (Good (r, s')) d' /\ I d'.
  Proof using Hexc Hev Hw Hx.
    induction b as [|te data|n|e|b1 IH1 b2 IH2|b IH|m b IH]; intros s d Hd; cbn [kexec kprog].
    - eexists _, _, _. split; [reflexivity|]. split; [discriminate|]. split; [apply hok_ret|exact Hd].
    - destruct (target te (out s) (err s)) as [o|].
      + destruct (Hw o data d Hd) as (r & d' & H1 & H2 & H3 & H4). rewrite H3, Hexc.
        destruct r as [n|x|]; [| |congruence]; (eexists _, _, _; split; [reflexivity|]; split; [discriminate|]; split; [|exact H4]);
          (eapply hok_bind; [apply hok_att; [exact H1|discriminate]|apply hok_ret]).
      + eexists _, _, _. split; [reflexivity|]. split; [discriminate|]. split; [apply hok_ret|exact Hd].
    - rewrite Hev. eexists _, _, _. split; [reflexivity|]. split; [discriminate|]. split; [apply hok_ret|exact Hd].
    - eexists _, _, _. split; [reflexivity|]. split; [discriminate|]. split; [apply hok_ret|exact Hd].
    - destruct (IH1 s d Hd) as (r & s1 & d1 & E & Hr & H & Hd1). rewrite E. destruct r as [|e|]; [| |congruence].
      + destruct (IH2 s1 d1 Hd1) as (r2 & s2 & d2 & E2 & Hr2 & H2 & Hd2). eexists _, _, _. split; [exact E2|]. split; [exact Hr2|].
        split; [|exact Hd2]. eapply hok_bind; [exact H|exact H2].
      + eexists _, _, _. split; [reflexivity|]. split; [discriminate|]. split; [|exact Hd1]. eapply hok_bind; [exact H|apply hok_ret].
    - destruct (IH s d Hd) as (r & s1 & d1 & E & Hr & H & Hd1). rewrite E.
      destruct r as [|e|]; [| |congruence]; (eexists _, _, _; split; [reflexivity|]; split; [discriminate|]; split; [|exact Hd1]);
        (eapply hok_bind; [exact H|apply hok_ret]).
    - destruct (IH (enter m s) d Hd) as (r & s1 & d1 & E & Hr & H & Hd1). rewrite E.
      destruct m as [o|o t|o t].
      2,3: destruct r as [|e|]; [| |congruence]; (eexists _, _, _; split; [reflexivity|]; split; [discriminate|]; split; [|exact Hd1]);
        (eapply hok_bind; [exact H|apply hok_ret]).
      destruct (Hx o (exc_value r) d1 Hd1) as (r2 & d2 & H1 & H2 & H3 & H4).
      assert (G : hok (bind (attempt (exit_ o (exc_value r))) (fun r0 => Ret (after_call exc r0 r, leave (Buf o) s1))) d1 []
                (Good (after_call exc r2 r, leave (Buf o) s1)) d2).
      { eapply hok_bind; [apply hok_att; [exact H1|exact H2]|apply hok_ret]. }
      exists (after_call exc r2 r), (leave (Buf o) s1), d2.
      split; [|split; [|split; [eapply hok_bind; [exact H|exact G]|exact H4]]].
      + destruct r as [|e|]; [| |congruence]; cbn [exc_value] in H3 |- *; rewrite H3, Hexc; destruct r2; congruence || reflexivity.
      + destruct r2; [exact Hr|discriminate|congruence].
  Qed.
End Kprog.

Lemma acqs_kprog {C : Type -> Type} P (write : nat -> text -> prog C nat) exit_ exc :
  (forall o data, acqs P (write o data)) -> (forall o e, acqs P (exit_ o e)) -> forall b s, acqs P (kprog write exit_ exc b s).
Proof.
  intros Hw Hx. induction b as [|te data|n|e|b1 IH1 b2 IH2|b IH|m b IH]; intros s; cbn [kprog]; try exact I.
  - destruct (target te (out s) (err s)); [|exact I]. apply acqs_bind; [apply acqs_attempt, Hw|intros; exact I].
  - apply acqs_bind; [apply IH1|]. intros [[|e|] s1]; cbn [fst snd]; [apply IH2|exact I..].
  - apply acqs_bind; [apply IH|intros; exact I].
  - apply acqs_bind; [apply IH|]. intros x. destruct m; [|exact I..]. apply acqs_bind; [apply acqs_attempt, Hx|intros; exact I].
Qed.

(** ** One mirror *)
Lemma mret_acqs {A} P (f : A -> mres) (p : prog mcmd A) : acqs P (mret f p) -> acqs P p.
Proof.
  unfold mret. induction p as [a|e|X c k IHk h IHh]; simpl; auto. intros (H1 & H2 & H3). split; [exact H1|]. auto.
Qed.
Lemma acqs_mir k exc b s : acqs (fun l => 4 <= l) (mir_code k exc b s).
Proof.
  apply acqs_kprog; intros o x; [unfold mir_write|unfold mir_exit]; destruct (o =? k); try exact I.
  - apply (mret_acqs _ MNat). apply (acqs_call (CWrite x)).
  - apply (mret_acqs _ munit). apply (acqs_call (CClose x)).
Qed.

Definition usable (d : menv) : Prop := mwf (e_mir d) /\ e_qmax d = 0.
Lemma xwrite_ok qmax st data a q r a' q' : xwrite qmax st data a q = (r, a', q') -> aclosed_ok a -> aclosed_ok a'.
Proof.
  intros E. assert (Ex : exists y, xcall qmax st (CWrite data) a q = (y, a', q')).
  { cbn [xcall]. unfold xret. rewrite E. destruct r; eexists; reflexivity. }
  destruct Ex as [y Ex]. exact (proj2 (xcall_ok _ _ _ _ _ _ _ _ Ex)).
Qed.
Lemma xclose_ok qmax st e a q r a' q' : xclose qmax st e a q = (r, a', q') -> aclosed_ok a -> aclosed_ok a'.
Proof.
  intros E. assert (Ex : exists y, xcall qmax st (CClose e) a q = (y, a', q')).
  { cbn [xcall]. unfold xret. rewrite E. destruct r; eexists; reflexivity. }
  destruct Ex as [y Ex]. exact (proj2 (xcall_ok _ _ _ _ _ _ _ _ Ex)).
Qed.
Lemma hok_on {C : Type -> Type} {D A} `{!Sem C D} (p : prog C A) d r d' : hok p d [] r d' -> r <> Block -> on p d = (r, d').
Proof. intros H Hr. unfold on. rewrite (hok_runs 0 _ _ _ _ H Hr). reflexivity. Qed.
Lemma usable_write data d : usable d -> exists r d', hok (lm_write data) d [] r d' /\ r <> Block /\ usable d'.
Proof.
  destruct d as [mi q qm st]. intros [(b & a & Hm & Ha) Hq]. cbn [e_mir e_qmax] in *. subst mi qm.
  destruct (xwrite 0 (stopped_of st b) data a q) as [[r a'] q'] eqn:Ex.
  pose proof (hok_write _ _ _ _ _ _ _ _ _ Ex) as H. eexists _, _. split; [exact H|].
  destruct H as (hs & E & _). destruct (hrun_frame _ _ _ _ _ _ _ _ E) as [Hb _]. split; [exact Hb|].
  split; [|reflexivity]. eexists _, _. split; [reflexivity|]. eapply xwrite_ok; eassumption.
Qed.
Lemma usable_close x d : usable d -> exists r d', hok (lm_close x) d [] r d' /\ r <> Block /\ usable d'.
Proof.
  destruct d as [mi q qm st]. intros [(b & a & Hm & Ha) Hq]. cbn [e_mir e_qmax] in *. subst mi qm.
  destruct (xclose 0 (stopped_of st b) x a q) as [[r a'] q'] eqn:Ex.
  pose proof (hok_close _ _ _ _ _ _ _ _ _ Ex) as H. eexists _, _. split; [exact H|].
  destruct H as (hs & E & _). destruct (hrun_frame _ _ _ _ _ _ _ _ E) as [Hb _]. split; [exact Hb|].
  split; [|reflexivity]. eexists _, _. split; [reflexivity|]. eapply xclose_ok; eassumption.
Qed.

Lemma mir_hok k exc b s d : usable d -> exists r s' d', kexec (proc_mirror k (fun _ d => d) exc) b s d = (r, s', d') /\ r <> Hangs /\
  hok (mir_code k exc b s) d [] (Good (r, s')) d' /\ usable d'.
Proof.
  intros Hd. refine (kprog_hok _ _ exc (proc_mirror k (fun _ d => d) exc) usable eq_refl (fun _ _ => eq_refl) _ _ b s d Hd).
  - intros o data d0 H0. unfold mir_write. cbn [c_write proc_mirror alone]. destruct (o =? k).
    + destruct (usable_write data d0 H0) as (r & d' & H1 & H2 & H3). exists r, d'. split; [exact H1|]. split; [exact H2|].
      split; [apply hok_on; assumption|exact H3].
    + eexists _, _. split; [apply hok_ret|]. split; [discriminate|]. split; [reflexivity|exact H0].
  - intros o x d0 H0. unfold mir_exit. cbn [c_exit proc_mirror alone]. destruct (o =? k).
    + destruct (usable_close x d0 H0) as (r & d' & H1 & H2 & H3). exists r, d'. split; [exact H1|]. split; [exact H2|].
      split; [apply hok_on; assumption|exact H3].
    + eexists _, _. split; [apply hok_ret|]. split; [discriminate|]. split; [reflexivity|exact H0].
Qed.

Lemma c_alone k exc b s d t r s' d' : mreach d -> e_qmax d = 0 ->
  kexec (proc_mirror k (fun _ d => d) exc) b s d = (r, s', d') ->
  run t (mir_code k exc b s) (idle d) = (Good (r, s'), idle d') /\ r <> Hangs.
Proof.
  intros Hd Hq E. destruct (mir_hok k exc b s d (conj (mreach_wf d Hd) Hq)) as (r1 & s1 & d1 & E1 & Hr & H & _).
  rewrite E in E1. injection E1 as <- <- <-. split; [|exact Hr]. apply (hok_runs t _ _ _ _ H). discriminate.
Qed.

(** What the writes of a new mirror have done so far. *)
Definition did (d0 : menv) (ts : list text) (d : menv) : Prop :=
  exists b v to ds, d = mkmenv (mk b (mkam v false false to)) (e_q d0 ++ map QStr ds) 0 (e_state d0) /\
    stopped_of (e_state d0) b = false /\ sent_by (held (e_mir d0)) ts ds v.
Lemma did_write d0 ts d data : did d0 ts d -> True ->
  exists n d1, on (lm_write data) d = (Good n, d1) /\ did d0 (ts ++ [data]) d1.
Proof.
  intros (b & v & to & ds & -> & Hs & H) _.
  assert (Hx : xwrite 0 (stopped_of (e_state d0) b) data (mkam v false false to) (e_q d0 ++ map QStr ds) =
     (Good (length data), mkam (if has_break data then [] else v ++ data) false false to,
      e_q d0 ++ map QStr (ds ++ if has_break data then [v ++ data] else []))).
  { rewrite Hs. unfold xwrite, xbody. cbn [mc mag mv mto]. rewrite map_app, app_assoc. destruct (has_break data).
    - reflexivity.
    - cbn [map]. rewrite app_nil_r. reflexivity. }
  eexists _, _. split; [apply hok_on; [exact (hok_write _ _ _ b _ _ _ _ _ Hx)|discriminate]|].
  eexists (il b), _, to, _. split; [reflexivity|]. split; [unfold stopped_of in *; rewrite has_il; exact Hs|].
  eapply PrintProc.sent_by_app; [exact H|]. destruct (has_break data) eqn:Eb.
  - apply sb_send; [apply PrintProc.has_break_yes, Eb|constructor].
  - apply sb_hold; [apply PrintProc.has_break_no, Eb|constructor].
Qed.
Lemma with_mirror k exc b s d r s' d' : well_nested b -> ~ In k (entered b) -> did d [] d ->
  kexec (proc_mirror k (fun _ d => d) exc) (KWith (Buf k) b) s d = (r, s', d') ->
  exists l ds v, told exc (Some k) (Some k) b l r /\ all_good l /\ r <> Hangs /\ out s' = out s /\ err s' = err s /\
    sent_by (held (e_mir d)) (texts_to k l) ds v /\
    e_q d' = e_q d ++ map QStr ds ++ match v with [] => [] | _ => [QStr (v ++ [10%N])] end
                   ++ [match exc_value r with None => QClose | Some e => QError (gm_init (GMExc e)) end] /\
    is_closed (e_mir d') = true.
Proof.
  intros Hn Hk H0 E. unfold proc_mirror in E.
  destruct (with_alone _ _ _ _ _ _ _ _ _ _ _ Hn Hk E) as (l & r0 & d1 & H1 & H2 & _ & H4).
  assert (Hw : within (fun _ => True) (entered b) l).
  { eapply told_within; [|exact H1]. apply List.Forall_forall. auto. }
  destruct (alone_effects k _ _ _ _ did (fun _ => True) l did_write (fun _ _ _ _ H => H) (entered b) Hk Hw d [] d d1 H0 H2)
    as [Hg (b1 & v & to & ds & -> & Hs & Hd)].
  pose proof (told_good _ _ _ _ _ _ H1 Hg) as Hr0. destruct (H4 Hr0) as (Ho & Hrr & x & Hx & Hrx).
  assert (Hc : xclose 0 (stopped_of (e_state d) b1) (exc_value r0) (mkam v false false to) (e_q d ++ map QStr ds) =
    (Good tt, mkam [] true false to, (e_q d ++ map QStr ds) ++ match v with [] => [] | v => [QStr (v ++ [LF])] end ++
       [match exc_value r0 with None => QClose | Some e => QError (gm_init (GMExc e)) end])).
  { unfold xclose. cbn [mc]. rewrite Hs. rewrite xsignal_ok by auto. destruct v; reflexivity. }
  rewrite (hok_on _ _ _ _ (hok_close _ _ _ b1 _ _ _ _ _ Hc) ltac:(discriminate)) in Hx. injection Hx as <- <-.
  cbn [after_call] in Hrx. subst r.
  exists l, ds, v. cbn [app] in Hd. repeat (split; [assumption|]).
  split; [|reflexivity]. cbn [e_q]. rewrite <- app_assoc. destruct v; reflexivity.
Qed.

(** ** The job of a process *)
Section Job.
  Variables (m : nat) (d : psys) (exc : exn -> excobj) (j : job).
  Hypotheses (Hm : 1 <= m) (Hr : preach m d) (Hi : j_mir j < length (s_mirs d)) (Hrd : ready d (j_mir j))
             (Hn : well_nested (j_code j)) (Hk : ~ In (j_obj j) (entered (j_code j))).
  Let e0 := mkmenv (mir_at d (j_mir j)) [] 0 (s_state d).
  Let res := kexec (proc_mirror (j_obj j) (fun _ d => d) exc) (KWith (Buf (j_obj j)) (j_code j)) (j_sys j) e0.
  Definition job_fin : kresult * menv := (Printed (fst (fst res)) (snd (fst res)), snd res).
  Definition job_prog : prog mcmd kresult :=
    bind (mir_code (j_obj j) exc (KWith (Buf (j_obj j)) (j_code j)) (j_sys j)) (fun x => Ret (Printed (fst x) (snd x))).

  Lemma job_new : exists b a, mir_at d (j_mir j) = mk b a /\ aclosed_ok a /\ mc a = false /\ mag a = false /\ mv a = [] /\ stopped_of (s_state d) b = false.
  Proof using Hm Hr Hi Hrd.
    destruct (pi_mir m d (preach_pinv m d Hm Hr) _ Hi) as (b & a & Eb & Ha & _). exists b, a. split; [exact Eb|]. split; [exact Ha|].
    destruct Hrd as (R1 & R2 & R3 & R4). unfold get_menv in R2. rewrite Eb in *. auto.
  Qed.
  Lemma job_hok : hok job_prog e0 [] (Good (fst job_fin)) (snd job_fin).
  Proof using Hm Hr Hi Hrd.
    destruct job_new as (b & a & Eb & Ha & _).
    destruct (mir_hok (j_obj j) exc (KWith (Buf (j_obj j)) (j_code j)) (j_sys j) e0) as (r & s' & d' & E & _ & H & _).
    { split; [exists b, a; auto|reflexivity]. }
    unfold job_fin, res. rewrite E. cbn [fst snd]. eapply hok_bind; [exact H|apply hok_ret].
  Qed.
  Lemma job_does : exists l r s' ds v, fst job_fin = Printed r s' /\ block_does exc j l r /\ r <> Hangs /\
    out s' = out (j_sys j) /\ err s' = err (j_sys j) /\ is_closed (e_mir (snd job_fin)) = true /\
    sent_by [] (texts_to (j_obj j) l) ds v /\
    e_q (snd job_fin) = map QStr ds ++ match v with [] => [] | _ => [QStr (v ++ [10%N])] end
         ++ [match exc_value r with None => QClose | Some e => QError (gm_init (GMExc e)) end].
  Proof using Hm Hr Hi Hrd Hn Hk.
    destruct job_new as (b & a & Eb & Ha & A1 & A2 & A3 & A4).
    assert (H0 : did e0 [] e0).
    { destruct a as [v c ag to]. cbn [mc mag mv] in *. subst. exists b, [], to, []. unfold e0. cbn [e_mir e_q e_state]. rewrite Eb.
      split; [reflexivity|]. split; [exact A4|]. constructor. }
    unfold job_fin. destruct res as [[r s'] d'] eqn:E. unfold res in E.
    destruct (with_mirror _ _ _ _ _ _ _ _ Hn Hk H0 E) as (l & ds & v & H1 & H2 & H3 & H4 & H5 & H6 & H7 & H8).
    exists l, r, s', ds, v. cbn [fst snd]. split; [reflexivity|]. split; [split; assumption|]. repeat (split; [assumption|]).
    unfold e0 in H6, H7. cbn [e_mir e_q] in H6, H7. rewrite Eb, mk_held, A3 in H6. split; [exact H6|exact H7].
  Qed.

  Lemma job_msgs : sends_msgs exc j (e_q (snd job_fin)).
  Proof using Hm Hr Hi Hrd Hn Hk. destruct job_does as (l & r & s' & ds & v & _ & H1 & _ & _ & _ & _ & H2 & H3). exists l, r, ds, v. auto. Qed.
End Job.

(** ** Counting, and the lines *)
Lemma told_count exc o x y b l r : told exc x y b l r -> length (texts_to o l) <= length (code_texts b).
Proof.
  induction 1; cbn [code_texts]; rewrite ?texts_to_app, ?app_length; cbn [texts_to flat_map];
    repeat match goal with |- context [if ?c then _ else _] => destruct c end; cbn [app length]; lia.
Qed.
Lemma sent_by_count v ts ds v' : sent_by v ts ds v' -> length ds <= length ts.
Proof. induction 1; cbn [length]; lia. Qed.
Lemma told_texts exc (P : text -> Prop) o x y b l r : told exc x y b l r -> Forall P (code_texts b) -> Forall P (texts_to o l).
Proof.
  intros H HP. pose proof (told_within _ _ _ HP _ _ _ _ H) as Hw. clear - Hw. induction Hw as [|z l Hz _ IH]; [constructor|].
  cbn [texts_to flat_map]. fold (texts_to o l). destruct z as [o' data r|o' e r|n]; cbn [app]; [|exact IH..].
  destruct (o' =? o); [|exact IH]. constructor; assumption.
Qed.
Lemma sent_lines v ts ds v' : sent_by v ts ds v' -> no_break v -> Forall whole_lines ts ->
  no_break v' /\ exists is, recorded (map QStr ds) is /\ forall dn, log_steps (map SWrite ts) (mkslog dn v) (mkslog (dn ++ is) v').
Proof.
  induction 1 as [v|v t ts ds v' Ht H IH|v t ts ds v' Ht H IH]; intros Hv Hl.
  - split; [exact Hv|]. exists []. split; [constructor|]. intros dn. rewrite app_nil_r. constructor.
  - inversion Hl as [|? ? _ Hl']; subst. destruct (IH ltac:(apply List.Forall_app; auto) Hl') as (H1 & is & H2 & H3).
    split; [exact H1|]. exists is. split; [exact H2|]. intros dn. econstructor; [|apply H3]. constructor. constructor. constructor. exact Ht.
  - inversion Hl as [|? ? (ls & r & Hs & Hw) Hl']; subst. destruct (IH ltac:(constructor) Hl') as (H1 & is & H2 & H3).
    split; [exact H1|]. destruct ls as [|l ls].
    { inversion Hs; subst. contradiction. }
    destruct Hw as [Hw| ->]; [discriminate|].
    exists (map IStr ((v ++ l) :: ls) ++ is). split.
    + apply (re_str (v ++ t) ((v ++ l) :: ls)); [|exact H2]. exact (seg_front v t (l :: ls) [] Hv Hs).
    + intros dn. rewrite app_assoc. econstructor; [|apply H3]. constructor. apply (lw_some t dn v l ls [] Hs).
Qed.

Definition end_of (r : ending) : msg := match exc_value r with None => QClose | Some e => QError (gm_init (GMExc e)) end.
Lemma end_of_end r : is_end (end_of r) = true.
Proof. destruct r; reflexivity. Qed.
Lemma data_all ds : Forall (fun x => is_data x = true) (map QStr ds).
Proof. induction ds; constructor; auto. Qed.
Lemma sends_once exc j xs : sends_msgs exc j xs -> ends_once xs /\ length xs <= length (code_texts (j_code j)) + 2.
Proof.
  intros (l & r & ds & v & [H1 _] & H2 & ->). split.
  - exists (map QStr ds ++ match v with [] => [] | _ => [QStr (v ++ [10%N])] end), (end_of r). split; [rewrite <- app_assoc; reflexivity|].
    split; [|apply end_of_end]. apply List.Forall_app. split; [apply data_all|]. destruct v; repeat constructor.
  - pose proof (told_count _ (j_obj j) _ _ _ _ _ H1) as C1. pose proof (sent_by_count _ _ _ _ H2) as C2.
    rewrite !app_length, map_length. destruct v; cbn [length]; lia.
Qed.
Lemma sends_lines exc j xs : Forall whole_lines (code_texts (j_code j)) -> sends_msgs exc j xs ->
  exists items, prints exc j items /\ recorded xs items.
Proof.
  intros Hl (l & r & ds & v & H1 & H2 & ->). pose proof (told_texts _ _ (j_obj j) _ _ _ _ _ (proj1 H1) Hl) as Ht.
  destruct (sent_lines _ _ _ _ H2 ltac:(constructor) Ht) as (Hv & is & H3 & H4). specialize (H4 []).
  assert (He : recorded [end_of r] match exc_value r with Some e => [IMsg (gm_init (GMExc e))] | None => [] end).
  { unfold end_of. destruct (exc_value r); [repeat constructor|]. apply re_other; [simpl; auto|constructor]. }
  assert (Hn : exists ns, log_new_line (mkslog is v) (mkslog (is ++ ns) []) /\ recorded match v with [] => [] | _ => [QStr (v ++ [10%N])] end ns).
  { destruct v as [|c v].
    - exists []. rewrite app_nil_r. split; constructor.
    - exists [IStr (c :: v)]. split; [constructor; discriminate|]. apply (re_str _ [c :: v] [] []); [|constructor].
      rewrite <- (app_nil_r [10%N]). apply seg_line; [exact Hv| |constructor; constructor].
      apply term_one; [vm_compute; auto|]. intros [? ?]; discriminate. }
  destruct Hn as (ns & N1 & N2).
  eexists. split.
  - exists l, r, (mkslog is v), (is ++ ns), []. split; [exact H1|]. split; [exact H4|]. split; [exact N1|reflexivity].
  - rewrite <- app_assoc. apply recorded_app; [exact H3|]. apply recorded_app; [exact N2|exact He].
Qed.

(** ** The pool *)
Section C90.
  Variables (m : nat) (d : psys) (exc : exn -> excobj) (jobs : list job) (fuel : nat).
  Hypotheses (Hm : 1 <= m) (Hr : preach m d) (Hc : main_closed d = false) (Hj : jobs_ok d jobs) (Hf : enough jobs fuel)
             (Hi : inbox d = []) (Hn : s_n d = Z.of_nat (length jobs)) (Hne : jobs <> []).
  Let ws : list (nat * prog mcmd kresult) := map (fun j => (j_mir j, job_prog exc j)) jobs.
  Let fin (k : nat) : kresult * menv :=
    match jobs !! k with Some j => job_fin d exc j | None => (PWaited Block, mkmenv (mir_at d 0) [] 0 None) end.

  Lemma p_start : print_pool exc jobs fuel = start ws (gmain PWaited fuel).
  Proof. unfold print_pool, start, ws. rewrite map_map. reflexivity. Qed.
  Lemma p_len : length ws = length jobs.
  Proof. apply map_length. Qed.
  Lemma p_at k j : jobs !! k = Some j -> ws !! k = Some (j_mir j, job_prog exc j) /\ fin k = job_fin d exc j.
  Proof. intros H. unfold ws, fin. rewrite lookup_map, H. auto. Qed.
  Lemma p_inv k w : ws !! k = Some w -> exists j, jobs !! k = Some j /\ w = (j_mir j, job_prog exc j).
  Proof. unfold ws. rewrite lookup_map. destruct (jobs !! k) as [j|]; [|discriminate]. intros [= <-]. eauto. Qed.
  Lemma p_in k j : jobs !! k = Some j -> In j jobs.
  Proof. intros H. apply elem_of_list_In. eapply elem_of_list_lookup_2, H. Qed.
  Lemma p_nd : List.NoDup (map fst ws).
  Proof. unfold ws. rewrite map_map. apply (proj1 Hj). Qed.
  Lemma p_ws k w : ws !! k = Some w ->
    fst w < length (s_mirs d) /\ m_q (mir_at d (fst w)) = cur_q d /\ acqs (fun l => 4 <= l) (snd w) /\
    hok (snd w) (mkmenv (mir_at d (fst w)) [] 0 (s_state d)) [] (Good (fst (fin k))) (snd (fin k)).
  Proof.
    intros H. destruct (p_inv k w H) as (j & Ej & ->). destruct (p_at k j Ej) as [_ Ef]. rewrite Ef.
    destruct (proj2 Hj j (p_in k j Ej)) as (J1 & J2 & J3 & J4 & J5). cbn [fst snd]. split; [exact J1|]. split; [exact J2|]. split.
    - apply acqs_bind; [apply acqs_mir|intros; exact I].
    - apply (job_hok m d exc j Hm Hr J1 J3).
  Qed.
  Lemma p_sends k j : jobs !! k = Some j -> sends_msgs exc j (e_q (snd (fin k))).
  Proof.
    intros Ej. destruct (p_at k j Ej) as [_ ->]. destruct (proj2 Hj j (p_in k j Ej)) as (J1 & J2 & J3 & J4 & J5).
    apply (job_msgs m d exc j Hm Hr J1 J3 J4 J5).
  Qed.
  Lemma p_fuel : length (inbox d) + list_sum (map (fun k => length (e_q (snd (fin k)))) (seq 0 (length ws))) < fuel.
  Proof.
    rewrite Hi, p_len. cbn [length plus]. eapply Nat.le_lt_trans; [|exact Hf].
    assert (G : forall l o, (forall k j, l !! k = Some j -> length (e_q (snd (fin (o + k)))) <= length (code_texts (j_code j)) + 2) ->
      list_sum (map (fun k => length (e_q (snd (fin k)))) (seq o (length l))) <= list_sum (map (fun j => length (code_texts (j_code j)) + 2) l)).
    { induction l as [|j l IH]; intros o H; [simpl; lia|]. cbn [length seq map]. specialize (IH (S o)).
      pose proof (H 0 j eq_refl) as H0. rewrite Nat.add_0_r in H0. unfold list_sum in *. cbn [fold_right]. apply Nat.add_le_mono; [exact H0|].
      apply IH. intros k j' Hk. specialize (H (S k) j' Hk). rewrite Nat.add_succ_r in H. exact H. }
    apply (G jobs 0). intros k j Ej. apply (sends_once exc j), (p_sends k j Ej).
  Qed.
  Lemma p_n : s_n d = Z.of_nat (length ws). Proof. rewrite p_len. exact Hn. Qed.
  Lemma p_ne : ws <> [].
  Proof. clear - Hne. unfold ws. destruct jobs; [congruence|discriminate]. Qed.
  Lemma p_job k : k < length ws -> exists j, jobs !! k = Some j.
  Proof. rewrite p_len. intros H. apply lookup_lt_is_Some_2 in H. exact H. Qed.
  Lemma p_once k : k < length ws -> ends_once (e_q (snd (fin k))).
  Proof. intros H. destruct (p_job k H) as [j Ej]. apply (sends_once exc j), (p_sends k j Ej). Qed.

  Lemma p_forall2 {X} (R : job -> X -> Prop) (f : nat -> X) : (forall k j, jobs !! k = Some j -> R j (f k)) ->
    Forall2 R jobs (map f (seq 0 (length jobs))).
  Proof.
    clear. intros H. assert (G : forall l o, (forall k j, l !! k = Some j -> R j (f (o + k))) -> Forall2 R l (map f (seq o (length l)))).
    { induction l as [|j l IH]; intros o Hl; [constructor|]. cbn [length seq map]. constructor.
      - specialize (Hl 0 j eq_refl). rewrite Nat.add_0_r in Hl. exact Hl.
      - apply IH. intros k j' Hk. specialize (Hl (S k) j' Hk). rewrite Nat.add_succ_r in Hl. exact Hl. }
    apply (G jobs 0). exact H.
  Qed.

  Lemma c90_arrives sch ps' s' x : sched_run sch (print_pool exc jobs fuel, idle d) = Some (ps', s') ->
    ps' !! length jobs = Some (Ret x) ->
    x = PWaited (Good tt) /\ inbox (dat s') = [] /\ s_n (dat s') = 0%Z /\
    exists msgss lg, Forall2 (sends_msgs exc) jobs msgss /\ order_of msgss lg /\ received m d (dat s') (map snd lg).
  Proof using Hm Hr Hc Hj Hf Hi Hn Hne.
    rewrite p_start. intros Hs Hx. rewrite <- p_len in Hx.
    destruct (gen_returned m d ws fin PWaited fuel Hm Hr Hc p_nd p_ws p_fuel Hi p_n p_ne p_once sch ps' s' x Hs Hx) as (E1 & E2 & E3 & lg & Ho & Hrec).
    split; [exact E1|]. split; [exact E2|]. split; [exact E3|]. eexists _, lg. split; [|split; [exact Ho|exact Hrec]].
    rewrite p_len. apply p_forall2. exact p_sends.
  Qed.
  Lemma c90_ends sch ps' s' : sched_run sch (print_pool exc jobs fuel, idle d) = Some (ps', s') ->
    (forall i, cstep i (ps', s') = None) ->
    Forall (fun p => exists x, p = Ret x) ps' /\ lks s' = stdpp.base.empty.
  Proof using Hm Hr Hc Hj Hf Hi Hn Hne.
    rewrite p_start. intros Hs Hno.
    exact (gen_ends m d ws fin PWaited fuel Hm Hr Hc p_nd p_ws p_fuel Hi p_n p_ne p_once sch ps' s' Hs Hno).
  Qed.
  Lemma c90_lines sch ps' s' x : current d = [] -> (forall j, In j jobs -> Forall whole_lines (code_texts (j_code j))) ->
    sched_run sch (print_pool exc jobs fuel, idle d) = Some (ps', s') -> ps' !! length jobs = Some (Ret x) ->
    exists itemss li, Forall2 (prints exc) jobs itemss /\ order_of itemss li /\
      records (dat s') = last_items m (records d ++ map snd li) /\ current (dat s') = [].
  Proof using Hm Hr Hc Hj Hf Hi Hn Hne.
    rewrite p_start. intros Hcur Hl Hs Hx. rewrite <- p_len in Hx.
    assert (G : exists itemss, Forall2 (prints exc) jobs itemss /\
      forall k items, itemss !! k = Some items -> recorded (e_q (snd (fin k))) items).
    { assert (G : forall l o, (forall k j, l !! k = Some j -> In j jobs /\ sends_msgs exc j (e_q (snd (fin (o + k))))) ->
        exists itemss, Forall2 (prints exc) l itemss /\ forall k items, itemss !! k = Some items -> recorded (e_q (snd (fin (o + k)))) items).
      { induction l as [|j l IH]; intros o H; [exists []; split; [constructor|]; intros k items Hk; discriminate|].
        destruct (H 0 j eq_refl) as [Hj0 H0]. destruct (sends_lines exc j _ (Hl j Hj0) H0) as (items & P1 & P2).
        destruct (IH (S o)) as (itemss & I1 & I2).
        { intros k j' Hk. specialize (H (S k) j' Hk). rewrite Nat.add_succ_r in H. exact H. }
        exists (items :: itemss). split; [constructor; assumption|]. intros [|k] its Hk.
        - injection Hk as <-. exact P2.
        - rewrite Nat.add_succ_r. apply (I2 k its Hk). }
      apply (G jobs 0). intros k j Ej. split; [eapply p_in, Ej|apply p_sends, Ej]. }
    destruct G as (itemss & I1 & I2).
    assert (Hlen : length itemss = length ws) by (rewrite p_len; symmetry; eapply Forall2_length, I1).
    destruct (gen_lines m d ws fin PWaited fuel Hm Hr Hc p_nd p_ws p_fuel Hi p_n p_ne p_once itemss sch ps' s' x Hcur Hlen I2 Hs Hx)
      as (li & L1 & L2 & L3). exists itemss, li. auto.
  Qed.
  Lemma c90_processes sch ps' s' k j x : sched_run sch (print_pool exc jobs fuel, idle d) = Some (ps', s') ->
    jobs !! k = Some j -> ps' !! k = Some (Ret x) ->
    exists l r s2, block_does exc j l r /\ x = Printed r s2 /\ r <> Hangs /\ out s2 = out (j_sys j) /\ err s2 = err (j_sys j) /\
      is_closed (mir_at (dat s') (j_mir j)) = true.
  Proof using Hm Hr Hc Hj Hf Hi.
    rewrite p_start. intros Hs Ej Hx. destruct (p_at k j Ej) as [Hw Ef].
    destruct (gen_run m d ws fin PWaited fuel Hm Hr Hc p_nd p_ws p_fuel sch ps' s' Hs) as (lg & taken & _ & _ & _ & H4 & _).
    destruct (H4 k _ x Hw Hx) as (-> & _ & H6). rewrite Ef in *. cbn [fst] in H6.
    destruct (proj2 Hj j (p_in k j Ej)) as (J1 & J2 & J3 & J4 & J5).
    destruct (job_does m d exc j Hm Hr J1 J3 J4 J5) as (l & r & s2 & ds & v & E & B & Hh & Ho & He & Hcl & _ & _).
    exists l, r, s2. rewrite H6. auto 10.
  Qed.
End C90.

(** ** print() *)
Lemma put_all_texts te ts : code_texts (put_all te ts) = ts.
Proof. induction ts as [|t ts IH]; cbn; [reflexivity|]. rewrite IH. reflexivity. Qed.
Lemma print_whole te args : Forall no_break args -> Forall whole_lines (code_texts (print te args)).
Proof.
  intros H. unfold print, print_texts. rewrite put_all_texts. apply List.Forall_app. split.
  - assert (G : forall t, no_break t -> whole_lines t) by (intros t Ht; exists [], t; split; [constructor; exact Ht|auto]).
    assert (Hs : whole_lines [32%N]). { apply G. constructor; [|constructor]. unfold line_break. vm_compute. intuition discriminate. }
    induction H as [|a args Ha Hargs IH]; [constructor|]. destruct args as [|b args]; cbn [print_args] in *.
    + constructor; [apply G, Ha|constructor].
    + constructor; [apply G, Ha|]. constructor; [exact Hs|exact IH].
  - constructor; [|constructor]. exists [[]], []. split; [|auto]. apply (seg_line [] [10%N] [] [] []); [constructor| |constructor; constructor].
    apply term_one; [vm_compute; auto|]. intros [? ?]; discriminate.
Qed.

Definition pwaited_ok (x : option (prog scmd kresult)) : bool := match x with Some (Ret (PWaited (Good tt))) => true | _ => false end.
Lemma pdrains_witness is (c : config (C:=scmd) (D:=psys) kresult) k items :
  pwaited_ok (fst (plan is c) !! k) = true -> records (dat (snd (plan is c))) = items ->
  exists sch ps' s', sched_run sch c = Some (ps', s') /\ ps' !! k = Some (Ret (PWaited (Good tt))) /\ records (dat s') = items.
Proof.
  intros H1 H2. destruct (plan_sched is c) as [sch Hs]. exists sch, (fst (plan is c)), (snd (plan is c)).
  split; [rewrite Hs; destruct (plan is c); reflexivity|]. split; [|exact H2].
  destruct (_ !! k) as [[[|[[]| |]]| |]|]; try discriminate. reflexivity.
Qed.
