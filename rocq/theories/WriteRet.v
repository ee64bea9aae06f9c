(** * WriteRet: lemmas about what write() returns in any execution (C10, C22, C37) *)
From stdpp Require Import gmap.
From Coq Require Import List NArith ZArith Bool Arith Lia.
From Verif Require Import PyStr Prog ProgFacts PyIO Base Spec SpecFacts LineBuf LineBufFacts LineBufConc Okp Flaky FlakySpec WriteRetSpec.
From Verif Require Proc ProcSpec CountSpec Host HostCli HostLazy HostNet HostNetSpec FileBuf FileConc.
Import ListNotations.
Local Open Scope prog_scope.
Local Open Scope nat_scope.

Notation rets res := (okp (fun X c => anything X c) res).

Lemma splitlines_nil data : splitlines data = [] -> data = [].
Proof.
  rewrite splitlines_seg. intros H. destruct (seg data) as [ls r] eqn:E. cbn [fst snd] in H. apply app_eq_nil in H. destruct H as [-> H].
  destruct r; [apply seg_nil_nil, E|discriminate].
Qed.
Lemma rets_finally {C} (res : forall X, C X -> X -> Prop) {A} (R : A -> Prop) p fin : rets res R p -> rets res R (try_finally p fin).
Proof.
  induction 1 as [a Ha|e|l m k h _ IHk _ IHh|l k h _ IHk _ IHh|X c k h Hc _ IHk _ IHh]; cbn [try_finally].
  - apply rets_bind. intros []. constructor. exact Ha.
  - apply rets_bind. intros []. constructor.
  - constructor; auto.
  - constructor; auto.
  - apply ok_op; auto.
Qed.
Lemma rets_lift {C C'} (e : forall X, C X -> C' X) (res : forall X, C X -> X -> Prop) (res' : forall X, C' X -> X -> Prop) {A} (R : A -> Prop) p :
  (forall X c x, res' X (e X c) x -> res X c x) -> rets res R p -> rets res' R (lift e p).
Proof.
  intros He. induction 1 as [a Ha|er|l m k h _ IHk _ IHh|l k h _ IHk _ IHh|X c k h Hc _ IHk _ IHh]; cbn [lift lift_cmd].
  - constructor; exact Ha.
  - constructor.
  - constructor; auto.
  - constructor; auto.
  - apply ok_op; [exact I| |exact IHh]. intros x Hx. apply IHk, He, Hx.
Qed.

(** From threads to single calls. *)
Lemma nth_err_lookup {A} (l : list A) : forall i, nth_error l i = l !! i.
Proof. induction l as [|x l IH]; intros [|i]; try reflexivity. apply IH. Qed.
Section Returned.
  Context {C : Type -> Type} {D : Type} `{!Sem C D} (res : forall X, C X -> X -> Prop).
  Hypothesis Hcmd : forall X (c : C X) d x d', cexec c d = (Good x, d') -> res X c x.
  Lemma returned_ok {K A} (R : K -> A -> Prop) (call : nat -> K -> prog C A) css (ps0 : list (prog C (list (outcome A)))) s sch ps s' i k c r :
    (forall i c, rets res (R c) (call i c)) -> (forall i cs, nth_error css i = Some cs -> nth_error ps0 i = Some (thread (map (call i) cs))) ->
    sched_run sch (ps0, s) = Some (ps, s') -> returned css ps i k c r -> R c r.
  Proof using Hcmd.
    intros H Hp Hr (cs & rs & Hc & Hk & Hi & Hk'). apply Hp in Hc. rewrite nth_err_lookup in Hc. rewrite nth_err_lookup in Hi.
    pose proof (rets_calls res Hcmd R (call i) cs i sch ps0 s ps s' rs (H i) Hc Hr Hi) as HF.
    rewrite nth_err_lookup in Hk. rewrite nth_err_lookup in Hk'. exact (Forall2_lookup_lr _ _ _ _ _ _ HF Hk Hk' r eq_refl).
  Qed.
  (** The same with exceptions from outside. *)
  Lemma returned_flaky {K A} (R : K -> A -> Prop) (call : nat -> K -> prog C A) css (ps0 : list (prog (fl C) (list (outcome A)))) (s : st (D * faults)) sch ps s' i k c r :
    (forall i c, rets res (R c) (call i c)) ->
    (forall i cs, nth_error css i = Some cs -> nth_error ps0 i = Some (thread (map flaky_call (map (call i) cs)))) ->
    sched_run sch (ps0, s) = Some (ps, s') -> returned css ps i k c r -> R c r.
  Proof using Hcmd.
    intros H Hp Hr (cs & rs & Hc & Hk & Hi & Hk'). apply Hp in Hc. rewrite map_map in Hc. rewrite nth_err_lookup in Hc. rewrite nth_err_lookup in Hi.
    pose proof (rets_calls (fl_res res) (fl_cmd res Hcmd) R (fun c => flaky_call (call i c)) cs i sch ps0 s ps s' rs (fun c => rets_flaky_call res (R c) _ (H i c)) Hc Hr Hi) as HF.
    rewrite nth_err_lookup in Hk. rewrite nth_err_lookup in Hk'. exact (Forall2_lookup_lr _ _ _ _ _ _ HF Hk Hk' r eq_refl).
  Qed.
End Returned.
Lemma pool_map {C : Type -> Type} {K A} (call : nat -> K -> prog C A) (f : list K -> prog C (list (outcome A))) css :
  (forall i cs, f cs = thread (map (call i) cs)) ->
  forall i cs, nth_error css i = Some cs -> nth_error (map f css) i = Some (thread (map (call i) cs)).
Proof. intros H i cs E. rewrite nth_error_map, E. cbn. rewrite (H i). reflexivity. Qed.

(** ** LineBuffer *)
Definition b_res (X : Type) (c : bcmd X) : X -> Prop :=
  match c in bcmd X return X -> Prop with FWrite s => fun n => n = length s | _ => fun _ => True end.
Lemma sio_write_ret s f n f' : sio_write s f = (Good n, f') -> n = length s.
Proof. unfold sio_write, sio_guard. destruct (sclosed f); [discriminate|]. intros [= <- _]. reflexivity. Qed.
Lemma b_res_cmd X (c : bcmd X) d x d' : cexec c d = (Good x, d') -> b_res X c x.
Proof.
  destruct c; simpl; auto. unfold on_file. destruct (sio_write s (last_line d)) as [r f] eqn:E. intros [= -> _]. eapply sio_write_ret, E.
Qed.
Lemma written_wres data : written data (wres data).
Proof.
  exists (fst (seg data)), (snd (seg data)). split; [apply seg_segments|]. unfold wres, single_break.
  destruct (seg data) as [[|[|x l] [|l' ls]] [|y r]]; cbn [fst snd]; try (right; split; [intros [? ?]; discriminate|reflexivity]).
  left. auto.
Qed.
Lemma rets_body_gen {C} (e : forall X, bcmd X -> C X) (res : forall X, C X -> X -> Prop) parse data :
  (forall s x, res _ (e _ (FWrite s)) x -> x = length s) -> rets res (written data) (lb_write_body_gen e parse data).
Proof.
  intros He. unfold lb_write_body_gen. cbv zeta. rewrite splitlines_single. pose proof (written_wres data) as Hw. unfold wres in Hw.
  destruct (single_break data) eqn:Eb.
  - repeat (apply rets_bind; intros). constructor. exact Hw.
  - unfold single_break in Eb. revert Hw. rewrite is_end_seg, splitlines_seg. destruct (seg data) as [[|l ls] r]; cbn [fst snd]; intros Hw.
    + destruct r as [|c r]; cbn.
      * constructor. exact Hw.
      * apply rets_op. intros x Hx. rewrite (He _ _ Hx). exact Hw.
    + destruct r as [|c r]; cbn [opt_line].
      * rewrite app_nil_r. destruct (1 <? _) eqn:E1; [|exfalso; apply Nat.ltb_ge in E1; cbn in E1; lia]. repeat (apply rets_bind; intros).
        apply rets_op. intros x Hx. rewrite (He _ _ Hx). cbn [app hd tl]. rewrite (app_comm_cons ls [[]]), last_last. exact Hw.
      * destruct (1 <? _) eqn:E1; [|exfalso; apply Nat.ltb_ge in E1; rewrite app_length in E1; cbn in E1; lia]. repeat (apply rets_bind; intros).
        apply rets_op. intros x Hx. rewrite (He _ _ Hx). cbn [app hd tl]. rewrite (app_comm_cons ls [c :: r]), last_last. exact Hw.
Qed.
Definition b_promise (c : call) (r : res) : Prop := match c with Write data => exists n, r = RNat n /\ written data n | _ => True end.
Lemma rets_lb c : rets b_res (b_promise c) (lb_call c).
Proof.
  destruct c; cbn [b_promise]; try apply rets_any. unfold lb_call, ret_as, lb_write, lb_write_with, lb_write_gen.
  eapply ok_bind with (R := written data).
  - apply rets_bind. intros w. destruct (negb w); [constructor|]. apply ok_with, rets_body_gen. intros s x Hx. exact Hx.
  - intros n Hn. constructor. exists n. auto.
Qed.

(** ** LineProcMirror in a system *)
Section Proc.
  Import Proc ProcSpec CountSpec.
  Definition m_res (X : Type) (c : mcmd X) : X -> Prop :=
    match c in mcmd X return X -> Prop with MWrite s => fun n => n = length s | _ => fun _ => True end.
  Definition s_res (X : Type) (c : scmd X) : X -> Prop :=
    match c in scmd X return X -> Prop with SM _ c => m_res _ c | SP _ => fun _ => True end.
  Lemma s_res_cmd X (c : scmd X) d x d' : cexec c d = (Good x, d') -> s_res X c x.
  Proof.
    destruct c as [i X c|X c]; simpl; [|auto]. destruct (mexec c (get_menv i d)) as [r e] eqn:E. intros [= -> _].
    destruct c; simpl; auto. simpl in E. unfold on_buf in E. destruct (sio_write s _) as [r f] eqn:Ew. injection E as -> _. eapply sio_write_ret, Ew.
  Qed.
  Lemma rets_m_body data : rets m_res (fun n => n = length data) (lm_write_body data).
  Proof.
    unfold lm_write_body. cbv zeta. repeat (apply rets_bind; intros). destruct a1.
    - apply rets_bind. intros. constructor. reflexivity.
    - destruct (_ || _) eqn:Eo.
      + eapply ok_bind with (R := fun n => n = length data); [apply rets_op; auto|]. intros n ->. repeat (apply rets_bind; intros). constructor. reflexivity.
      + destruct (_ =? 1) eqn:E1; [apply rets_op; auto|]. constructor. destruct (splitlines data) as [|x [|y l]] eqn:E2; [|discriminate|discriminate].
        apply splitlines_nil in E2. subst. reflexivity.
  Qed.
  Definition s_promise (c : scall) (r : sres) : Prop :=
    match c with
    | ToMirror _ (CWrite data) => r = FromMirror (MNat (length data))
    | ToMain (PBase (Write _)) => False
    | _ => True
    end.
  Lemma rets_sys c : rets s_res (s_promise c) (s_call c).
  Proof.
    destruct c as [c|i c]; cbn [s_promise s_call].
    - destruct c as [[]| | | | | |]; try apply rets_any. cbn. constructor.
    - destruct c; try apply rets_any. unfold sys_m. apply rets_lift with (res := m_res); [intros X c x H; exact H|].
      cbn [lm_call]. unfold mret. eapply ok_bind with (R := fun r => r = MNat (length data)).
      + eapply ok_bind with (R := fun n => n = length data); [|intros n ->; constructor; reflexivity].
        unfold lm_write. apply rets_bind. intros w. destruct (negb w); [constructor|]. unfold with_m. apply rets_bind. intros l. apply ok_with, rets_m_body.
      + intros r ->. constructor. reflexivity.
  Qed.
  Lemma sys_returned css s sch ps s' i k c r : sched_run sch (sys_pool css, s) = Some (ps, s') -> returned css ps i k c r -> s_promise c r.
  Proof.
    intros Hr. refine (returned_ok s_res s_res_cmd s_promise (fun _ => s_call) css _ s sch ps s' i k c r (fun _ => rets_sys) _ Hr). apply pool_map. reflexivity.
  Qed.
  Lemma sys_returned_flaky css (s : st (psys * faults)) sch ps s' i k c r :
    sched_run sch (fl_pool (map (map s_call) css), s) = Some (ps, s') -> returned css ps i k c r -> s_promise c r.
  Proof.
    intros Hr. refine (returned_flaky s_res s_res_cmd s_promise (fun _ => s_call) css _ s sch ps s' i k c r (fun _ => rets_sys) _ Hr).
    unfold fl_pool. intros j cs E. rewrite map_map, nth_error_map, E. reflexivity.
  Qed.
End Proc.

(** ** LineBuffer: executions *)
Lemma lb_returned css s sch ps s' i k c r : sched_run sch (lb_pool css, s) = Some (ps, s') -> returned css ps i k c r -> b_promise c r.
Proof.
  intros Hr. refine (returned_ok b_res b_res_cmd b_promise (fun _ => lb_call) css _ s sch ps s' i k c r (fun _ => rets_lb) _ Hr). apply pool_map. reflexivity.
Qed.
Lemma lb_returned_flaky css (s : st (lbuf * faults)) sch ps s' i k c r :
  sched_run sch (fl_pool (map (map lb_call) css), s) = Some (ps, s') -> returned css ps i k c r -> b_promise c r.
Proof.
  intros Hr. refine (returned_flaky b_res b_res_cmd b_promise (fun _ => lb_call) css _ s sch ps s' i k c r (fun _ => rets_lb) _ Hr).
  unfold fl_pool. intros j cs E. rewrite map_map, nth_error_map, E. reflexivity.
Qed.

(** ** LineHostMirror *)
Section Host.
  Import Host HostCli HostLazy HostNet HostNetSpec.
  Definition c_res (X : Type) (c : ccmd X) : X -> Prop :=
    match c in ccmd X return X -> Prop with MPut _ s => fun n => n = length s | _ => fun _ => True end.
  Definition l_res (X : Type) (c : lcmd X) : X -> Prop :=
    match c in lcmd X return X -> Prop with LC c => c_res _ c | _ => fun _ => True end.
  Definition n_res (X : Type) (c : ncmd X) : X -> Prop :=
    match c in ncmd X return X -> Prop with NL c => l_res _ c | _ => fun _ => True end.
  Lemma n_res_cmd E X (c : ncmd X) d x d' : @cexec ncmd nworld (nsem E) X c d = (Good x, d') -> n_res X c x.
  Proof.
    destruct c as [X c| | | | | | | | | | | |]; simpl; auto. destruct (lexec E c (n_l d)) as [r l] eqn:El. intros [= -> _].
    destruct c as [| |X c]; simpl; auto. simpl in El. destruct (cliexec E c _) as [r w] eqn:Ec. injection El as -> _.
    destruct c; simpl; auto. simpl in Ec. unfold on_mir in Ec. destruct (sio_write s _) as [r f] eqn:Ew. injection Ec as -> _. eapply sio_write_ret, Ew.
  Qed.
  Definition k_promise (c : kcall) (r : cres) : Prop :=
    match c with KMir _ (HWrite data) => r = CNat (length data) | _ => True end.
  Lemma rets_k c : rets n_res (k_promise c) (k_call c).
  Proof.
    destruct c as [M c| | | |]; cbn [k_promise k_call]; try apply rets_any. destruct c; try apply rets_any. cbn [n_mcall]. unfold g_as.
    eapply ok_bind with (R := fun n => n = length data); [|intros n ->; constructor; reflexivity].
    unfold n_write. apply rets_bind. intros w. destruct (negb w); [constructor|]. unfold n_with. apply rets_bind. intros l. apply ok_with.
    unfold n_write_body. cbv zeta. apply rets_bind. intros _. destruct (lm_aggr M).
    - apply rets_bind. intros. constructor. reflexivity.
    - destruct (_ || _) eqn:Eo.
      + eapply ok_bind with (R := fun n => n = length data); [apply rets_op; auto|]. intros n ->. repeat (apply rets_bind; intros). constructor. reflexivity.
      + destruct (_ =? 1) eqn:E1; [apply rets_op; auto|]. constructor. destruct (splitlines data) as [|x [|y l']] eqn:E2; [|discriminate|discriminate].
        apply splitlines_nil in E2. subst. reflexivity.
  Qed.
  Lemma net_returned E css s sch ps s' i k c r : net_sched E sch (net_pool css, s) = Some (ps, s') -> returned css ps i k c r -> k_promise c r.
  Proof.
    intros Hr. refine (@returned_ok ncmd nworld (nsem E) n_res (n_res_cmd E) _ _ k_promise (fun _ => k_call) css _ s sch ps s' i k c r (fun _ => rets_k) _ Hr).
    apply pool_map. reflexivity.
  Qed.
  Lemma net_returned_flaky E css (s : st (nworld * faults)) sch ps s' i k c r :
    @sched_run (fl ncmd) _ (@flsem ncmd nworld (nsem E)) _ sch (fl_pool (map (map k_call) css), s) = Some (ps, s') -> returned css ps i k c r -> k_promise c r.
  Proof.
    intros Hr. refine (@returned_flaky ncmd nworld (nsem E) n_res (n_res_cmd E) _ _ k_promise (fun _ => k_call) css _ s sch ps s' i k c r (fun _ => rets_k) _ Hr).
    unfold fl_pool. intros j cs Ej. rewrite map_map, nth_error_map, Ej. reflexivity.
  Qed.
End Host.

(** ** LineFileBuffer *)
Section File.
  Import FileBuf FileConc.
  Definition f_res (X : Type) (c : fcmd X) : X -> Prop := fun _ => True.
  Definition f_promise (c : fcall) (r : fres) : Prop := match c with XWrite data => exists n, r = VNat n /\ written data n | _ => True end.
  Lemma rets_file_write n (s : text) : rets f_res (fun x => x = length s) (file_write n s).
  Proof. unfold file_write. repeat (apply rets_bind; intros). constructor. reflexivity. Qed.
  Lemma rets_fb b c : rets f_res (f_promise c) (fb_call b c).
  Proof.
    destruct c; cbn [f_promise]; try apply rets_any. cbn [fb_call]. unfold as_fres.
    eapply ok_bind with (R := written data); [|intros n Hn; constructor; exists n; auto]. unfold fb_write. apply rets_bind. intros w. destruct (negb w); [constructor|].
    assert (Hl : forall s, rets f_res (fun x => x = length s) (fb_write_last_line b s)).
    { intros s. unfold fb_write_last_line. apply ok_with, rets_bind. intros _. apply rets_file_write. }
    unfold fb_write_body. cbv zeta. rewrite splitlines_single. pose proof (written_wres data) as Hw. unfold wres in Hw. destruct (single_break data) eqn:Eb.
    - repeat (apply rets_bind; intros). constructor. exact Hw.
    - revert Hw. rewrite is_end_seg, splitlines_seg. destruct (seg data) as [[|l ls] r]; cbn [fst snd]; intros Hw.
      + destruct r as [|x r]; cbn; [constructor; exact Hw|]. eapply ok_more; [apply Hl|]. intros n ->. exact Hw.
      + assert (G : forall x rest, last rest [] = r -> rest <> [] -> rets f_res (written data) match x :: rest with [] => Ret 0 | [x] => fb_write_last_line b x
          | x :: rest => l <- fb_get_last_line b ;; fb_parse_lines b (removelast ((l ++ x) :: rest)) ;; fb_clean_last_line b ;; fb_write_last_line b (last rest []) end).
        { intros x rest <- Hr. destruct rest as [|y rest]; [congruence|]. repeat (apply rets_bind; intros). eapply ok_more; [apply Hl|]. intros n ->. exact Hw. }
        destruct r as [|x r]; cbn [opt_line]; rewrite ?app_nil_r; apply (G l).
        * apply last_last.
        * intros H. apply app_eq_nil in H. destruct H; discriminate.
        * apply last_last.
        * intros H. apply app_eq_nil in H. destruct H; discriminate.
  Qed.
  Lemma f_res_cmd X (c : fcmd X) d x d' : cexec c d = (Good x, d') -> f_res X c x.
  Proof. intros _. exact I. Qed.
  Lemma fb_returned bs css s sch ps s' i k c r : sched_run sch (fb_pool bs css, s) = Some (ps, s') -> returned css ps i k c r -> f_promise c r.
  Proof.
    intros Hr. refine (returned_ok f_res f_res_cmd f_promise (fun i => fb_call (bs i)) css _ s sch ps s' i k c r (fun i => rets_fb (bs i)) _ Hr).
    intros j cs Ej. unfold fb_pool. rewrite nth_err_lookup, list_lookup_imap, <- nth_err_lookup, Ej. reflexivity.
  Qed.
  Lemma fb_returned_flaky (bs : nat -> fbuf) css (s : st (fdir * faults)) sch ps s' i k c r :
    sched_run sch (fl_pool (imap (fun i => map (fb_call (bs i))) css), s) = Some (ps, s') -> returned css ps i k c r -> f_promise c r.
  Proof.
    intros Hr. refine (returned_flaky f_res f_res_cmd f_promise (fun i => fb_call (bs i)) css _ s sch ps s' i k c r (fun i => rets_fb (bs i)) _ Hr).
    intros j cs Ej. unfold fl_pool. rewrite nth_error_map, nth_err_lookup, list_lookup_imap, <- nth_err_lookup, Ej. reflexivity.
  Qed.
End File.
