(** * PrintCliProofs: clients that print into their mirrors *)
From stdpp Require Import gmap.
From Coq Require Import List NArith ZArith Bool Arith Lia.
From Verif Require Import PyStr Prog ProgFacts PyIO Base Spec SpecFacts LineBuf LineBufFacts LineBufSpec LineBufProofs
  Locks Atomic Serial Conc Json JsonSpec JsonFacts Host HostSpec HostFacts HostProofs HostCli HostCliSpec HostCliFacts HostCliProofs HostCliConc
  Ctx Print PrintSpec PrintProofs PrintPool PrintCli.
From Verif Require PrintHost ProcRun.
Import ListNotations.
Local Open Scope prog_scope.
Local Open Scope nat_scope.

(** ** [kprog] by one thread is [kexec] *)
Section KprogRun.
  Context {C : Type -> Type} {D : Type} `{!Sem C D}.
  Variables (t : nat) (write : nat -> text -> prog C nat) (exit_ : nat -> option excobj -> prog C unit) (exc : exn -> excobj) (cl : classes D).
  Hypotheses (Hexc : c_exc cl = exc) (Hev : forall n d, c_event cl n d = d)
    (Hw : forall o data d, exists r d', run t (write o data) (mkst d ∅) = (r, mkst d' ∅) /\ r <> Block /\ c_write cl o data d = (r, d'))
    (Hx : forall o e d, exists r d', run t (exit_ o e) (mkst d ∅) = (r, mkst d' ∅) /\ r <> Block /\ c_exit cl o e d = (r, d')).

  Lemma run_attempt {A} (p : prog C A) s :
    run t (attempt p) s = match run t p s with (Block, s') => (Block, s') | (r, s') => (Good r, s') end.
  Proof.
    revert s. induction p as [a|e|X c k IHk h IHh]; intros s; [reflexivity|reflexivity|]. cbn [attempt run]. destruct (Prog.exec t c s) as [[x|e|] s']; auto.
  Qed.
  Lemma kprog_run b : forall s d, exists r s' d', kexec cl b s d = (r, s', d') /\ r <> Hangs /\
    run t (kprog write exit_ exc b s) (mkst d ∅) = (Good (r, s'), mkst d' ∅).
  Proof using Hexc Hev Hw Hx.
    induction b as [|te data|n|e|b1 IH1 b2 IH2|b IH|m b IH]; intros s d; cbn [kexec kprog].
    - eexists _, _, _. split; [reflexivity|]. split; [discriminate|reflexivity].
    - destruct (target te (out s) (err s)) as [o|].
      + destruct (Hw o data d) as (r & d' & H1 & H2 & H3). rewrite H3, Hexc.
        destruct r as [n|x|]; [| |congruence]; (eexists _, _, _; split; [reflexivity|]; split; [discriminate|]);
          rewrite run_bind, run_attempt, H1; reflexivity.
      + eexists _, _, _. split; [reflexivity|]. split; [discriminate|reflexivity].
    - rewrite Hev. eexists _, _, _. split; [reflexivity|]. split; [discriminate|reflexivity].
    - eexists _, _, _. split; [reflexivity|]. split; [discriminate|reflexivity].
    - destruct (IH1 s d) as (r & s1 & d1 & E & Hr & H). rewrite E. destruct r as [|e|]; [| |congruence].
      + destruct (IH2 s1 d1) as (r2 & s2 & d2 & E2 & Hr2 & H2). eexists _, _, _. split; [exact E2|]. split; [exact Hr2|].
        rewrite run_bind, H. exact H2.
      + eexists _, _, _. split; [reflexivity|]. split; [discriminate|]. rewrite run_bind, H. reflexivity.
    - destruct (IH s d) as (r & s1 & d1 & E & Hr & H). rewrite E.
      destruct r as [|e|]; [| |congruence]; (eexists _, _, _; split; [reflexivity|]; split; [discriminate|]);
        rewrite run_bind, H; reflexivity.
    - destruct (IH (enter m s) d) as (r & s1 & d1 & E & Hr & H). rewrite E.
      destruct m as [o|o u|o u].
      2,3: destruct r as [|e|]; [| |congruence]; (eexists _, _, _; split; [reflexivity|]; split; [discriminate|]);
        rewrite run_bind, H; reflexivity.
      destruct (Hx o (exc_value r) d1) as (r2 & d2 & H1 & H2 & H3).
      exists (after_call exc r2 r), (leave (Buf o) s1), d2. split; [|split].
      + destruct r as [|e|]; [| |congruence]; cbn [exc_value] in H3 |- *; rewrite H3, Hexc; destruct r2; congruence || reflexivity.
      + destruct r2; [exact Hr|discriminate|congruence].
      + rewrite run_bind, H. cbn [fst snd]. rewrite run_bind, run_attempt, H1. destruct r2; [reflexivity|reflexivity|congruence].
  Qed.
End KprogRun.

Section Alone.
  Variable E : henv.
  #[local] Hint Extern 0 (Sem ccmd world) => exact (clisem E) : typeclass_instances.

  Lemma run_as {A} t M (c : mcall) (g : A -> cres) (p : prog ccmd A) (w : world) : has_rlock M -> m_call M c = as_cres g p ->
    (forall a b, g a = g b -> a = b) -> run t p (mkst w ∅) = (fst (srun p w), mkst (snd (srun p w)) ∅).
  Proof.
    intros HM Ec Hg. pose proof (run_ol E (hm_lock M) t (m_call M c) w (ol_m_call M c HM)) as H.
    rewrite Ec in H. unfold as_cres in H. rewrite run_bind, srun_bind in H.
    pose proof (srun_nb (cli_nb E) p w) as Hn.
    destruct (run t p (mkst w ∅)) as [[a|e|] [w' k]], (srun p w) as [[a2|e2|] w2]; cbn [run srun fst snd] in *; try congruence;
      injection H; intros; subst; try (assert (a = a2) by auto; subst); congruence || reflexivity.
  Qed.

  Lemma c92_alone M k exc b s (w : world) t r s' w' : has_rlock M ->
    kexec (host_mirror k E M (fun _ w => w) exc) b s w = (r, s', w') ->
    run t (cli_code M k exc b s) (mkst w ∅) = (Good (r, s'), mkst w' ∅) /\ r <> Hangs.
  Proof.
    intros HM Ek.
    destruct (kprog_run t (cli_write M k) (cli_exit M k) exc (host_mirror k E M (fun _ w => w) exc) eq_refl (fun _ _ => eq_refl)) with (b := b) (s := s) (d := w)
      as (r1 & s1 & w1 & E1 & Hr & H).
    - intros o data d. unfold cli_write, host_mirror. cbn [c_write alone]. destruct (o =? k); [|eexists _, _; split; [reflexivity|split; [discriminate|reflexivity]]].
      assert (Hrun : forall t, run t (hm_write M data) (mkst d ∅) = (fst (srun (hm_write M data) d), mkst (snd (srun (hm_write M data) d)) ∅)).
      { intros t0. apply (run_as t0 M (HWrite data) CNat); [exact HM|reflexivity|]. congruence. }
      eexists _, _. split; [apply Hrun|]. split; [apply (srun_nb (cli_nb E))|]. unfold on. rewrite Hrun. reflexivity.
    - intros o e d. unfold cli_exit, host_mirror. cbn [c_exit alone]. destruct (o =? k); [|eexists _, _; split; [reflexivity|split; [discriminate|reflexivity]]].
      assert (Hrun : forall t, run t (hm_close M e) (mkst d ∅) = (fst (srun (hm_close M e) d), mkst (snd (srun (hm_close M e) d)) ∅)).
      { intros t0. apply (run_as t0 M (HClose e) (fun _ => CUnit)); [exact HM|reflexivity|]. intros [] [] _. reflexivity. }
      eexists _, _. split; [apply Hrun|]. split; [apply (srun_nb (cli_nb E))|]. unfold on. rewrite Hrun. reflexivity.
    - rewrite Ek in E1. injection E1 as <- <- <-. auto.
  Qed.
End Alone.

(** ** One client among others *)
Section Client.
  Variable M : hmir.
  (** What the messages should be, as a class of Print.v. *)
  Definition ideal : Type := list hmsg * option text.
  Definition i_write (data : text) (x : ideal) : outcome nat * ideal :=
    match snd x with
    | Some v => (Good (length data), (fst x ++ fst (says_write M data v), Some (snd (says_write M data v))))
    | None => (Fail OSError, x)
    end.
  Definition i_exit (e : option excobj) (x : ideal) : outcome unit * ideal :=
    match snd x with
    | Some v => (Good tt, (fst x ++ says_line v ++ [close_says e], None))
    | None => (Good tt, x)
    end.
  Definition ideal_mirror (k : nat) (exc : exn -> excobj) : classes ideal := alone k i_write i_exit (fun _ x => x) exc.

  Definition shape (x : ideal) (f : sio) : Prop := buf_is (snd x) f /\ calm M (snd x).
  Lemma wp_i_write data x f n : shape x f ->
    wp M (hm_write M data) n f (fun ms o n' f' => n' = n /\ o <> Block /\ exists y, i_write data x = (o, y) /\ fst y = fst x ++ ms /\ shape y f').
  Proof.
    intros [Hf Hc]. unfold i_write. destruct x as [ms0 [v|]]; cbn [fst snd] in *.
    - cbn in Hf. subst f. apply wp_write. split; [reflexivity|]. split; [discriminate|]. eexists. split; [reflexivity|]. split; [reflexivity|].
      split; [reflexivity|]. apply says_write_calm, Hc.
    - apply wp_write_closed; [exact Hf|]. split; [reflexivity|]. split; [discriminate|]. eexists. split; [reflexivity|]. split; [symmetry; apply app_nil_r|].
      split; assumption.
  Qed.
  Lemma wp_i_exit e x f n : shape x f ->
    wp M (hm_close M e) n f (fun ms o n' f' => n' = n /\ o <> Block /\ exists y, i_exit e x = (o, y) /\ fst y = fst x ++ ms /\ shape y f').
  Proof.
    intros [Hf Hc]. unfold i_exit. destruct x as [ms0 [v|]]; cbn [fst snd] in *.
    - cbn in Hf. subst f. apply wp_close; [exact Hc|]. split; [reflexivity|]. split; [discriminate|]. eexists. split; [reflexivity|]. split; [reflexivity|].
      split; [reflexivity|]. intros _. exact I.
    - apply wp_close_closed; [exact Hf|]. split; [reflexivity|]. split; [discriminate|]. eexists. split; [reflexivity|]. split; [symmetry; apply app_nil_r|].
      split; assumption.
  Qed.

  Lemma wp_kprog k exc b : forall s x f n, shape x f ->
    wp M (cli_code M k exc b s) n f (fun ms o n' f' => n' = n /\ exists r s' y, kexec (ideal_mirror k exc) b s x = (r, s', y) /\ r <> Hangs /\
      o = Good (r, s') /\ fst y = fst x ++ ms /\ shape y f').
  Proof.
    unfold cli_code. induction b as [|te data|i|e|b1 IH1 b2 IH2|b IH|m b IH]; intros s x f n Hx; cbn [kexec kprog].
    - split; [reflexivity|]. eexists _, _, _. split; [reflexivity|]. split; [discriminate|]. split; [reflexivity|]. split; [symmetry; apply app_nil_r|exact Hx].
    - destruct (target te (out s) (err s)) as [o|].
      2:{ split; [reflexivity|]. eexists _, _, _. split; [reflexivity|]. split; [discriminate|]. split; [reflexivity|]. split; [symmetry; apply app_nil_r|exact Hx]. }
      unfold ideal_mirror. cbn [c_write c_exc alone]. unfold cli_write. apply wp_bind, wp_attempt. destruct (o =? k).
      + eapply wp_mono; [|apply (wp_i_write data x f n Hx)]. intros ms o' n' f' (-> & Hb & y & E1 & E2 & E3).
        split; [exact Hb|]. cbn [bind_post wp]. split; [reflexivity|]. rewrite E1, app_nil_r.
        destruct o' as [q|q|]; [| |congruence]; (eexists _, _, _; split; [reflexivity|]; split; [discriminate|]; auto).
      + cbn. split; [discriminate|]. split; [reflexivity|]. eexists _, _, _. split; [reflexivity|]. split; [discriminate|].
        split; [reflexivity|]. split; [symmetry; apply app_nil_r|exact Hx].
    - split; [reflexivity|]. eexists _, _, _. split; [reflexivity|]. split; [discriminate|]. split; [reflexivity|]. split; [symmetry; apply app_nil_r|exact Hx].
    - split; [reflexivity|]. eexists _, _, _. split; [reflexivity|]. split; [discriminate|]. split; [reflexivity|]. split; [symmetry; apply app_nil_r|exact Hx].
    - apply wp_bind. eapply wp_mono; [|apply (IH1 s x f n Hx)]. intros ms o n' f' (-> & r & s1 & y & E1 & Hr & -> & E2 & E3).
      cbn [bind_post fst snd]. rewrite E1. destruct r as [|q|]; [| |congruence].
      + eapply wp_mono; [|apply (IH2 s1 y f' n E3)]. intros ms' o n' f'' (-> & r & s2 & z & F1 & Hr' & -> & F2 & F3).
        split; [reflexivity|]. exists r, s2, z. split; [exact F1|]. split; [exact Hr'|]. split; [reflexivity|]. split; [|exact F3].
        rewrite F2, E2, app_assoc. reflexivity.
      + cbn [wp]. rewrite app_nil_r. split; [reflexivity|]. eexists _, _, _. split; [reflexivity|]. auto.
    - apply wp_bind. eapply wp_mono; [|apply (IH s x f n Hx)]. intros ms o n' f' (-> & r & s1 & y & E1 & Hr & -> & E2 & E3).
      cbn [bind_post fst snd wp]. rewrite E1, app_nil_r. split; [reflexivity|].
      destruct r as [|q|]; [| |congruence]; (eexists _, _, _; split; [reflexivity|]; split; [discriminate|]; auto).
    - apply wp_bind. eapply wp_mono; [|apply (IH (enter m s) x f n Hx)]. intros ms o n' f' (-> & r & s1 & y & E1 & Hr & -> & E2 & E3).
      cbn [bind_post fst snd]. rewrite E1. destruct m as [o|o u|o u].
      2,3: cbn [wp]; rewrite app_nil_r; split; [reflexivity|]; destruct r as [|q|]; [| |congruence]; (eexists _, _, _; split; [reflexivity|]; split; [discriminate|]; auto).
      unfold ideal_mirror. cbn [c_exit c_exc alone]. unfold cli_exit. apply wp_bind, wp_attempt. destruct (o =? k).
      + eapply wp_mono; [|apply (wp_i_exit (exc_value r) y f' n E3)]. intros ms' o' n' f'' (-> & Hb & z & F1 & F2 & F3).
        split; [exact Hb|]. cbn [bind_post wp]. split; [reflexivity|]. rewrite app_nil_r.
        exists (after_call exc o' r), (leave (Buf o) s1), z. split; [|split; [|split; [reflexivity|split; [|exact F3]]]].
        * destruct r as [|q|]; [| |congruence]; cbn [exc_value] in F1 |- *; rewrite F1; destruct o'; congruence || reflexivity.
        * destruct o'; [exact Hr|discriminate|congruence].
        * rewrite F2, E2, app_assoc. reflexivity.
      + cbn. split; [discriminate|]. split; [reflexivity|]. rewrite app_nil_r.
        destruct r as [|q|]; [| |congruence]; (eexists _, _, _; split; [reflexivity|]; split; [discriminate|]; auto).
  Qed.

  (** What the block says in the end. *)
  Definition i_did (x0 : ideal) (ts : list text) (x : ideal) : Prop :=
    exists v0 v ms rs, snd x0 = Some v0 /\ x = (fst x0 ++ ms, Some v) /\ mcalls_do (hm_aggr M) (map HWrite ts) (Some v0) ms rs (Some v).
  Lemma i_did_write x0 ts x data : i_did x0 ts x -> True -> exists n y, i_write data x = (Good n, y) /\ i_did x0 (ts ++ [data]) y.
  Proof.
    intros (v0 & v & ms & rs & H1 & -> & H2) _. eexists _, _. split; [reflexivity|]. eexists v0, _, _, _. split; [exact H1|].
    split; [cbn [fst]; rewrite <- app_assoc; reflexivity|]. rewrite map_app. eapply PrintHost.mcalls_snoc; [exact H2|]. apply says_write_does.
  Qed.
  Lemma ideal_block k exc b s r s' y : well_nested b -> ~ In k (entered b) ->
    kexec (ideal_mirror k exc) (KWith (Buf k) b) s ([], Some []) = (r, s', y) ->
    exists l rs, told exc (Some k) (Some k) b l r /\ all_good l /\ out s' = out s /\ err s' = err s /\ snd y = None /\
      mcalls_do (hm_aggr M) (map HWrite (texts_to k l) ++ [HClose (exc_value r)]) (Some []) (fst y) rs None.
  Proof.
    intros Hn Hk Ek. unfold ideal_mirror in Ek.
    destruct (with_alone _ _ _ _ _ _ _ _ _ _ _ Hn Hk Ek) as (l & r0 & x1 & H1 & H2 & _ & H4).
    assert (Hw : within (fun _ => True) (entered b) l).
    { eapply told_within; [|exact H1]. apply List.Forall_forall. auto. }
    assert (H0 : i_did ([], Some []) [] ([], Some [])) by (exists [], [], [], []; split; [reflexivity|]; split; [reflexivity|constructor]).
    destruct (alone_effects k _ _ _ _ i_did (fun _ => True) l i_did_write (fun _ _ _ _ H => H) (entered b) Hk Hw _ [] _ x1 H0 H2)
      as [Hg (v0 & v & ms & rs & K1 & -> & K2)]. cbn [app fst snd] in *. injection K1 as <-.
    pose proof (told_good _ _ _ _ _ _ H1 Hg) as Hr0. destruct (H4 Hr0) as (Ho & Hrr & x & Hx & Hrx).
    cbn in Hx. injection Hx as <- <-. cbn [after_call] in Hrx. subst r. exists l, (rs ++ [Good CUnit]).
    split; [exact H1|]. split; [exact Hg|]. split; [exact Ho|]. split; [exact Hrr|]. split; [reflexivity|].
    cbn [fst]. eapply PrintHost.mcalls_snoc; [exact K2|]. destruct (exc_value r0); constructor.
  Qed.
End Client.

(** ** Clients at the same time *)
Section Clients.
  Variable E : henv.
  #[local] Hint Extern 0 (Sem ccmd world) => exact (clisem E) : typeclass_instances.

  Definition who_of (x : hwork) : option hmir := match x with Prints j => Some (hj_mir j) | Reads _ => None end.
  Lemma mirrors_who ws : mirrors_in (map who_of ws) = mirrors_at ws.
  Proof. unfold mirrors_in, mirrors_at. induction ws as [|[j|cs] ws IH]; [reflexivity| |exact IH]. cbn. f_equal. exact IH. Qed.

  Lemma c92_any_time m g0 exc ws w sch ps' s' : 1 <= m -> clients_ok ws w -> server E m (w_srv w) g0 false -> w_faults w = [] ->
    sched_run sch (print_clients exc ws, mkst (w : world) ∅) = Some (ps', s') ->
    exists order g,
      hmsg_steps E (map snd order) g0 g /\ server E m (w_srv (dat s')) g false /\
      (forall i o, In (i, o) order -> exists j, nth_error ws i = Some (Prints j)) /\
      (forall i j, nth_error ws i = Some (Prints j) ->
         (exists rest l r, client_says exc j l r (events_of i order ++ rest)) /\
         (forall p, nth_error ps' i = Some p -> finished p = true ->
            exists l r s2, p = Ret (CPrinted r s2) /\ client_says exc j l r (events_of i order) /\
              out s2 = out (hj_sys j) /\ err s2 = err (hj_sys j) /\ mirror_is (hj_mir j) None (dat s'))) /\
      (forall i cs p, nth_error ws i = Some (Reads cs) -> nth_error ps' i = Some p -> finished p = true ->
         exists rs, p = Ret (CRead rs) /\ reads_along E m g0 order 0 cs rs) /\
      (forall i p, nth_error ps' i = Some p -> finished p = false -> exists c', cstep i (ps', s') = Some c') /\
      (Forall (fun p => finished p = true) ps' -> lks s' = ∅) /\ length ps' = length ws.
  Proof.
    intros Hm Hws Hs Hu Hr. destruct Hws as (W1 & W2 & W3 & W4 & W5).
    set (who := map who_of ws).
    set (post := fun i ms (o : outcome hresult) f => forall j, ws !! i = Some (Prints j) ->
      exists l r s2, client_says exc j l r ms /\ o = Good (CPrinted r s2) /\ out s2 = out (hj_sys j) /\ err s2 = err (hj_sys j) /\ sclosed f = true).
    set (rpost := fun i ds (o : outcome hresult) => forall cs, ws !! i = Some (Reads cs) ->
      exists rs, o = Good (CRead rs) /\ answered E cs ds rs).
    assert (Hwho : forall i x, ws !! i = Some x -> who !! i = Some (who_of x)).
    { intros i x H. unfold who. rewrite list_lookup_fmap, H. reflexivity. }
    assert (Hinv : forall i y, who !! i = Some y -> exists x, ws !! i = Some x /\ y = who_of x).
    { intros i y H. unfold who in H. rewrite list_lookup_fmap in H. destruct (ws !! i) as [x|]; [|discriminate]. injection H as <-. eauto. }
    assert (Hok : who_ok who). { unfold who_ok, who. rewrite mirrors_who. auto. }
    destruct (threads_any_time E m Hm who Hok post rpost g0 sch (print_clients exc ws) w ps' s' Hs Hu) as (order & g & sn & T1 & T2 & T0 & T3 & T4 & T5 & T6 & T7 & T8).
    { unfold print_clients, who. rewrite !map_length. reflexivity. }
    { intros i p M Hp Hy. destruct (Hinv i _ Hy) as ([j|cs] & Hw & EM); [|discriminate]. injection EM as ->.
      unfold print_clients in Hp. rewrite list_lookup_fmap, Hw in Hp. injection Hp as <-. cbn [print_client].
      destruct (W4 j) as (H1 & H2 & H3); [eapply elem_of_list_In, elem_of_list_lookup_2, Hw|].
      exists (opn []). split; [exact H1|]. apply wp_bind.
      pose proof (wp_kprog (hj_mir j) (hj_obj j) exc (KWith (Buf (hj_obj j)) (hj_code j)) (hj_sys j) ([], Some []) (opn []) 0) as Hk.
      eapply wp_mono; [|apply Hk].
      2: { split; [reflexivity|]. intros _. reflexivity. }
      intros ms o n' f' (-> & r & s2 & y & K1 & K2 & -> & K3 & K4 & _). cbn [bind_post fst snd wp]. split; [reflexivity|].
      intros j1 E1. rewrite Hw in E1. injection E1 as <-. rewrite app_nil_r. cbn [fst app] in K3. subst ms.
      destruct (ideal_block (hj_mir j) _ _ _ _ _ _ _ H2 H3 K1) as (l & rs & L1 & L2 & L3 & L4 & L5 & L6).
      exists l, r, s2. split; [split; [split; assumption|eauto]|]. split; [reflexivity|]. split; [exact L3|]. split; [exact L4|].
      rewrite L5 in K4. exact K4. }
    { intros i p Hp Hy. destruct (Hinv i _ Hy) as ([j|cs] & Hw & EM); [discriminate|].
      unfold print_clients in Hp. rewrite list_lookup_fmap, Hw in Hp. injection Hp as <-. cbn [print_client].
      apply quiet_bind. eapply HostCliConc.quiet_mono; [|apply (quiet_thread E cs) with (rs0 := [])].
      - cbn [rev app]. intros ds o (rs & -> & H). cbn. rewrite app_nil_r. intros cs1 E1. rewrite Hw in E1. injection E1 as <-. eauto.
      - apply (W5 cs). eapply elem_of_list_In, elem_of_list_lookup_2, Hw. }
    { exact Hr. }
    exists order, g. split; [exact T1|]. split; [exact T2|]. split.
    { intros i o Hin. destruct (T3 i o Hin) as (M & H). destruct (Hinv i _ H) as ([j|cs] & Hw & EM); [|discriminate].
      exists j. rewrite nth_error_lookup. exact Hw. }
    assert (Hps : forall i p, nth_error ps' i = Some p -> ps' !! i = Some p) by (intros i p Hp; exact (eq_trans (eq_sym (nth_error_lookup ps' i)) Hp)).
    split.
    { intros i j Hw. rewrite nth_error_lookup in Hw. destruct (T4 i _ (Hwho i _ Hw)) as [(rest & r & f & H) H']. split.
      - destruct (H j Hw) as (l & r1 & s2 & K & _). eauto.
      - intros p Hp Hfin. apply Hps in Hp.
        destruct (H' p Hp Hfin) as (r1 & f1 & K1 & K2 & K3). destruct (K1 j Hw) as (l & r2 & s2 & A1 & A2 & A3 & A4 & A5). subst r1.
        exists l, r2, s2. split; [exact K3|]. split; [exact A1|]. split; [exact A3|]. split; [exact A4|]. exists f1. auto. }
    split.
    { intros i cs p Hw Hp Hfin. rewrite nth_error_lookup in Hw. apply Hps in Hp.
      destruct (T5 i p (Hwho i _ Hw) Hp Hfin) as (r & K1 & K2). destruct (K1 cs Hw) as (rs & A1 & A2). subst r.
      exists rs. split; [exact K2|]. destruct (seen_along E m g0 order i sn T0) as [S1 S2].
      eapply answered_along; [exact A2|exact S1|exact S2|reflexivity|]. apply List.Forall_forall. intros. lia. }
    split; [|split; [exact T7|]].
    - intros i p Hp Hnf. apply (T6 i p (Hps i p Hp) Hnf).
    - rewrite T8. unfold who. apply map_length.
  Qed.
End Clients.

Lemma client_run E turns {Y} (f : world -> Y) y (c : list (prog ccmd hresult) * st world) :
  forallb finished (fst (@ProcRun.plan ccmd world _ (clisem E) turns c)) = true ->
  f (dat (snd (@ProcRun.plan ccmd world _ (clisem E) turns c))) = y ->
  exists sch ps' s', @sched_run ccmd world (clisem E) _ sch c = Some (ps', s') /\ Forall (fun p => finished p = true) ps' /\ f (dat s') = y.
Proof.
  intros H1 H2. destruct (@ProcRun.plan_sched ccmd world _ (clisem E) turns c) as [sch Hs].
  exists sch, (fst (@ProcRun.plan ccmd world _ (clisem E) turns c)), (snd (@ProcRun.plan ccmd world _ (clisem E) turns c)).
  split; [rewrite Hs; destruct (ProcRun.plan turns c); reflexivity|]. split; [|exact H2].
  apply List.Forall_forall. apply (proj1 (forallb_forall _ _) H1).
Qed.
