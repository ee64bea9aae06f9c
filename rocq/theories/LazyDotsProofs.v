(** * LazyDotsProofs: proofs for PropLazyDots.v *)
From stdpp Require Import gmap strings.
From Coq Require Import String.
From Coq Require Import List Bool Arith Lia.
From Verif Require Import Lazy LazyDots LazyDotsSpec.
Import ListNotations.
Local Open Scope nat_scope.

Section Disk.
  Variable D : disk.

  (** What is kept: entries, except None; the modules that were run. *)
  Definition keeps_reg (w w' : dworld) : Prop := forall m k, reg w !! m = Some k -> k <> KNone -> reg w' !! m = Some k.
  (** Everything that was run now is [P]. *)
  Definition runs_only (P : name -> Prop) (w w' : dworld) : Prop := exists l, ran w' = ran w ++ l /\ Forall P l.

  Lemma keeps_refl w : keeps_reg w w. Proof. intros m k H _. exact H. Qed.
  Lemma keeps_trans a b c : keeps_reg a b -> keeps_reg b c -> keeps_reg a c.
  Proof. intros H1 H2 m k Hm Hk. auto. Qed.
  Lemma runs_none P w : runs_only P w w. Proof. exists []. rewrite app_nil_r. auto. Qed.
  Lemma runs_trans P a b c : runs_only P a b -> runs_only P b c -> runs_only P a c.
  Proof. intros (l & E & H) (l' & E' & H'). exists (l ++ l'). rewrite E', E, app_assoc. split; [reflexivity|apply List.Forall_app; auto]. Qed.
  Lemma runs_weaken (P Q : name -> Prop) a b : (forall m, P m -> Q m) -> runs_only P a b -> runs_only Q a b.
  Proof. intros H (l & E & Hl). exists l. split; [exact E|]. eapply List.Forall_impl; eauto. Qed.
  Lemma put_keeps n k w : reg w !! n = None \/ reg w !! n = Some KNone -> keeps_reg w (put n k w).
  Proof.
    intros H m k' Hm Hk. cbn. rewrite lookup_insert_ne; [exact Hm|]. intros ->. destruct H; congruence.
  Qed.

  Definition up_to (n m : name) : Prop := m <> [] /\ exists y, n = m ++ y.
  Lemma up_snoc n c m : up_to n m -> up_to (n ++ [c]) m.
  Proof. intros (H & y & ->). split; [exact H|]. exists (y ++ [c]). rewrite app_assoc. reflexivity. Qed.
  Lemma up_above n c m : up_to n m -> above m (n ++ [c]).
  Proof. intros (H & y & ->). split; [exact H|]. rewrite <- app_assoc. destruct y as [|x y]; simpl; eauto. Qed.

  Lemma import_rev_spec r : forall w o w', import_rev D r w = (o, w') -> keeps_reg w w' /\ runs_only (up_to (rev r)) w w'.
  Proof.
    induction r as [|c up IH]; intros w o w' H; cbn [import_rev] in H.
    - destruct (reg w !! rev []) as [[| | |]|]; injection H as <- <-; (split; [apply keeps_refl|apply runs_none]).
    - destruct (reg w !! rev (c :: up)) as [[| | |]|] eqn:En; try (injection H as <- <-; split; [apply keeps_refl|apply runs_none]).
      set (first := match up with [] => (Ok tt, w) | _ => match reg w !! rev up with None => import_rev D up w | Some _ => (Ok tt, w) end end) in H.
      assert (Hf : forall o1 w1, first = (o1, w1) -> keeps_reg w w1 /\ runs_only (up_to (rev up)) w w1).
      { intros o1 w1 E. unfold first in E. destruct up as [|c' up']; [injection E as <- <-; split; [apply keeps_refl|apply runs_none]|].
        destruct (reg w !! rev (c' :: up')); [injection E as <- <-; split; [apply keeps_refl|apply runs_none]|]. apply (IH _ _ _ E). }
      destruct first as [o1 w1] eqn:Ef. destruct (Hf o1 w1 eq_refl) as [Hk Hr].
      assert (Hr' : runs_only (up_to (rev (c :: up))) w w1) by (eapply runs_weaken; [|exact Hr]; intros m; apply up_snoc).
      destruct o1 as [u|e]; [|injection H as <- <-; auto].
      destruct (match up with [] => true | _ => has_path (rev up) w1 end); [|injection H as <- <-; auto].
      destruct (on_disk D (rev (c :: up))) as [pkg|]; [|injection H as <- <-; auto].
      assert (Hn1 : reg w1 !! rev (c :: up) = None \/ reg w1 !! rev (c :: up) <> None) by (destruct (reg w1 !! rev (c :: up)); [right; discriminate|left; reflexivity]).
      assert (Hrun : ran w' = ran w1 ++ [rev (c :: up)] /\ keeps_reg w w').
      { unfold run_code in H. destruct (fails D (rev (c :: up))); injection H as <- <-; cbn; (split; [reflexivity|]).
        - intros m k Hm Hkk. cbn. auto.
        - intros m k Hm Hkk. cbn. rewrite lookup_insert_ne; [auto|]. intros <-. pose proof (eq_trans (eq_sym Hm) En) as X. discriminate X. }
      destruct Hrun as [Hrun Hkeep]. split; [exact Hkeep|]. apply (runs_trans _ _ w1); [exact Hr'|]. exists [rev (c :: up)]. split; [exact Hrun|].
      constructor; [|constructor]. split; [intros E; apply app_eq_nil in E; destruct E; discriminate|]. exists []. rewrite app_nil_r. reflexivity.
  Qed.
  Lemma import_plain_spec n w o w' : import_plain D n w = (o, w') -> keeps_reg w w' /\ runs_only (up_to n) w w'.
  Proof. intros H. apply import_rev_spec in H. rewrite rev_involutive in H. exact H. Qed.

  Lemma parent_snoc p c : parent (p ++ [c]) = p.
  Proof. unfold parent. apply removelast_last. Qed.
  Lemma parent_above n : parent n <> [] -> forall m, up_to (parent n) m -> above m n.
  Proof.
    intros Hp m H. destruct n as [|x n] using rev_ind; [destruct Hp; reflexivity|]. rewrite parent_snoc in *. apply up_above, H.
  Qed.

  Lemma find_dots_spec n w o w' : find_dots D n w = (o, w') -> keeps_reg w w' /\ runs_only (fun m => above m n) w w'.
  Proof.
    unfold find_dots. intros H. destruct (reg w !! n) as [[| | |]|]; try (injection H as <- <-; split; [apply keeps_refl|apply runs_none]).
    destruct (parent n) as [|p0 p] eqn:Ep; [injection H as <- <-; split; [apply keeps_refl|apply runs_none]|].
    destruct (import_plain D (p0 :: p) w) as [o1 w1] eqn:Ei. apply import_plain_spec in Ei. rewrite <- Ep in Ei. destruct Ei as [Hk Hr].
    assert (Hr' : runs_only (fun m => above m n) w w1) by (eapply runs_weaken; [|exact Hr]; apply parent_above; rewrite Ep; discriminate).
    destruct o1; [destruct (has_path (p0 :: p) w1)|]; injection H as <- <-; auto.
  Qed.
  Definition above_one (ns : list name) (m : name) : Prop := exists n, In n ns /\ above m n.
  Lemma deps_spec deps : forall w o w', deps_missing D deps w = (o, w') -> keeps_reg w w' /\ runs_only (above_one deps) w w'.
  Proof.
    induction deps as [|d deps IH]; intros w o w' H; cbn [deps_missing] in H; [injection H as <- <-; split; [apply keeps_refl|apply runs_none]|].
    destruct (find_dots D d w) as [o1 w1] eqn:Ef. apply find_dots_spec in Ef. destruct Ef as [Hk Hr].
    assert (Hr' : runs_only (above_one (d :: deps)) w w1) by (eapply runs_weaken; [|exact Hr]; intros m Hm; exists d; split; [left; reflexivity|exact Hm]).
    destruct o1 as [[|]|e]; [|injection H as <- <-; auto|injection H as <- <-; auto].
    destruct (IH _ _ _ H) as [Hk2 Hr2]. split; [eapply keeps_trans; eauto|]. apply (runs_trans _ _ w1); [exact Hr'|].
    eapply runs_weaken; [|exact Hr2]. intros m (n & Hn & Hm). exists n. split; [right; exact Hn|exact Hm].
  Qed.
  Lemma placeholder_spec n req w o w' : placeholder_dots n req w = (o, w') -> keeps_reg w w' /\ ran w' = ran w.
  Proof.
    unfold placeholder_dots. destruct req; [intros [= <- <-]; split; [apply keeps_refl|reflexivity]|].
    destruct (reg w !! n) as [[| | |]|] eqn:En; intros [= <- <-]; (split; [|reflexivity]); try apply keeps_refl; apply put_keeps; auto.
  Qed.

  Theorem import_dots_spec n req deps w o w' : import_dots D n req deps w = (o, w') ->
    (exists l, ran w' = ran w ++ l /\ forall m, In m l -> exists x, In x (n :: deps) /\ above m x) /\
    (forall m k, reg w !! m = Some k -> k <> KNone -> reg w' !! m = Some k).
  Proof.
    intros H. cut (keeps_reg w w' /\ runs_only (above_one (n :: deps)) w w').
    { intros [Hk (l & El & Hl)]. split; [|exact Hk]. exists l. split; [exact El|]. rewrite List.Forall_forall in Hl. exact Hl. }
    assert (G : (reg w !! n = None \/ reg w !! n = Some KNone) ->
      (let '(o, w1) := deps_missing D deps w in
        match o with
        | Err e => (Err e, w1)
        | Ok miss =>
            let '(f, w2) := find_dots D n w1 in
            match f with
            | Err e => (Err e, w2)
            | Ok found => if miss || negb found then placeholder_dots n req w2 else (Ok KLazy, put n KLazy w2)
            end
        end) = (o, w') -> keeps_reg w w' /\ runs_only (above_one (n :: deps)) w w').
    { clear H. intros Hn H. destruct (deps_missing D deps w) as [o1 w1] eqn:E1. apply deps_spec in E1. destruct E1 as [Hk1 Hr1].
      assert (Hr1' : runs_only (above_one (n :: deps)) w w1) by (eapply runs_weaken; [|exact Hr1]; intros m (x & Hx & Hm); exists x; split; [right; exact Hx|exact Hm]).
      destruct o1 as [miss|e]; [|injection H as <- <-; auto]. destruct (find_dots D n w1) as [f w2] eqn:E2. pose proof E2 as E2'. apply find_dots_spec in E2. destruct E2 as [Hk2 Hr2].
      assert (Hr2' : runs_only (above_one (n :: deps)) w w2).
      { eapply runs_trans; [exact Hr1'|]. eapply runs_weaken; [|exact Hr2]. intros m Hm. exists n. split; [left; reflexivity|exact Hm]. }
      assert (Hk : keeps_reg w w2) by (eapply keeps_trans; eauto).
      destruct f as [found|e]; [|injection H as <- <-; auto]. destruct (miss || negb found).
      - apply placeholder_spec in H. destruct H as [Hk3 Hr3]. split; [eapply keeps_trans; eauto|]. destruct Hr2' as (l & El & Hl). exists l. rewrite Hr3. auto.
      - injection H as <- <-. split; [|exact Hr2']. intros m k Hm Hkk. cbn. destruct (decide (n = m)) as [<-|Hne]; [|rewrite lookup_insert_ne by exact Hne; auto].
        destruct Hn; congruence. }
    unfold import_dots in H. destruct (reg w !! n) as [[| | |]|] eqn:En; try (injection H as <- <-; split; [apply keeps_refl|apply runs_none]); apply G; auto.
  Qed.

  (** *** Packages that are registered *)
  Lemma import_registered n k w : reg w !! n = Some k -> snd (import_plain D n w) = w.
  Proof.
    intros H. unfold import_plain. assert (G : forall r, rev r = n -> snd (import_rev D r w) = w).
    { intros [|c up] E; cbn [import_rev]; rewrite E, H; destruct k; reflexivity. }
    apply G, rev_involutive.
  Qed.
  Lemma find_same n w : length n <= 1 \/ reg w !! parent n <> None -> snd (find_dots D n w) = w.
  Proof.
    intros H. unfold find_dots. destruct (reg w !! n) as [[| | |]|]; try reflexivity. destruct (parent n) as [|p0 p] eqn:Ep; [reflexivity|].
    destruct H as [H|H].
    - exfalso. destruct n as [|x [|y n]]; [discriminate|discriminate|]. simpl in H. lia.
    - destruct (reg w !! (p0 :: p)) as [k|] eqn:Ek; [|contradiction]. pose proof (import_registered _ _ _ Ek) as Hs.
      destruct (import_plain D (p0 :: p) w) as [o1 w1]. cbn in Hs. subst. destruct o1; [destruct (has_path _ _)|]; reflexivity.
  Qed.
  Theorem nothing_run n req deps w : (forall x, In x (n :: deps) -> length x <= 1 \/ reg w !! parent x <> None) ->
    ran (snd (import_dots D n req deps w)) = ran w.
  Proof.
    intros H. assert (Hd : forall ds, (forall x, In x ds -> In x deps) -> snd (deps_missing D ds w) = w).
    { induction ds as [|d ds IH]; intros Hin; [reflexivity|]. cbn [deps_missing]. pose proof (find_same d w (H d (or_intror (Hin d (or_introl eq_refl))))) as Hs.
      destruct (find_dots D d w) as [o1 w1]. cbn in Hs. subst. destruct o1 as [[|]|]; [|reflexivity|reflexivity]. apply IH. intros x Hx. apply Hin. right. exact Hx. }
    specialize (Hd deps (fun x Hx => Hx)). pose proof (find_same n w (H n (or_introl eq_refl))) as Hn. unfold import_dots.
    assert (G : ran (snd (let '(o, w1) := deps_missing D deps w in
        match o with
        | Err e => (Err e, w1)
        | Ok miss =>
            let '(f, w2) := find_dots D n w1 in
            match f with
            | Err e => (Err e, w2)
            | Ok found => if miss || negb found then placeholder_dots n req w2 else (Ok KLazy, put n KLazy w2)
            end
        end)) = ran w).
    { destruct (deps_missing D deps w) as [o1 w1]. cbn in Hd. subst. destruct o1 as [miss|e]; [|reflexivity].
      destruct (find_dots D n w) as [f w2]. cbn in Hn. subst. destruct f as [found|e]; [|reflexivity].
      destruct (miss || negb found); [|reflexivity]. destruct (placeholder_dots n req w) as [o w'] eqn:E. apply placeholder_spec in E. apply E. }
    destruct (reg w !! n) as [[| | |]|]; first [exact G|reflexivity].
  Qed.

  (** *** The package is not a loaded package *)
  Lemma known_deps deps w : Forall (fun d => known d w) deps -> deps_missing D deps w = (Ok false, w).
  Proof.
    induction 1 as [|d deps Hd _ IH]; [reflexivity|]. cbn [deps_missing]. unfold find_dots.
    destruct Hd as [->|[b ->]]; exact IH.
  Qed.
  Lemma find_in_not_loaded p c w : p <> [] -> reg w !! (p ++ [c]) = None -> not_loaded_package p w -> find_dots D (p ++ [c]) w = (Err ModuleNotFound, w).
  Proof.
    intros Hp Hn Hl. unfold find_dots. rewrite Hn, parent_snoc. destruct p as [|p0 p]; [contradiction|].
    assert (Hi : import_plain D (p0 :: p) w = (Ok tt, w)).
    { unfold import_plain. assert (G : forall r, rev r = p0 :: p -> import_rev D r w = (Ok tt, w)).
      { intros [|x up] E; [discriminate|]. cbn [import_rev]. rewrite E. destruct Hl as [->|[->| ->]]; reflexivity. }
      apply G, rev_involutive. }
    rewrite Hi. unfold has_path. destruct Hl as [->|[->| ->]]; reflexivity.
  Qed.
  Theorem in_not_loaded p c req deps w : p <> [] -> reg w !! (p ++ [c]) = None -> not_loaded_package p w -> Forall (fun d => known d w) deps ->
    import_dots D (p ++ [c]) req deps w = (Err ModuleNotFound, w).
  Proof. intros Hp Hn Hl Hd. unfold import_dots. rewrite Hn, known_deps by exact Hd. rewrite find_in_not_loaded by auto. reflexivity. Qed.
  Theorem plain_in_not_loaded p c w : p <> [] -> reg w !! (p ++ [c]) = None -> not_loaded_package p w ->
    import_plain D (p ++ [c]) w = (Err ModuleNotFound, w).
  Proof.
    intros Hp Hn Hl. unfold import_plain. rewrite rev_app_distr. cbn [rev app import_rev]. cbn. rewrite rev_involutive, Hn.
    destruct (rev p) as [|x up] eqn:Er; [destruct Hp; rewrite <- (rev_involutive p), Er; reflexivity|].
    unfold has_path.
    destruct Hl as [E|[E|E]]; rewrite E; rewrite ?E; reflexivity.
  Qed.
  Theorem dep_in_not_loaded n req known_ones p c rest w : (reg w !! n = None \/ reg w !! n = Some KNone) -> p <> [] -> reg w !! (p ++ [c]) = None ->
    not_loaded_package p w -> Forall (fun d => known d w) known_ones ->
    import_dots D n req (known_ones ++ (p ++ [c]) :: rest) w = (Err ModuleNotFound, w).
  Proof.
    intros Hn Hp Hd Hl Hk. unfold import_dots.
    assert (G : deps_missing D (known_ones ++ (p ++ [c]) :: rest) w = (Err ModuleNotFound, w)).
    { induction Hk as [|d ds H _ IH]; cbn [app deps_missing].
      - rewrite find_in_not_loaded by auto. reflexivity.
      - unfold find_dots at 1. destruct H as [->|[b ->]]; exact IH. }
    rewrite G. destruct Hn as [->| ->]; reflexivity.
  Qed.

  (** *** The package is missing *)
  Lemma import_rev_missing c r w : on_disk D [c] = None -> (forall m, up_to (c :: rev r) m -> reg w !! m = None) ->
    import_rev D (r ++ [c]) w = (Err ModuleNotFound, w).
  Proof.
    intros Hc. induction r as [|x r IH]; intros Hm.
    - cbn. rewrite (Hm [c]); [|split; [discriminate|exists []; reflexivity]]. rewrite Hc. reflexivity.
    - cbn [app import_rev]. cbn [rev] in Hm. rewrite rev_app_distr. cbn [rev app]. rewrite rev_app_distr. cbn [rev app].
      rewrite (Hm (c :: rev r ++ [x])); [|split; [discriminate|exists []; rewrite app_nil_r; reflexivity]].
      destruct (r ++ [c]) as [|y up] eqn:Er; [destruct r; discriminate|].
      rewrite (Hm (c :: rev r)); [|split; [discriminate|exists [x]; reflexivity]]. rewrite IH; [reflexivity|].
      intros m (Hne & y' & E). apply Hm. split; [exact Hne|]. exists (y' ++ [x]). rewrite app_assoc, <- E. reflexivity.
  Qed.
  Theorem top_missing c x y req w : on_disk D [c] = None -> (forall m, above m (c :: x :: y) -> reg w !! m = None) -> reg w !! (c :: x :: y) = None ->
    import_dots D (c :: x :: y) req [] w = (Err ModuleNotFound, w).
  Proof.
    intros Hc Hm Hn. unfold import_dots. rewrite Hn. cbn [deps_missing]. unfold find_dots. rewrite Hn.
    assert (Ep : parent (c :: x :: y) = c :: removelast (x :: y)) by reflexivity. rewrite Ep.
    unfold import_plain. cbn [rev].
    assert (E : import_rev D (rev (removelast (x :: y)) ++ [c]) w = (Err ModuleNotFound, w)).
    { apply import_rev_missing; [exact Hc|]. rewrite rev_involutive. intros m Hu. apply Hm. apply (parent_above (c :: x :: y)); rewrite Ep; [discriminate|exact Hu]. }
    rewrite E. reflexivity.
  Qed.

  (** *** The packages are imported first *)
  Lemma firstn_snoc {X} (n : list X) (c : X) k : k <= length n -> firstn k (n ++ [c]) = firstn k n.
  Proof. intros H. rewrite firstn_app. replace (k - length n) with 0 by lia. apply app_nil_r. Qed.
  Definition all_up (n : name) : list name := map (fun k => firstn k n) (seq 1 (length n)).
  Lemma all_up_snoc n c : all_up (n ++ [c]) = all_up n ++ [n ++ [c]].
  Proof.
    unfold all_up. rewrite app_length. cbn [length]. rewrite Nat.add_1_r, seq_S, map_app. f_equal.
    - apply map_ext_in. intros k Hk. apply in_seq in Hk. apply firstn_snoc. lia.
    - cbn [map]. f_equal. replace (1 + length n) with (length (n ++ [c])) by (rewrite app_length; cbn; lia). apply firstn_all.
  Qed.
  Lemma packages_snoc p c : packages (p ++ [c]) = all_up p.
  Proof.
    unfold packages, all_up. rewrite app_length. cbn [length]. replace (length p + 1 - 1) with (length p) by lia.
    apply map_ext_in. intros k Hk. apply in_seq in Hk. apply firstn_snoc. lia.
  Qed.
  Lemma import_all n w : n <> [] -> (forall m, up_to n m -> reg w !! m = None /\ on_disk D m = Some true /\ fails D m = false) ->
    exists w', import_plain D n w = (Ok tt, w') /\ ran w' = ran w ++ all_up n /\ reg w' !! n = Some (KModule true) /\
      (forall m, ~ up_to n m -> reg w' !! m = reg w !! m).
  Proof.
    induction n as [|c p IH] using rev_ind; intros Hne Hall; [contradiction|]. unfold import_plain. rewrite rev_app_distr. cbn [rev app].
    assert (Hself : up_to (p ++ [c]) (p ++ [c])) by (split; [destruct p; discriminate|exists []; rewrite app_nil_r; reflexivity]).
    destruct (Hall _ Hself) as (Hn & Hd & Hf).
    destruct (decide (p = [])) as [->|Hp].
    - exists (put [c] (KModule true) (mkdw (reg w) (ran w ++ [[c]]))). cbn. cbn in Hn, Hd, Hf. rewrite Hn, Hd. unfold run_code. rewrite Hf.
      split; [reflexivity|]. split; [reflexivity|]. split; [apply lookup_insert|]. intros m Hm. apply lookup_insert_ne. intros <-. apply Hm.
      split; [discriminate|exists []; reflexivity].
    - destruct (IH Hp) as (w1 & E1 & R1 & P1 & O1); [intros m Hm; apply Hall, up_snoc, Hm|].
      exists (put (p ++ [c]) (KModule true) (mkdw (reg w1) (ran w1 ++ [p ++ [c]]))).
      cbn [import_rev]. cbn [rev]. rewrite rev_involutive, Hn.
      assert (Hup : up_to p p) by (split; [exact Hp|exists []; rewrite app_nil_r; reflexivity]).
      destruct (rev p) as [|x up] eqn:Er; [destruct Hp; rewrite <- (rev_involutive p), Er; reflexivity|].
      assert (Ex : rev (x :: up) = p) by (rewrite <- Er; apply rev_involutive).
      rewrite (proj1 (Hall p (up_snoc p c p Hup))). unfold import_plain in E1. rewrite Er in E1. rewrite E1. unfold has_path. rewrite P1, Hd.
      unfold run_code. rewrite Hf. split; [reflexivity|]. split; [cbn; rewrite R1, all_up_snoc, <- app_assoc; reflexivity|].
      split; [apply lookup_insert|]. intros m Hm. cbn. rewrite lookup_insert_ne; [apply O1|].
      + intros H. apply Hm, up_snoc, H.
      + intros <-. apply Hm, Hself.
  Qed.
  Theorem packages_are_run p c req w : p <> [] -> reg w !! (p ++ [c]) = None -> on_disk D (p ++ [c]) <> None ->
    (forall m, above m (p ++ [c]) -> reg w !! m = None /\ on_disk D m = Some true /\ fails D m = false) ->
    exists w', import_dots D (p ++ [c]) req [] w = (Ok KLazy, w') /\ ran w' = ran w ++ packages (p ++ [c]) /\ reg w' !! (p ++ [c]) = Some KLazy.
  Proof.
    intros Hp Hn Hd Hall. destruct (import_all p w Hp) as (w1 & E1 & R1 & P1 & O1); [intros m Hm; apply Hall, up_above, Hm|].
    exists (put (p ++ [c]) KLazy w1). unfold import_dots. rewrite Hn. cbn [deps_missing]. unfold find_dots. rewrite Hn, parent_snoc.
    destruct p as [|p0 p']; [contradiction|]. rewrite E1. unfold has_path. rewrite P1. destruct (on_disk D ((p0 :: p') ++ [c])); [|contradiction]. cbn [orb negb].
    split; [reflexivity|]. split; [cbn [put ran]; rewrite R1, packages_snoc; reflexivity|apply lookup_insert].
  Qed.

  (** *** The package is loaded *)
  Lemma find_ready n w : package_ready n w -> reg w !! n = None -> find_dots D n w = (Ok (match on_disk D n with Some _ => true | None => false end), w).
  Proof.
    intros Hr Hn. unfold find_dots. rewrite Hn. destruct Hr as [[c ->]|(p & c & Hp & -> & Hk)]; [reflexivity|]. rewrite parent_snoc.
    destruct p as [|p0 p]; [contradiction|].
    assert (Hi : import_plain D (p0 :: p) w = (Ok tt, w)).
    { unfold import_plain. assert (G : forall r, rev r = p0 :: p -> import_rev D r w = (Ok tt, w)).
      { intros [|x up] E; [discriminate|]. cbn [import_rev]. rewrite E, Hk. reflexivity. }
      apply G, rev_involutive. }
    rewrite Hi. unfold has_path. rewrite Hk. reflexivity.
  Qed.
  Theorem in_loaded n req deps w : package_ready n w -> reg w !! n = None -> Forall (fun d => known d w) deps ->
    import_dots D n req deps w =
      match on_disk D n, req with
      | Some _, _ => (Ok KLazy, put n KLazy w)
      | None, true => (Err ModuleNotFound, w)
      | None, false => (Ok KPlaceholder, put n KPlaceholder w)
      end.
  Proof.
    intros Hr Hn Hd. unfold import_dots. rewrite Hn, known_deps, find_ready by auto. unfold placeholder_dots. rewrite Hn.
    destruct (on_disk D n); [reflexivity|]. destruct req; reflexivity.
  Qed.
  Theorem after_use p c req w : p <> [] -> reg w !! p = Some KLazy -> reg w !! (p ++ [c]) = None -> on_disk D p = Some true -> on_disk D (p ++ [c]) <> None ->
    fst (import_dots D (p ++ [c]) req [] w) = Err ModuleNotFound /\
    fst (import_dots D (p ++ [c]) req [] (snd (use_dots D p w))) = Ok KLazy.
  Proof.
    intros Hp Hl Hn Hd Hc. split; [rewrite in_not_loaded; auto; left; exact Hl|].
    assert (Hne : p <> p ++ [c]) by (intros E; apply (f_equal (@length string)) in E; rewrite app_length in E; cbn in E; lia).
    rewrite in_loaded; [destruct (on_disk D (p ++ [c])); [reflexivity|contradiction]|..|constructor].
    - right. exists p, c. split; [exact Hp|]. split; [reflexivity|]. unfold use_dots. rewrite Hl, Hd. apply lookup_insert.
    - unfold use_dots. rewrite Hl. cbn. rewrite lookup_insert_ne by exact Hne. exact Hn.
  Qed.

  (** *** Nothing that works is run twice *)
  Definition once (w : dworld) : Prop :=
    List.NoDup (List.filter (fun m => negb (fails D m)) (ran w)) /\
    forall m, In m (ran w) -> fails D m = false -> exists b, reg w !! m = Some (KModule b).
  Lemma filter_snoc n w : List.filter (fun m => negb (fails D m)) (ran w ++ [n]) = List.filter (fun m => negb (fails D m)) (ran w) ++ (if fails D n then [] else [n]).
  Proof. rewrite filter_app. f_equal. cbn. destruct (fails D n); reflexivity. Qed.
  Lemma once_run n k w : once w -> (forall b, reg w !! n <> Some (KModule b)) ->
    (fails D n = false -> exists b, k = KModule b) -> once (put n k (mkdw (reg w) (ran w ++ [n]))).
  Proof.
    intros [Hd Hr] Hn Hk. split; cbn.
    - rewrite filter_snoc. destruct (fails D n) eqn:Ef; [rewrite app_nil_r; exact Hd|].
      apply NoDup_ListNoDup, NoDup_app. split; [apply NoDup_ListNoDup, Hd|]. split; [|apply NoDup_singleton].
      intros m Hm Hm'. apply elem_of_list_In, filter_In in Hm. apply elem_of_list_singleton in Hm'. subst. destruct (Hr n (proj1 Hm) Ef) as [b Hb]. apply (Hn b Hb).
    - intros m Hm Hf. destruct (decide (n = m)) as [<-|Hne]; [rewrite lookup_insert; destruct (Hk Hf) as [b ->]; eauto|].
      rewrite lookup_insert_ne by exact Hne. apply in_app_or in Hm. destruct Hm as [Hm|[->|[]]]; [auto|contradiction].
  Qed.
  Lemma once_fail n w : once w -> fails D n = true -> once (mkdw (reg w) (ran w ++ [n])).
  Proof.
    intros [Hd Hr] Hf. split; cbn; [rewrite filter_snoc, Hf, app_nil_r; exact Hd|]. intros m Hm Hg. apply in_app_or in Hm.
    destruct Hm as [Hm|[<-|[]]]; [auto|congruence].
  Qed.
  Lemma once_put n k w : once w -> (forall b, reg w !! n <> Some (KModule b)) -> once (put n k w).
  Proof.
    intros [Hd Hr] Hn. split; [exact Hd|]. cbn. intros m Hm Hf. destruct (Hr m Hm Hf) as [b Hb]. exists b.
    rewrite lookup_insert_ne; [exact Hb|]. intros ->. apply (Hn b Hb).
  Qed.
  (** An ordinary import runs nothing that is registered. *)
  Lemma import_rev_len r : forall w m, length (rev r) < length m -> reg (snd (import_rev D r w)) !! m = reg w !! m.
  Proof.
    induction r as [|c up IH]; intros w m Hm; cbn [import_rev].
    - destruct (reg w !! rev []) as [[| | |]|]; reflexivity.
    - destruct (reg w !! rev (c :: up)) as [[| | |]|]; try reflexivity.
      assert (Hlen : length (rev up) < length m) by (cbn [rev] in Hm; rewrite app_length in Hm; lia).
      set (first := match up with [] => (Ok tt, w) | _ => match reg w !! rev up with None => import_rev D up w | Some _ => (Ok tt, w) end end).
      assert (Hf : reg (snd first) !! m = reg w !! m).
      { unfold first. destruct up as [|c' up']; [reflexivity|]. destruct (reg w !! rev (c' :: up')); [reflexivity|]. apply IH, Hlen. }
      destruct first as [o1 w1]. cbn [snd] in Hf. destruct o1; [|exact Hf]. destruct (match up with [] => true | _ => has_path (rev up) w1 end); [|exact Hf].
      destruct (on_disk D (rev (c :: up))); [|exact Hf]. unfold run_code. destruct (fails D (rev (c :: up))); cbn [snd put reg]; [exact Hf|].
      rewrite lookup_insert_ne; [exact Hf|]. intros <-. lia.
  Qed.
  Lemma once_import r : forall w, once w -> once (snd (import_rev D r w)).
  Proof.
    induction r as [|c up IH]; intros w Hw; cbn [import_rev].
    - destruct (reg w !! rev []) as [[| | |]|]; exact Hw.
    - destruct (reg w !! rev (c :: up)) as [[| | |]|] eqn:En; try exact Hw.
      set (first := match up with [] => (Ok tt, w) | _ => match reg w !! rev up with None => import_rev D up w | Some _ => (Ok tt, w) end end).
      assert (Hf : once (snd first) /\ reg (snd first) !! rev (c :: up) = None).
      { unfold first. destruct up as [|c' up']; [split; auto|]. destruct (reg w !! rev (c' :: up')); [split; auto|]. split; [apply IH, Hw|].
        rewrite import_rev_len; [exact En|]. cbn [rev]. rewrite !app_length. cbn. lia. }
      destruct first as [o1 w1]. cbn [snd] in Hf. destruct Hf as [Hf Hn1]. destruct o1; [|exact Hf]. destruct (match up with [] => true | _ => has_path (rev up) w1 end); [|exact Hf].
      destruct (on_disk D (rev (c :: up))) as [pkg|]; [|exact Hf]. unfold run_code. destruct (fails D (rev (c :: up))) eqn:Ef; cbn [snd].
      + apply once_fail; auto.
      + apply once_run; [exact Hf|intros b; rewrite Hn1; discriminate|eauto].
  Qed.
  Lemma once_find n w : once w -> once (snd (find_dots D n w)).
  Proof.
    intros Hw. unfold find_dots. destruct (reg w !! n) as [[| | |]|]; try exact Hw. destruct (parent n) as [|p0 p]; [exact Hw|].
    pose proof (once_import (rev (p0 :: p)) w Hw) as H. change (import_rev D (rev (p0 :: p)) w) with (import_plain D (p0 :: p) w) in H.
    destruct (import_plain D (p0 :: p) w) as [o1 w1]. cbn [snd] in H. destruct o1; [destruct (has_path _ _)|]; exact H.
  Qed.
  Lemma once_deps deps : forall w, once w -> once (snd (deps_missing D deps w)).
  Proof.
    induction deps as [|d deps IH]; intros w Hw; [exact Hw|]. cbn [deps_missing]. pose proof (once_find d w Hw) as H.
    destruct (find_dots D d w) as [o1 w1]. cbn [snd] in H. destruct o1 as [[|]|]; [apply IH, H|exact H|exact H].
  Qed.
  (** Only packages of the name are registered. *)
  Lemma import_rev_else r : forall w m, ~ up_to (rev r) m -> reg (snd (import_rev D r w)) !! m = reg w !! m.
  Proof.
    induction r as [|c up IH]; intros w m Hm; cbn [import_rev].
    - destruct (reg w !! rev []) as [[| | |]|]; reflexivity.
    - destruct (reg w !! rev (c :: up)) as [[| | |]|]; try reflexivity.
      set (first := match up with [] => (Ok tt, w) | _ => match reg w !! rev up with None => import_rev D up w | Some _ => (Ok tt, w) end end).
      assert (Hf : reg (snd first) !! m = reg w !! m).
      { unfold first. destruct up as [|c' up']; [reflexivity|]. destruct (reg w !! rev (c' :: up')); [reflexivity|]. apply IH. intros H. apply Hm, up_snoc, H. }
      destruct first as [o1 w1]. cbn [snd] in Hf. destruct o1; [|exact Hf]. destruct (match up with [] => true | _ => has_path (rev up) w1 end); [|exact Hf].
      destruct (on_disk D (rev (c :: up))); [|exact Hf]. unfold run_code. destruct (fails D (rev (c :: up))); cbn [snd put reg]; [exact Hf|].
      rewrite lookup_insert_ne; [exact Hf|]. intros <-. apply Hm. split; [intros E; apply app_eq_nil in E; destruct E; discriminate|]. exists []. rewrite app_nil_r. reflexivity.
  Qed.
  Lemma find_else n w m : ~ above m n -> reg (snd (find_dots D n w)) !! m = reg w !! m.
  Proof.
    intros Hm. unfold find_dots. destruct (reg w !! n) as [[| | |]|]; try reflexivity. destruct (parent n) as [|p0 p] eqn:Ep; [reflexivity|].
    pose proof (import_rev_else (rev (p0 :: p)) w m) as H. rewrite rev_involutive in H.
    assert (Hu : ~ up_to (p0 :: p) m) by (rewrite <- Ep; intros X; apply Hm, (parent_above n); [rewrite Ep; discriminate|exact X]).
    specialize (H Hu). change (import_rev D (rev (p0 :: p)) w) with (import_plain D (p0 :: p) w) in H.
    destruct (import_plain D (p0 :: p) w) as [o1 w1]. cbn [snd] in H. destruct o1; [destruct (has_path _ _)|]; exact H.
  Qed.
  Lemma deps_else deps m : forall w, (forall d, In d deps -> ~ above m d) -> reg (snd (deps_missing D deps w)) !! m = reg w !! m.
  Proof.
    induction deps as [|d deps IH]; intros w Hm; [reflexivity|]. cbn [deps_missing]. pose proof (find_else d w m (Hm d (or_introl eq_refl))) as H.
    destruct (find_dots D d w) as [o1 w1]. cbn [snd] in H. destruct o1 as [[|]|]; [|exact H|exact H]. rewrite IH; [exact H|].
    intros x Hx. apply Hm. right. exact Hx.
  Qed.
  Lemma not_above_self n : ~ above n n.
  Proof. intros (_ & c & y & E). apply (f_equal (@length string)) in E. rewrite app_length in E. cbn in E. lia. Qed.

  Lemma once_step o w : own_packages_not_needed o -> once w -> once (snd (dstep D o w)).
  Proof.
    intros Ho Hw. destruct o as [n req deps|n|n]; cbn [dstep].
    - assert (G : (forall b, reg w !! n <> Some (KModule b)) -> once (snd (let '(o, w1) := deps_missing D deps w in
          match o with
          | Err e => (Err e, w1)
          | Ok miss =>
              let '(f, w2) := find_dots D n w1 in
              match f with
              | Err e => (Err e, w2)
              | Ok found => if miss || negb found then placeholder_dots n req w2 else (Ok KLazy, put n KLazy w2)
              end
          end))).
      { intros Hn. pose proof (once_deps deps w Hw) as H1. pose proof (deps_else deps n w Ho) as N1.
        destruct (deps_missing D deps w) as [o1 w1]. cbn [snd] in H1, N1. destruct o1 as [miss|e]; [|exact H1].
        pose proof (once_find n w1 H1) as H2. pose proof (find_else n w1 n (not_above_self n)) as N2.
        destruct (find_dots D n w1) as [f w2]. cbn [snd] in H2, N2. destruct f as [found|e]; [|exact H2].
        assert (Hn2 : forall b, reg w2 !! n <> Some (KModule b)) by (intros b E; rewrite N2, N1 in E; apply (Hn b E)).
        destruct (miss || negb found); cbn [snd].
        - unfold placeholder_dots. destruct req; [exact H2|]. pose proof (once_put n KPlaceholder w2 H2 Hn2) as H3. destruct (reg w2 !! n) as [[| | |]|]; cbn [snd]; assumption.
        - apply once_put; auto. }
      assert (G2 : once (snd (import_dots D n req deps w))).
      { unfold import_dots. destruct (reg w !! n) as [[|b| |]|] eqn:En; try exact Hw; apply G; intros b; discriminate. }
      destruct (import_dots D n req deps w) as [r w']. exact G2.
    - unfold use_dots. destruct (reg w !! n) as [[|b| |]|] eqn:En; try exact Hw. cbn [snd]. apply once_run; [exact Hw|intros b; rewrite En; discriminate|eauto].
    - apply once_import, Hw.
  Qed.
  Theorem run_once os w : ran w = [] -> Forall own_packages_not_needed os ->
    List.NoDup (List.filter (fun m => negb (fails D m)) (ran (snd (drun_dots D os w)))).
  Proof.
    intros Hw Ho. cut (once (snd (drun_dots D os w))); [intros H; apply H|].
    assert (H0 : once w) by (split; rewrite Hw; [constructor|intros m []]). clear Hw. revert w H0.
    induction Ho as [|o os H _ IH]; intros w H0; [exact H0|]. cbn [drun_dots]. pose proof (once_step o w H H0) as H1.
    destruct (dstep D o w) as [r w1]. cbn [snd] in H1. specialize (IH w1 H1). destruct (drun_dots D os w1) as [rs w2]. exact IH.
  Qed.
End Disk.
