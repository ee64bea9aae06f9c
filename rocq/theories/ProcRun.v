(** * ProcRun: computing concrete histories (used only in the concrete cases) *)
From stdpp Require Import gmap relations.
From Coq Require Import List NArith ZArith Bool Arith.
From Verif Require Import PyStr Prog PyIO Base Spec LineBuf Proc ProcSpec.
Import ListNotations.
Local Open Scope nat_scope.

Definition unlocked {D} (s : st D) : bool := bool_decide (lks s = stdpp.base.empty).
Definition returned {X} (r : outcome X) : bool := match r with Block => false | _ => true end.

Lemma run_idle {C D A} `{Sem C D} t (p : prog C A) d : unlocked (snd (run t p (idle d))) = true ->
  run t p (idle d) = (fst (run t p (idle d)), idle (dat (snd (run t p (idle d))))).
Proof.
  unfold unlocked. intros Hu. apply bool_decide_eq_true in Hu. destruct (run t p (idle d)) as [r [d' l]].
  simpl in *. rewrite Hu. reflexivity.
Qed.

Lemma run_eq {C D A} `{Sem C D} t (p : prog C A) d r d' :
  (unlocked (snd (run t p (idle d))), fst (run t p (idle d)), dat (snd (run t p (idle d)))) = (true, r, d') ->
  run t p (idle d) = (r, idle d').
Proof. intros E. injection E as E1 E2 E3. rewrite <- E2, <- E3. apply run_idle, E1. Qed.

(** One event, if it is possible and the call returns. *)
Definition event (t : nat) (x : sevent) (d : psys) : option psys :=
  match x with
  | OnMirror i c =>
      let rs := run t (sys_m i (lm_call c)) (idle d) in
      if (i <? length (s_mirs d)) && unlocked (snd rs) && returned (fst rs) then Some (dat (snd rs)) else None
  | OnMain c =>
      let rs := run t (sys_p (lp_call c)) (idle d) in
      if unlocked (snd rs) && returned (fst rs) then Some (dat (snd rs)) else None
  | Copy i =>
      match mir_pickle (length (s_mirs d)) (mir_at d i) with
      | Good m => if i <? length (s_mirs d) then Some (add_mirror m d) else None
      | _ => None
      end
  end.
Fixpoint events (xs : list (nat * sevent)) (d : psys) : option psys :=
  match xs with
  | [] => Some d
  | (t, x) :: xs' => match event t x d with Some d' => events xs' d' | None => None end
  end.

Lemma event_sstep t x d d' : event t x d = Some d' -> sstep t x d d'.
Proof.
  destruct x as [i c|c|i]; unfold event.
  - destruct (_ && _ && _) eqn:E; [|discriminate]. intros [= <-].
    apply andb_prop in E as [E E3]. apply andb_prop in E as [E1 E2].
    econstructor; [apply Nat.ltb_lt, E1|apply run_idle, E2|]. intros E. rewrite E in E3. discriminate.
  - destruct (_ && _) eqn:E; [|discriminate]. intros [= <-]. apply andb_prop in E as [E2 E3].
    econstructor; [apply run_idle, E2|]. intros E. rewrite E in E3. discriminate.
  - destruct (mir_pickle _ _) as [m| |] eqn:E; try discriminate.
    destruct (Nat.ltb_spec i (length (s_mirs d))); [|discriminate]. intros [= <-]. constructor; assumption.
Qed.
Lemma events_shist xs : forall d d', events xs d = Some d' -> shist xs d d'.
Proof.
  induction xs as [|[t x] xs IH]; simpl; intros d d' H; [injection H as <-; constructor|].
  destruct (event t x d) as [d1|] eqn:E; [|discriminate]. econstructor; [apply event_sstep, E|]. apply IH, H.
Qed.

Fixpoint mcalls (cs : list mcall) (d : menv) : option menv :=
  match cs with
  | [] => Some d
  | c :: cs' =>
      let rs := run 0 (lm_call c) (idle d) in
      if unlocked (snd rs) && returned (fst rs) then mcalls cs' (dat (snd rs)) else None
  end.
Lemma mcalls_later cs : forall d d', mcalls cs d = Some d' -> mlater d d'.
Proof.
  induction cs as [|c cs IH]; simpl; intros d d' H; [injection H as <-; apply rtc_refl|].
  destruct (_ && _) eqn:E; [|discriminate]. apply andb_prop in E as [E2 E3].
  eapply rtc_l; [|apply IH, H]. eapply ms_call; [apply run_idle, E2|]. intros E. rewrite E in E3. discriminate.
Qed.

(** ** Concrete interleavings *)

(** Thread [i] makes at most [n] steps; then a list of such turns. *)
Fixpoint drain {C D A} `{!Sem C D} (n i : nat) (c : config (C:=C) (D:=D) A) : config A :=
  match n with
  | O => c
  | S n' => match cstep i c with Some c' => drain n' i c' | None => c end
  end.
Fixpoint plan {C D A} `{!Sem C D} (turns : list (nat * nat)) (c : config (C:=C) (D:=D) A) : config A :=
  match turns with [] => c | (i, n) :: turns' => plan turns' (drain n i c) end.
Lemma drain_sched {C D A} `{!Sem C D} n i : forall c : config (C:=C) (D:=D) A, exists sch, sched_run sch c = Some (drain n i c).
Proof.
  induction n as [|n IH]; intros c; simpl; [exists []; reflexivity|].
  destruct (cstep i c) as [c'|] eqn:E; [|exists []; reflexivity].
  destruct (IH c') as [sch H]. exists (i :: sch). simpl. rewrite E. exact H.
Qed.
Lemma sched_app {C D A} `{!Sem C D} s1 s2 : forall (c c1 : config (C:=C) (D:=D) A), sched_run s1 c = Some c1 ->
  sched_run (s1 ++ s2) c = sched_run s2 c1.
Proof.
  induction s1 as [|i s1 IH]; intros c c1 H; simpl in *; [injection H as ->; reflexivity|].
  destruct (cstep i c) as [c2|]; [|discriminate]. apply IH, H.
Qed.
Lemma plan_sched {C D A} `{!Sem C D} turns : forall c : config (C:=C) (D:=D) A, exists sch, sched_run sch c = Some (plan turns c).
Proof.
  induction turns as [|[i n] turns IH]; intros c; simpl; [exists []; reflexivity|].
  destruct (drain_sched n i c) as [s1 H1]. destruct (IH (drain n i c)) as [s2 H2].
  exists (s1 ++ s2). rewrite (sched_app _ _ _ _ H1). exact H2.
Qed.
Lemma plan_witness {C D A} `{!Sem C D} turns (c : config (C:=C) (D:=D) A) ps' (Q : D -> Prop) :
  fst (plan turns c) = ps' -> Q (dat (snd (plan turns c))) ->
  exists sch s', sched_run sch c = Some (ps', s') /\ Q (dat s').
Proof.
  intros H1 H2. destruct (plan_sched turns c) as [sch Hs]. exists sch, (snd (plan turns c)).
  split; [rewrite Hs, <- H1; destruct (plan turns c); reflexivity|exact H2].
Qed.
