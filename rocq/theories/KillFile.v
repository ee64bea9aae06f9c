(** * KillFile: processes that are killed while they use one log: invariant and rules *)
From stdpp Require Import gmap.
From Coq Require Import String.
From Coq Require Import List NArith ZArith Bool Arith Lia.
From Verif Require Import PyStr Prog ProgFacts PyIO Base Spec LineBuf FileBuf FileFacts FileSpec FileStmt FileProofs FileConcSpec FileConc CrashSpec Kill KillFacts KillRely KillFileSpec.
Import ListNotations.
Local Open Scope nat_scope.

(** ** What a process sees of the locks *)
Definition xc (k : locks) (l u : nat) : nat :=
  match k !! l with Some (Excl o n) => if o =? u then n else 0 | _ => 0 end.
Definition sc (k : locks) (l u : nat) : nat :=
  match k !! l with Some (Shared os) => count_occ Nat.eq_dec os u | _ => 0 end.
Definition same_view (u : nat) (k k' : locks) : Prop := forall l, xc k' l u = xc k l u /\ sc k' l u = sc k l u.

Lemma view_refl u k : same_view u k k. Proof. intros l. auto. Qed.
Lemma view_trans u k1 k2 k3 : same_view u k1 k2 -> same_view u k2 k3 -> same_view u k1 k3.
Proof. intros H1 H2 l. destruct (H1 l), (H2 l). split; congruence. Qed.

Lemma view_insert u k l ls : xc (<[l := ls]> k) l u = xc k l u -> sc (<[l := ls]> k) l u = sc k l u ->
  same_view u k (<[l := ls]> k).
Proof.
  intros H1 H2 l'. destruct (decide (l = l')) as [<-|Hne]; [auto|]. unfold xc, sc. rewrite lookup_insert_ne by auto. auto.
Qed.
Lemma view_delete u k l : xc k l u = 0 -> sc k l u = 0 -> same_view u k (delete l k).
Proof.
  intros H1 H2 l'. destruct (decide (l = l')) as [<-|Hne].
  - unfold xc at 1, sc at 1. rewrite lookup_delete. auto.
  - unfold xc, sc. rewrite lookup_delete_ne by auto. auto.
Qed.

Lemma acq_view t u re l m k k' : u <> t -> lock_acq re t l m k = (Good tt, k') -> same_view u k k'.
Proof.
  intros Hne H. unfold lock_acq in H. destruct (k !! l) as [[o n|os]|] eqn:E; destruct m; try discriminate.
  - destruct (re && (o =? t)) eqn:Eb; [|discriminate]. apply andb_prop in Eb. destruct Eb as [_ Eo]. apply Nat.eqb_eq in Eo. subst o.
    injection H as <-. apply view_insert; unfold xc, sc; rewrite lookup_insert, E; [|reflexivity].
    destruct (Nat.eqb_spec t u); congruence.
  - injection H as <-. apply view_insert; unfold xc, sc; rewrite lookup_insert, E; [reflexivity|].
    simpl. destruct (Nat.eq_dec t u); congruence.
  - injection H as <-. apply view_insert; unfold xc, sc; rewrite lookup_insert, E; [|reflexivity].
    destruct (Nat.eqb_spec t u); congruence.
  - injection H as <-. apply view_insert; unfold xc, sc; rewrite lookup_insert, E; [reflexivity|].
    simpl. destruct (Nat.eq_dec t u); congruence.
Qed.

Lemma cnt_remove1 t os i :
  count_occ Nat.eq_dec (remove1 t os) i = if Nat.eq_dec t i then pred (count_occ Nat.eq_dec os i) else count_occ Nat.eq_dec os i.
Proof. apply Locks.cnt_remove1. Qed.

Lemma rel_view t u l k k' : u <> t -> 0 < xc k l t \/ 0 < sc k l t -> lock_rel t l k = (Good tt, k') -> same_view u k k'.
Proof.
  intros Hne Hh H. unfold lock_rel in H. destruct (k !! l) as [[o n|os]|] eqn:E; [| |discriminate].
  - assert (o = t) as ->. { unfold xc, sc in Hh. rewrite E in Hh. destruct (Nat.eqb_spec o t); [auto|lia]. }
    destruct n as [|[|n]]; injection H as <-.
    + apply view_delete; unfold xc, sc; rewrite E; [|reflexivity]. destruct (Nat.eqb_spec t u); congruence.
    + apply view_delete; unfold xc, sc; rewrite E; [|reflexivity]. destruct (Nat.eqb_spec t u); congruence.
    + apply view_insert; unfold xc, sc; rewrite lookup_insert, E; [|reflexivity]. destruct (Nat.eqb_spec t u); congruence.
  - assert (Hc := cnt_remove1 t os u). destruct (Nat.eq_dec t u) as [->|Htu]; [congruence|].
    destruct (remove1 t os) as [|y os'] eqn:Er; injection H as <-.
    + apply view_delete; unfold xc, sc; rewrite E; [reflexivity|]. rewrite <- Hc. reflexivity.
    + apply view_insert; unfold xc, sc; rewrite lookup_insert, E; [reflexivity|]. exact Hc.
Qed.

Lemma drop_view stays t u k : u <> t -> same_view u k (locks_after stays t k).
Proof.
  intros Hne l. unfold xc, sc, locks_after. rewrite map_lookup_imap. destruct (k !! l) as [ls|]; [|auto]. simpl.
  destruct (stays l); [auto|]. destruct ls as [o n|os]; simpl.
  - destruct (Nat.eqb_spec o t) as [->|Ho]; [|auto]. destruct (Nat.eqb_spec t u); [congruence|auto].
  - assert (Hc := cnt_filter t os u). destruct (Nat.eqb_spec u t) as [|_]; [congruence|].
    destruct (List.filter (fun o => negb (o =? t)) os) as [|y os'].
    + simpl in Hc. auto.
    + auto.
Qed.

(** The locks that a process holds, innermost first. *)
Definition is_ex (m : lmode) : bool := match m with Ex => true | Sh => false end.
Definition cx (l : nat) (hs : list (nat * lmode)) : nat := length (List.filter (fun h => (fst h =? l) && is_ex (snd h)) hs).
Definition cs (l : nat) (hs : list (nat * lmode)) : nat := length (List.filter (fun h => (fst h =? l) && negb (is_ex (snd h))) hs).
Definition holding (t : nat) (hs : list (nat * lmode)) (k : locks) : Prop := forall l, xc k l t = cx l hs /\ sc k l t = cs l hs.

Lemma holding_view t hs k k' : same_view t k k' -> holding t hs k -> holding t hs k'.
Proof. intros H1 H2 l. destruct (H1 l), (H2 l). split; congruence. Qed.

Lemma holding_none t : holding t [] ∅.
Proof. intros l. unfold xc, sc. rewrite lookup_empty. auto. Qed.

Lemma cx_cons l l' m hs : cx l ((l', m) :: hs) = (if (l' =? l) && is_ex m then 1 else 0) + cx l hs.
Proof. unfold cx. simpl. destruct ((l' =? l) && is_ex m); reflexivity. Qed.
Lemma cs_cons l l' m hs : cs l ((l', m) :: hs) = (if (l' =? l) && negb (is_ex m) then 1 else 0) + cs l hs.
Proof. unfold cs. simpl. destruct ((l' =? l) && negb (is_ex m)); reflexivity. Qed.

Lemma acq_holding t hs l m k k' : lock_acq false t l m k = (Good tt, k') -> holding t hs k -> holding t ((l, m) :: hs) k'.
Proof.
  intros H Hh l'. specialize (Hh l'). rewrite cx_cons, cs_cons. unfold lock_acq in H.
  destruct (decide (l = l')) as [<-|Hne].
  2: { assert (Hk : k' !! l' = k !! l').
       { destruct (k !! l) as [[o n|os]|]; destruct m; try discriminate; injection H as <-; rewrite lookup_insert_ne by auto; reflexivity. }
       apply Nat.eqb_neq in Hne. rewrite Hne. unfold xc, sc in *. rewrite Hk. exact Hh. }
  rewrite Nat.eqb_refl. unfold xc, sc in *. destruct (k !! l) as [[o n|os]|] eqn:E; destruct m; try discriminate; injection H as <-;
    rewrite lookup_insert; simpl; rewrite ?Nat.eqb_refl; destruct Hh as [<- <-]; try (destruct (Nat.eq_dec t t); [|congruence]); auto.
Qed.

Lemma rel_holding t hs l m k : holding t ((l, m) :: hs) k -> cx l hs = 0 -> cs l hs = 0 ->
  (0 < xc k l t \/ 0 < sc k l t) /\ exists k', lock_rel t l k = (Good tt, k') /\ holding t hs k'.
Proof.
  intros Hh H1 H2. pose proof (Hh l) as Hl. rewrite cx_cons, cs_cons, Nat.eqb_refl, H1, H2 in Hl. simpl in Hl.
  assert (Ho : forall k', (forall l', l' <> l -> k' !! l' = k !! l') -> xc k' l t = 0 -> sc k' l t = 0 -> holding t hs k').
  { intros k' Hk E1 E2 l'. destruct (decide (l' = l)) as [->|Hne]; [split; congruence|].
    specialize (Hh l'). rewrite cx_cons, cs_cons in Hh. apply not_eq_sym, Nat.eqb_neq in Hne as Hne'. rewrite Hne' in Hh. simpl in Hh.
    unfold xc, sc in *. rewrite Hk by auto. exact Hh. }
  unfold xc, sc in Hl. unfold lock_rel. destruct m; simpl in Hl; destruct Hl as [Hx Hs].
  - destruct (k !! l) as [[o n|os]|] eqn:E; try discriminate. destruct (Nat.eqb_spec o t) as [->|]; [|discriminate]. subst n. split.
    + left. unfold xc. rewrite E, Nat.eqb_refl. lia.
    + exists (delete l k). split; [reflexivity|]. apply Ho; unfold xc, sc; [intros l' Hne; apply lookup_delete_ne; auto|rewrite lookup_delete; reflexivity..].
  - destruct (k !! l) as [[o n|os]|] eqn:E; try discriminate. split.
    + right. unfold sc. rewrite E. lia.
    + assert (Hc := cnt_remove1 t os t). destruct (Nat.eq_dec t t); [|congruence]. rewrite Hs in Hc. simpl in Hc.
      destruct (remove1 t os) as [|y os'] eqn:Er; eexists; (split; [reflexivity|]).
      * apply Ho; unfold xc, sc; [intros l' Hne; apply lookup_delete_ne; auto|rewrite lookup_delete; reflexivity..].
      * apply Ho; unfold xc, sc; [intros l' Hne; apply lookup_insert_ne; auto|rewrite lookup_insert; reflexivity|rewrite lookup_insert; exact Hc].
Qed.

(** ** The history, as it is kept in the proof *)
Record ghost := mkG { hist : history; pos : gmap nat nat; frozen : nat; flag : gset nat }.

Section Inv.
  Variables (n : nat) (name : text) (fl : nat) (bs : nat -> fbuf) (m : nat).
  Variable full : nat -> list text.
  Variable ord : Prop.
  Variable l0 : list text.

  Definition total (g : ghost) : nat := length (hist g) + size (flag g).

  Record inv (d : fdir) (g : ghost) : Prop := mkinv {
    j_files : forall i, files d !! record_file name i = match pos g !! i with Some e => option_map snd (nth_error (hist g) e) | None => None end;
    j_pos : forall i e, pos g !! i = Some e -> i < m /\ e < length (hist g);
    j_inj : forall i j e, pos g !! i = Some e -> pos g !! j = Some e -> i = j;
    j_ord : ord -> (forall x y a b, pos g !! x = Some a -> pos g !! y = Some b -> x < y -> b < a) /\
                   (forall x e, pos g !! x = Some e -> x + e < total g) /\
                   (forall e, e < length (hist g) -> total g <= e + m -> exists x, pos g !! x = Some e);
    j_short : forall t, cut_short (written_by t (hist g)) (full t);
    j_before : from_before (hist g) = l0;
    j_frozen : frozen g <= length (hist g) }.

  Notation state := (st fdir * ghost)%type.
  Definition dd (x : state) : fdir := dat (fst x).
  Definition kk (x : state) : locks := lks (fst x).

  (** A process [u] that is inside 'with lock', of one kind or the other. *)
  Record R (u : nat) (x x' : state) : Prop := mkR {
    r_view : same_view u (kk x) (kk x');
    r_own : u < n -> files (dd x') !! tmp_name (bs u) = files (dd x) !! tmp_name (bs u) /\
                     fclosed (dd x') !! b_id (bs u) = fclosed (dd x) !! b_id (bs u);
    r_held : 0 < xc (kk x) fl u \/ 0 < sc (kk x) fl u ->
      (forall i, files (dd x') !! record_file name i = files (dd x) !! record_file name i) /\
      hist (snd x') = hist (snd x) /\ pos (snd x') = pos (snd x) /\ flag (snd x') = flag (snd x) /\
      (0 < xc (kk x) fl u -> frozen (snd x') = frozen (snd x));
    r_mono : frozen (snd x) <= frozen (snd x') /\
      (forall e, e < frozen (snd x) -> nth_error (hist (snd x')) e = nth_error (hist (snd x)) e) /\
      written_by u (hist (snd x')) = written_by u (hist (snd x)) /\
      (u ∈ flag (snd x') <-> u ∈ flag (snd x));
    r_inv : inv (dd x) (snd x) -> inv (dd x') (snd x') }.

  (** A process that has begun an update and not yet made its file holds the lock, or was
      killed. *)
  Definition fine (dead : list nat) (x : state) : Prop := forall u, u ∈ flag (snd x) -> u < n /\ (In u dead \/ 0 < xc (kk x) fl u).
  Definition S (u : nat) (x x' : state) : Prop := R u x x' /\ forall dead, fine dead x -> fine dead x'.

  Lemma R_refl u x : R u x x.
  Proof. split; [apply view_refl|auto|auto 9|auto 9|auto]. Qed.
  Lemma R_trans u x1 x2 x3 : R u x1 x2 -> R u x2 x3 -> R u x1 x3.
  Proof.
    intros [V1 O1 H1 M1 I1] [V2 O2 H2 M2 I2]. split.
    - eapply view_trans; eauto.
    - intros Hu. destruct (O1 Hu), (O2 Hu). split; congruence.
    - intros Hh. destruct (H1 Hh) as (A1 & A2 & A3 & A4 & A5). destruct (V1 fl) as [E1 E2].
      destruct H2 as (B1 & B2 & B3 & B4 & B5); [rewrite E1, E2; exact Hh|].
      split; [intros i; rewrite B1; apply A1|]. do 3 (split; [congruence|]).
      intros Hx. rewrite B5 by (rewrite E1; exact Hx). auto.
    - destruct M1 as (A1 & A2 & A3 & A4), M2 as (B1 & B2 & B3 & B4). split; [lia|]. split; [|split; [congruence|tauto]].
      intros e He. rewrite B2 by lia. auto.
    - auto.
  Qed.
  Lemma S_R u x x' : S u x x' -> R u x x'. Proof. intros H. apply H. Qed.
  Lemma kill_R stays u t s g : u <> t -> R u (s, g) (mkst (dat s) (locks_after stays t (lks s)), g).
  Proof. intros Hne. split; simpl; [apply drop_view, Hne|auto|auto 9|auto 9|auto]. Qed.

  Definition J (dead : list nat) (x : state) : Prop := inv (dd x) (snd x) /\ fine dead x.
  Lemma J_step u dead x x' : S u x x' -> J dead x -> J dead x'.
  Proof. intros [HR HF] [H1 H2]. split; [apply (r_inv _ _ _ HR), H1|apply HF, H2]. Qed.
  Lemma J_kill stays t dead s g : J dead (s, g) -> J (t :: dead) (mkst (dat s) (locks_after stays t (lks s)), g).
  Proof.
    intros [H1 H2]. split; [exact H1|]. intros u Hu. destruct (decide (u = t)) as [->|Hne]; [split; [apply (H2 t Hu)|left; left; reflexivity]|].
    destruct (H2 u Hu) as [Hn [H|H]]; (split; [exact Hn|]); [left; right; exact H|right]. unfold kk in *. simpl in *.
    destruct (drop_view stays t u (lks s) Hne fl) as [E _]. rewrite E. exact H.
  Qed.

  (** ** Triples *)
  Notation W := (wp R S).
  Definition stab (t : nat) (hs : list (nat * lmode)) (P : fdir -> ghost -> Prop) : Prop :=
    forall x x', R t x x' -> holding t hs (kk x) -> P (dd x) (snd x) -> P (dd x') (snd x').
  Definition T {A} (t : nat) (hs : list (nat * lmode)) (P : fdir -> ghost -> Prop) (p : prog fcmd A) (Q : outcome A -> fdir -> ghost -> Prop) : Prop :=
    forall x, holding t hs (kk x) -> P (dd x) (snd x) ->
    W t p (fun r x' => holding t hs (kk x') /\ Q r (dd x') (snd x')) x.

  (** What a command of process [t], which holds [hs], may do. *)
  Record ok (t : nat) (hs : list (nat * lmode)) (d : fdir) (g : ghost) (d2 : fdir) (g2 : ghost) : Prop := mkok {
    o_tmp : forall u, u < n -> u <> t -> files d2 !! tmp_name (bs u) = files d !! tmp_name (bs u);
    o_closed : fclosed d2 = fclosed d;
    o_excl : 0 < cx fl hs \/ ((forall i, files d2 !! record_file name i = files d !! record_file name i) /\
               hist g2 = hist g /\ pos g2 = pos g /\ flag g2 = flag g /\ (frozen g2 = frozen g \/ 0 < cs fl hs));
    o_mono : frozen g <= frozen g2 /\ (forall e, e < frozen g -> nth_error (hist g2) e = nth_error (hist g) e) /\
             (forall u, u <> t -> written_by u (hist g2) = written_by u (hist g) /\ (u ∈ flag g2 <-> u ∈ flag g));
    o_inv : inv d g -> inv d2 g2;
    o_flag : t ∈ flag g2 -> t ∈ flag g \/ (t < n /\ 0 < cx fl hs) }.

  Lemma only_one k l t u : u <> t -> 0 < xc k l t -> xc k l u = 0 /\ sc k l u = 0.
  Proof.
    intros Hne H. unfold xc, sc in *. destruct (k !! l) as [[o c|os]|]; [|lia|lia].
    destruct (Nat.eqb_spec o t) as [->|]; [|lia]. destruct (Nat.eqb_spec t u); [congruence|auto].
  Qed.
  Lemma no_mix k l t u : 0 < sc k l t -> xc k l u = 0.
  Proof. unfold xc, sc. destruct (k !! l) as [[o c|os]|]; lia || auto. Qed.

  Lemma ok_guar t hs d g d2 g2 k : holding t hs k -> ok t hs d g d2 g2 -> guar S t (mkst d k, g) (mkst d2 k, g2).
  Proof.
    intros Hh [Ht Hc He Hm Hi Hf] u Hne. destruct (Hh fl) as [Ex Es]. split.
    - split; unfold dd, kk; simpl.
      + apply view_refl.
      + intros Hu. split; [auto|rewrite Hc; reflexivity].
      + intros Hl. destruct He as [He|(E1 & E2 & E3 & E4 & E5)].
        * exfalso. destruct (only_one k fl t u Hne) as [A B]; [lia|]. lia.
        * repeat split; auto. intros Hx. destruct E5 as [E5|E5]; [exact E5|].
          exfalso. rewrite <- Es in E5. rewrite (no_mix k fl t u E5) in Hx. lia.
      + destruct Hm as (A & B & Cu). destruct (Cu u Hne) as [C1 C2]. auto.
      + exact Hi.
    - intros dead Hfi v Hv. simpl in *. destruct (decide (v = t)) as [->|Hv'].
      + destruct (Hf Hv) as [H|[Hn H]]; [exact (Hfi t H)|]. split; [exact Hn|]. right. unfold kk. simpl. lia.
      + apply (Hfi v). simpl. apply (proj2 (proj2 Hm)); auto.
  Qed.

  Lemma T_ret {A} t hs P (a : A) (Q : outcome A -> fdir -> ghost -> Prop) : stab t hs P -> (forall d g, P d g -> Q (Good a) d g) -> T t hs P (Ret a) Q.
  Proof.
    intros HP HQ x Hh Hp x1 H1. split; [eapply holding_view; [apply H1|exact Hh]|]. apply HQ. eapply HP; eauto.
  Qed.
  Lemma T_raise {A} t hs P e (Q : outcome A -> fdir -> ghost -> Prop) :
    stab t hs P -> (forall d g, P d g -> Q (Fail e) d g) -> T t hs P (Raise e) Q.
  Proof.
    intros HP HQ x Hh Hp x1 H1. split; [eapply holding_view; [apply H1|exact Hh]|]. apply HQ. eapply HP; eauto.
  Qed.

  Lemma T_op {X} t hs P (c : fcmd X) (Q : outcome X -> fdir -> ghost -> Prop) :
    stab t hs P -> (forall r, stab t hs (Q r)) ->
    (forall d g, P d g -> exists g2, ok t hs d g (snd (fexec c d)) g2 /\ Q (fst (fexec c d)) (snd (fexec c d)) g2) ->
    T t hs P (fop c) Q.
  Proof.
    intros HP HQ Hc x Hh Hp x1 H1. destruct x1 as [[d k] g].
    assert (Hh1 : holding t hs k) by (eapply holding_view; [apply (r_view _ _ _ H1)|exact Hh]).
    assert (Hp1 : P d g) by exact (HP _ _ H1 Hh Hp).
    destruct (Hc d g Hp1) as (g2 & Hok & Hq). unfold exec, cexec, fsem. simpl in *.
    assert (Hg : guar S t (mkst d k, g) (mkst (snd (fexec c d)) k, g2)) by (apply (ok_guar t hs); assumption).
    destruct (fexec c d) as [[v|e|] d2]; simpl in *; [| |exact I]; exists g2; (split; [exact Hg|]);
      intros x3 H3; (split; [eapply holding_view; [apply (r_view _ _ _ H3)|exact Hh1]|]);
      exact (HQ _ (mkst d2 k, g2) x3 H3 Hh1 Hq).
  Qed.

  Lemma T_bind {A B} t hs P (p : prog fcmd A) (f : A -> prog fcmd B) (Qm : outcome A -> fdir -> ghost -> Prop) (Q : outcome B -> fdir -> ghost -> Prop) :
    T t hs P p Qm -> (forall a, T t hs (Qm (Good a)) (f a) Q) -> (forall e d g, Qm (Fail e) d g -> Q (Fail e) d g) ->
    T t hs P (bind p f) Q.
  Proof.
    intros Hp Hf Hq x Hh HP. apply wp_bind; [exact R_refl|]. eapply wp_mono; [|apply (Hp x Hh HP)].
    intros [a|e|] x' [H1 H2]; simpl; [|split; auto|exact I]. apply (Hf a x' H1 H2).
  Qed.

  Lemma T_conseq {A} t hs (P P' : fdir -> ghost -> Prop) (p : prog fcmd A) (Q Q' : outcome A -> fdir -> ghost -> Prop) :
    T t hs P p Q -> (forall d g, P' d g -> P d g) -> (forall r d g, Q r d g -> Q' r d g) -> T t hs P' p Q'.
  Proof.
    intros H HP HQ x Hh Hp. eapply wp_mono; [|apply (H x Hh); auto]. intros r x' [H1 H2]. auto.
  Qed.

  Lemma T_attempt {A} t hs P (p : prog fcmd A) (Q : outcome (outcome A) -> fdir -> ghost -> Prop) : T t hs P p (fun r => Q (Good r)) -> T t hs P (attempt p) Q.
  Proof. intros H x Hh HP. apply wp_attempt. apply (H x Hh HP). Qed.

  (** A change of the lock table by process [t] alone. *)
  Lemma lock_guar t d g k k' : (forall u, u <> t -> same_view u k k') ->
    (t ∈ flag g -> 0 < xc k fl t -> 0 < xc k' fl t) -> guar S t (mkst d k, g) (mkst d k', g).
  Proof.
    intros Hv Ht u Hne. split.
    - split; unfold dd, kk; simpl; [apply Hv, Hne|auto|auto 9|auto 9|auto].
    - intros dead Hf v Hin. destruct (Hf v Hin) as [Hn [H|H]]; (split; [exact Hn|]); [left; exact H|right]. unfold kk in *. simpl in *.
      destruct (decide (v = t)) as [->|Hvt]; [auto|]. destruct (Hv v Hvt fl) as [E _]. rewrite E. exact H.
  Qed.

  Lemma T_with {A} t hs l mo P (body : prog fcmd A) (Q : outcome A -> fdir -> ghost -> Prop) :
    Nat.even l = true -> cx l hs = 0 -> cs l hs = 0 ->
    stab t hs P -> (forall r, stab t ((l, mo) :: hs) (Q r)) -> (forall r, stab t hs (Q r)) ->
    (l = fl -> mo = Ex -> forall r d g, Q r d g -> t ∉ flag g) ->
    T t ((l, mo) :: hs) P body Q -> T t hs P (with_lock l mo body) Q.
  Proof.
    intros Hev Hx0 Hs0 HP HQ1 HQ Hfl Hb x Hh Hp x1 H1. destruct x1 as [[d k] g]. simpl.
    assert (Hh1 : holding t hs k) by (eapply holding_view; [apply (r_view _ _ _ H1)|exact Hh]).
    assert (Hp1 : P d g) by exact (HP _ _ H1 Hh Hp).
    assert (Hre : reent l = false) by (unfold reent; rewrite <- Nat.negb_even, Hev; reflexivity). rewrite Hre.
    destruct (lock_acq false t l mo k) as [r k1] eqn:Ea.
    assert (Hr : r = Good tt \/ r = Block).
    { unfold lock_acq in Ea. destruct (k !! l) as [[o c|os]|]; destruct mo; injection Ea as <- _; auto. }
    destruct Hr as [ -> | -> ]; [|exact I]. exists g. split.
    { apply lock_guar; [intros u Hne; eapply acq_view; eauto|]. intros _ Hx.
      destruct (acq_holding t hs l mo k k1 Ea Hh1 fl) as [E _]. rewrite E, cx_cons. destruct (Hh1 fl) as [E1 _]. lia. }
    apply wp_finally; [exact R_refl|]. eapply wp_mono; [|apply (Hb (mkst d k1, g)); [eapply acq_holding; eauto|exact Hp1]].
    intros r x' [Hh2 Hq2] x2 H2. destruct x2 as [[d2 k2] g2].
    assert (Hh3 : holding t ((l, mo) :: hs) k2) by (eapply holding_view; [apply (r_view _ _ _ H2)|exact Hh2]).
    assert (Hq3 : Q r d2 g2) by exact (HQ1 r _ _ H2 Hh2 Hq2).
    destruct (rel_holding t hs l mo k2 Hh3 Hx0 Hs0) as (Hheld & k3 & Er & Hh4). simpl. rewrite Er.
    exists g2. split.
    - apply lock_guar; [intros u Hne; eapply rel_view; eauto|]. intros Hin Hx. destruct (Hh4 fl) as [E _].
      destruct (Hh3 fl) as [E3 _]. rewrite cx_cons in E3. destruct (Nat.eqb_spec l fl) as [->|Hne].
      + destruct mo; simpl in E3; [exfalso; exact (Hfl eq_refl eq_refl r d2 g2 Hq3 Hin)|lia].
      + simpl in E3. lia.
    - intros x3 H3. split; [eapply holding_view; [apply (r_view _ _ _ H3)|exact Hh4]|].
      exact (HQ r _ x3 H3 Hh4 Hq3).
  Qed.
End Inv.
