(** * Sections: critical sections of one lock can be taken as atomic

    Threads that use one (re-entrant) lock [L].  Inside a section a thread makes commands
    that commute with everything the other threads may do outside of sections ([inc]),
    except at most one command ([outc]).  Then every execution has the same outcome as one
    in which a thread that takes the lock is not interrupted until it has released it. *)
From stdpp Require Import gmap.
From Coq Require Import List Bool Arith Lia.
From Verif Require Import Prog ProgFacts.
Import ListNotations.
Local Open Scope nat_scope.

(** ** The coarse execution *)
Section Coarse.
  Context {C : Type -> Type} {D : Type} `{!Sem C D}.
  Variable L : nat.

  (** Run until the lock is free. *)
  Fixpoint finish {A} (t : nat) (p : prog C A) (s : st D) : option (prog C A * st D) :=
    match lks s !! L with
    | None => Some (p, s)
    | Some _ =>
        match p with
        | Ret _ | Raise _ => None
        | Act c k h =>
            match exec t c s with
            | (Good x, s') => finish t (k x) s'
            | (Fail e, s') => finish t (h e) s'
            | (Block, _) => None
            end
        end
    end.

  (** One command, and if it took the lock then everything until the lock is free again. *)
  Definition big_step {A} (i : nat) (p : prog C A) (s : st D) : option (prog C A * st D) :=
    match pstep i p s with
    | Some (p', s') => finish i p' s'
    | None => None
    end.
  Fixpoint atomic_run {A} (sch : list nat) (c : config (C:=C) (D:=D) A) : option (config A) :=
    match sch with
    | [] => Some c
    | i :: sch' =>
        match fst c !! i with
        | None => None
        | Some p => match big_step i p (snd c) with
                    | None => None
                    | Some (p', s') => atomic_run sch' (<[i := p']> (fst c), s')
                    end
        end
    end.
  Lemma atomic_app {A} s1 s2 : forall (c c1 : config (C:=C) (D:=D) A), atomic_run s1 c = Some c1 ->
    atomic_run (s1 ++ s2) c = atomic_run s2 c1.
  Proof.
    induction s1 as [|i s1 IH]; intros c c1 H; simpl in *; [injection H as ->; reflexivity|].
    destruct (fst c !! i) as [p|]; [|discriminate]. destruct (big_step i p (snd c)) as [[p' s']|]; [|discriminate].
    apply IH, H.
  Qed.
End Coarse.

Inductive phase := Out | In (n : nat) (late : bool).

Section Sections.
  Context {C : Type -> Type} {D : Type} `{!Sem C D}.
  Variable L : nat.
  Hypothesis L_reent : reent L = true.
  Variable St : D -> Prop.
  Variable inc outc : forall X, C X -> Prop.
  Hypothesis keep : forall X (c : C X) d, inc X c \/ outc X c -> St d -> St (snd (cexec c d)).
  Hypothesis inc_moves : forall X (c : C X) d, inc X c -> St d -> fst (cexec c d) <> Block.
  Hypothesis commute : forall X Y (c : C X) (c' : C Y) d, inc X c -> outc Y c' -> St d ->
    fst (cexec c (snd (cexec c' d))) = fst (cexec c d) /\
    fst (cexec c' (snd (cexec c d))) = fst (cexec c' d) /\
    snd (cexec c (snd (cexec c' d))) = snd (cexec c' (snd (cexec c d))).

  (** Programs that follow the discipline; [Q]: phases in which they may end.  [In n late]:
      the thread holds the lock [S n] times; [late]: the one command has been made. *)
  Inductive wf {A} (Q : phase -> Prop) : phase -> prog C A -> Prop :=
  | wf_ret ph a : Q ph -> wf Q ph (Ret a)
  | wf_raise ph e : Q ph -> wf Q ph (Raise e)
  | wf_const ph X (c : C X) x k h :
      (forall d, St d -> cexec c d = (Good x, d)) -> wf Q ph (k x) -> wf Q ph (Act (Op c) k h)
  | wf_out X (c : C X) k h :
      outc X c -> (forall x, wf Q Out (k x)) -> (forall e, wf Q Out (h e)) -> wf Q Out (Act (Op c) k h)
  | wf_in n late X (c : C X) k h :
      inc X c -> (forall x, wf Q (In n late) (k x)) -> (forall e, wf Q (In n late) (h e)) -> wf Q (In n late) (Act (Op c) k h)
  | wf_one n X (c : C X) k h :
      outc X c -> (forall x, wf Q (In n true) (k x)) -> (forall e, wf Q (In n true) (h e)) -> wf Q (In n false) (Act (Op c) k h)
  | wf_take k h : wf Q (In 0 false) (k tt) -> wf Q Out (Act (Acq L Ex) k h)
  | wf_again n late k h : wf Q (In (S n) late) (k tt) -> wf Q (In n late) (Act (Acq L Ex) k h)
  | wf_leave late k h : wf Q Out (k tt) -> wf Q (In 0 late) (Act (Rel L) k h)
  | wf_less n late k h : wf Q (In n late) (k tt) -> wf Q (In (S n) late) (Act (Rel L) k h)
  | wf_acq n l m k h : l <> L ->
      wf Q (In n false) (k tt) -> (forall e, wf Q (In n false) (h e)) -> wf Q (In n false) (Act (Acq l m) k h)
  | wf_rel n l k h : l <> L ->
      wf Q (In n false) (k tt) -> (forall e, wf Q (In n false) (h e)) -> wf Q (In n false) (Act (Rel l) k h).

  Lemma wf_bind {A B} (Q Q' : phase -> Prop) ph (p : prog C A) (f : A -> prog C B) :
    wf Q ph p -> (forall ph a, Q ph -> wf Q' ph (f a)) -> (forall ph, Q ph -> Q' ph) -> wf Q' ph (bind p f).
  Proof.
    intros H Hf Hq. induction H; simpl.
    - apply Hf; assumption.
    - apply wf_raise; auto.
    - eapply wf_const; eauto.
    - apply wf_out; auto.
    - apply wf_in; auto.
    - apply wf_one; auto.
    - apply wf_take; auto.
    - apply wf_again; auto.
    - apply wf_leave; auto.
    - apply wf_less; auto.
    - apply wf_acq; auto.
    - apply wf_rel; auto.
  Qed.
  Lemma wf_attempt {A} (Q : phase -> Prop) ph (p : prog C A) : wf Q ph p -> wf Q ph (attempt p).
  Proof.
    intros H. induction H; simpl.
    - apply wf_ret; auto.
    - apply wf_ret; auto.
    - eapply wf_const; eauto.
    - apply wf_out; auto.
    - apply wf_in; auto.
    - apply wf_one; auto.
    - apply wf_take; auto.
    - apply wf_again; auto.
    - apply wf_leave; auto.
    - apply wf_less; auto.
    - apply wf_acq; auto.
    - apply wf_rel; auto.
  Qed.
  Lemma wf_thread {R} (ps : list (prog C R)) : Forall (wf (eq Out) Out) ps -> forall rs, wf (eq Out) Out (thread_from rs ps).
  Proof.
    induction 1 as [|p ps Hp _ IH]; intros rs; simpl; [apply wf_ret; reflexivity|].
    apply (wf_bind (eq Out)); [apply wf_attempt, Hp| |auto]. intros ph a <-. apply IH.
  Qed.

  (** Sections. *)
  Definition inside (n : nat) (late : bool) (ph : phase) : Prop := exists late', ph = In n late' /\ (late = true -> late' = true).
  Lemma wf_try_in {A} n late (p : prog C A) : forall ph, wf (inside (S n) late) ph p -> wf (inside n late) ph (try_finally p (release L)).
  Proof.
    intros ph H. induction H as [ph a HQ|ph e HQ| | | | | | | | | |]; simpl.
    - destruct HQ as (l' & -> & Hl). apply wf_less, wf_ret. exists l'. auto.
    - destruct HQ as (l' & -> & Hl). apply wf_less, wf_raise. exists l'. auto.
    - eapply wf_const; eauto.
    - apply wf_out; auto.
    - apply wf_in; auto.
    - apply wf_one; auto.
    - apply wf_take; auto.
    - apply wf_again; auto.
    - apply wf_leave; auto.
    - apply wf_less; auto.
    - apply wf_acq; auto.
    - apply wf_rel; auto.
  Qed.
  Lemma wf_try_out {A} (p : prog C A) : forall ph, wf (inside 0 false) ph p -> wf (eq Out) ph (try_finally p (release L)).
  Proof.
    intros ph H. induction H as [ph a HQ|ph e HQ| | | | | | | | | |]; simpl.
    - destruct HQ as (l' & -> & Hl). apply wf_leave, wf_ret. reflexivity.
    - destruct HQ as (l' & -> & Hl). apply wf_leave, wf_raise. reflexivity.
    - eapply wf_const; eauto.
    - apply wf_out; auto.
    - apply wf_in; auto.
    - apply wf_one; auto.
    - apply wf_take; auto.
    - apply wf_again; auto.
    - apply wf_leave; auto.
    - apply wf_less; auto.
    - apply wf_acq; auto.
    - apply wf_rel; auto.
  Qed.
  Lemma wf_with_in {A} n late (p : prog C A) : wf (inside (S n) late) (In (S n) late) p -> wf (inside n late) (In n late) (with_lock L Ex p).
  Proof. intros H. apply wf_again, wf_try_in, H. Qed.
  Lemma wf_with_out {A} (p : prog C A) : wf (inside 0 false) (In 0 false) p -> wf (eq Out) Out (with_lock L Ex p).
  Proof. intros H. apply wf_take, wf_try_out, H. Qed.

  (** ** The steps of a thread inside a section *)
  Definition const {X} (c : C X) : Prop := exists x, forall d, St d -> cexec c d = (Good x, d).
  Lemma wf_inv {A} Q ph (p : prog C A) : wf Q ph p ->
    match p with
    | Ret _ | Raise _ => Q ph
    | Act c k h =>
        match c in cmd _ X return (X -> prog C A) -> (exn -> prog C A) -> Prop with
        | Op c => fun k h =>
            (exists x, (forall d, St d -> cexec c d = (Good x, d)) /\ wf Q ph (k x)) \/
            match ph with
            | Out => outc _ c /\ (forall x, wf Q Out (k x)) /\ (forall e, wf Q Out (h e))
            | In n late =>
                (inc _ c /\ (forall x, wf Q (In n late) (k x)) /\ (forall e, wf Q (In n late) (h e))) \/
                (late = false /\ outc _ c /\ (forall x, wf Q (In n true) (k x)) /\ (forall e, wf Q (In n true) (h e)))
            end
        | Acq l m => fun k h =>
            match ph with
            | Out => l = L /\ m = Ex /\ wf Q (In 0 false) (k tt)
            | In n late => (l = L /\ m = Ex /\ wf Q (In (S n) late) (k tt)) \/
                           (l <> L /\ late = false /\ wf Q (In n false) (k tt) /\ forall e, wf Q (In n false) (h e))
            end
        | Rel l => fun k h =>
            match ph with
            | Out => False
            | In n late => (l = L /\ match n with O => wf Q Out (k tt) | S n' => wf Q (In n' late) (k tt) end) \/
                           (l <> L /\ late = false /\ wf Q (In n false) (k tt) /\ forall e, wf Q (In n false) (h e))
            end
        end k h
    end.
  Proof. destruct 1; simpl; auto 10; left; eauto. Qed.

  Definition movable {X} (c : cmd C X) : Prop := match c with Op c => inc _ c \/ const c | _ => True end.
  Definition outer {X} (c : C X) : Prop := outc _ c \/ const c.

  Lemma outer_keep {X} (c : C X) d : outer c -> St d -> St (snd (cexec c d)).
  Proof. intros [H|[x H]] Hd; [apply keep; auto|]. rewrite (H d Hd). exact Hd. Qed.
  Lemma movable_keep {X} i (c : cmd C X) s : movable c -> St (dat s) -> St (dat (snd (exec i c s))).
  Proof.
    destruct c as [l m|l|X c]; simpl; intros Hm Hs.
    - destruct (lock_acq _ _ _ _ _). exact Hs.
    - destruct (lock_rel _ _ _). exact Hs.
    - destruct (cexec c (dat s)) as [r d] eqn:E. simpl. destruct Hm as [Hm|[x Hx]].
      + pose proof (keep _ c (dat s) (or_introl Hm) Hs) as H. rewrite E in H. exact H.
      + rewrite (Hx _ Hs) in E. injection E as _ <-. exact Hs.
  Qed.

  Lemma exec_op {X} i (c : C X) d lk : exec i (Op c) (mkst d lk) = (fst (cexec c d), mkst (snd (cexec c d)) lk).
  Proof. simpl. destruct (cexec c d). reflexivity. Qed.
  Lemma exec_acq i l m d lk : exec (C:=C) i (Acq l m) (mkst d lk) =
    (fst (lock_acq (reent l) i l m lk), mkst d (snd (lock_acq (reent l) i l m lk))).
  Proof. simpl. destruct (lock_acq _ _ _ _ _). reflexivity. Qed.
  Lemma exec_rel i l d lk : exec (C:=C) i (Rel l) (mkst d lk) = (fst (lock_rel i l lk), mkst d (snd (lock_rel i l lk))).
  Proof. simpl. destruct (lock_rel _ _ _). reflexivity. Qed.

  (** A movable command and a command that another thread makes outside of its sections. *)
  Lemma diamond {X Y} i j (c : cmd C X) (c' : C Y) s : movable c -> outer c' -> St (dat s) ->
    fst (exec i c (snd (exec j (Op c') s))) = fst (exec i c s) /\
    fst (exec j (Op c') (snd (exec i c s))) = fst (exec j (Op c') s) /\
    snd (exec i c (snd (exec j (Op c') s))) = snd (exec j (Op c') (snd (exec i c s))).
  Proof.
    intros Hm Ho Hs. destruct s as [d lk]. cbn [dat] in Hs. rewrite !exec_op. cbn [fst snd]. destruct c as [l m|l|X c].
    - rewrite !exec_acq. cbn [fst snd]. rewrite !exec_op. auto.
    - rewrite !exec_rel. cbn [fst snd]. rewrite !exec_op. auto.
    - rewrite !exec_op. cbn [fst snd]. rewrite !exec_op. cbn [fst snd].
      assert (H : fst (cexec c (snd (cexec c' d))) = fst (cexec c d) /\
                  fst (cexec c' (snd (cexec c d))) = fst (cexec c' d) /\
                  snd (cexec c (snd (cexec c' d))) = snd (cexec c' (snd (cexec c d)))).
      { destruct Hm as [Hm|[x Hx]].
        - destruct Ho as [Ho|[y Hy]]; [apply commute; auto|].
          rewrite (Hy d Hs). cbn [fst snd]. rewrite (Hy _ (keep _ c d (or_introl Hm) Hs)). auto.
        - rewrite (Hx d Hs). cbn [fst snd]. rewrite (Hx _ (outer_keep c' d Ho Hs)). auto. }
      destruct H as (H1 & H2 & H3). rewrite H1, H2, H3. auto.
  Qed.
  Lemma outer_locks {X} j (c : C X) s : lks (snd (exec j (Op c) s)) = lks s.
  Proof. destruct s as [d lk]. rewrite exec_op. reflexivity. Qed.
  Lemma outer_St {X} j (c : C X) s : outer c -> St (dat s) -> St (dat (snd (exec j (Op c) s))).
  Proof. destruct s as [d lk]. rewrite exec_op. apply outer_keep. Qed.

  (** What follows a command. *)
  Definition next {A X} (r : outcome X) (k : X -> prog C A) (h : exn -> prog C A) : option (prog C A) :=
    match r with Good x => Some (k x) | Fail e => Some (h e) | Block => None end.
  Lemma pstep_next {A X} i (c : cmd C X) (k : X -> prog C A) h s :
    pstep i (Act c k h) s = match next (fst (exec i c s)) k h with Some p => Some (p, snd (exec i c s)) | None => None end.
  Proof. simpl. destruct (exec i c s) as [[x|e|] s']; reflexivity. Qed.
  Lemma finish_next {A X} i (c : cmd C X) (k : X -> prog C A) h s ls : lks s !! L = Some ls ->
    finish L i (Act c k h) s = match next (fst (exec i c s)) k h with Some p => finish L i p (snd (exec i c s)) | None => None end.
  Proof. intros H. simpl. rewrite H. destruct (exec i c s) as [[x|e|] s']; reflexivity. Qed.
  Lemma finish_free {A} i (p : prog C A) s : lks s !! L = None -> finish L i p s = Some (p, s).
  Proof. intros H. destruct p; simpl; rewrite H; reflexivity. Qed.

  (** Thread [i] has taken the lock and made only movable commands since then. *)
  Inductive part {A} (i : nat) (q : prog C A) (t : st D) : prog C A -> st D -> Prop :=
  | part_one k h p s :
      q = Act (Acq L Ex) k h -> St (dat t) -> pstep i q t = Some (p, s) -> lks s !! L <> None -> part i q t p s
  | part_step p s X (c : cmd C X) k h p' s' :
      part i q t p s -> St (dat s) -> p = Act c k h -> movable c -> pstep i p s = Some (p', s') -> lks s' !! L <> None ->
      part i q t p' s'.
  Lemma part_held {A} i (q : prog C A) t p s : part i q t p s -> lks s !! L <> None.
  Proof. destruct 1; assumption. Qed.
  Lemma part_first {A} i (q : prog C A) t p s : part i q t p s -> exists k h, q = Act (Acq L Ex) k h.
  Proof. induction 1; eauto. Qed.
  Lemma part_big {A} i (q : prog C A) t p s : part i q t p s -> big_step L i q t = finish L i p s.
  Proof.
    induction 1 as [k h p s -> Ht Hp Hl|p s X c k h p' s' Hpt IH Hs -> Hm Hp Hl].
    - unfold big_step. rewrite Hp. reflexivity.
    - rewrite IH. apply part_held in Hpt. destruct (lks s !! L) as [ls|] eqn:El; [|congruence].
      rewrite (finish_next i c k h s ls El). rewrite pstep_next in Hp.
      destruct (next _ k h) as [p1|]; [|discriminate]. injection Hp as -> ->. reflexivity.
  Qed.
  Lemma part_swap {A Y} i j (c' : C Y) (q : prog C A) t p s : outer c' -> part i q t p s ->
    fst (exec j (Op c') t) = fst (exec j (Op c') s) /\
    part i q (snd (exec j (Op c') t)) p (snd (exec j (Op c') s)).
  Proof.
    intros Ho. induction 1 as [k h p s -> Ht Hp Hl|p s X c k h p' s' Hpt IH Hs -> Hm Hp Hl].
    - rewrite pstep_next in Hp. destruct (diamond i j (Acq L Ex) c' t Logic.I Ho Ht) as (E1 & E2 & E3).
      destruct (next _ k h) as [p1|] eqn:En; [|discriminate]. injection Hp as -> <-.
      split; [symmetry; exact E2|]. eapply part_one; [reflexivity|apply outer_St; auto| |].
      + rewrite pstep_next, E1, En, E3. reflexivity.
      + rewrite outer_locks. exact Hl.
    - destruct IH as [IH1 IH2]. rewrite pstep_next in Hp. destruct (diamond i j c c' s Hm Ho Hs) as (E1 & E2 & E3).
      destruct (next _ k h) as [p1|] eqn:En; [|discriminate]. injection Hp as -> <-.
      split; [rewrite IH1; symmetry; exact E2|].
      eapply part_step; [exact IH2|apply outer_St; auto|reflexivity|exact Hm| |].
      + rewrite pstep_next, E1, En, E3. reflexivity.
      + rewrite outer_locks. exact Hl.
  Qed.

  Definition held_by (i n : nat) (s : st D) : Prop := lks s !! L = Some (Excl i (S n)).

  (** Lock commands of the holder. *)
  Lemma acq_again i n s : held_by i n s -> exec (C:=C) i (Acq L Ex) s = (Good tt, mkst (dat s) (<[L := Excl i (S (S n))]> (lks s))).
  Proof. intros H. destruct s as [d lk]. unfold held_by in H. simpl in *. unfold lock_acq. rewrite H, L_reent, Nat.eqb_refl. reflexivity. Qed.
  Lemma rel_less i n s : held_by i (S n) s -> exec (C:=C) i (Rel L) s = (Good tt, mkst (dat s) (<[L := Excl i (S n)]> (lks s))).
  Proof. intros H. destruct s as [d lk]. unfold held_by in H. simpl in *. unfold lock_rel. rewrite H. reflexivity. Qed.
  Lemma rel_leave i s : held_by i 0 s -> exec (C:=C) i (Rel L) s = (Good tt, mkst (dat s) (delete L (lks s))).
  Proof. intros H. destruct s as [d lk]. unfold held_by in H. simpl in *. unfold lock_rel. rewrite H. reflexivity. Qed.
  Lemma acq_other i l m s r s' : l <> L -> exec (C:=C) i (Acq l m) s = (r, s') -> lks s' !! L = lks s !! L.
  Proof.
    intros Hl. destruct s as [d lk]. simpl. unfold lock_acq.
    destruct (lk !! l) as [[o n|os]|], m; try destruct (_ && _); intros E; injection E as <- <-; simpl;
      rewrite ?lookup_insert_ne by auto; reflexivity.
  Qed.
  Lemma rel_other i l s r s' : l <> L -> exec (C:=C) i (Rel l) s = (r, s') -> lks s' !! L = lks s !! L.
  Proof.
    intros Hl. destruct s as [d lk]. simpl. unfold lock_rel.
    destruct (lk !! l) as [[o [|[|n]]|os]|]; try destruct (remove1 i os); intros E; injection E as <- <-; simpl;
      rewrite ?lookup_insert_ne, ?lookup_delete_ne by auto; reflexivity.
  Qed.

  (** The rest of a section after the one command. *)
  Lemma finish_late {A} i (p : prog C A) : forall n s, wf (eq Out) (In n true) p -> held_by i n s -> St (dat s) ->
    exists q t, finish L i p s = Some (q, t) /\ wf (eq Out) Out q /\ lks t !! L = None /\ St (dat t) /\
    forall Y j (c' : C Y), outer c' ->
      finish L i p (snd (exec j (Op c') s)) = Some (q, snd (exec j (Op c') t)) /\ fst (exec j (Op c') t) = fst (exec j (Op c') s).
  Proof.
    induction p as [a|e|X c k IHk h IHh]; intros n s Hw Hh Hs; pose proof (wf_inv _ _ _ Hw) as Hv; [discriminate|discriminate|].
    assert (Hgo : forall x s1 n1, exec i c s = (Good x, s1) -> movable c -> wf (eq Out) (In n1 true) (k x) -> held_by i n1 s1 -> 
      exists q t, finish L i (Act c k h) s = Some (q, t) /\ wf (eq Out) Out q /\ lks t !! L = None /\ St (dat t) /\
      forall Y j (c' : C Y), outer c' ->
        finish L i (Act c k h) (snd (exec j (Op c') s)) = Some (q, snd (exec j (Op c') t)) /\ fst (exec j (Op c') t) = fst (exec j (Op c') s)).
    { intros x s1 n1 Ex1 Hm Hw1 Hh1. pose proof (movable_keep i c s Hm Hs) as Hs1. rewrite Ex1 in Hs1. cbn [snd] in Hs1.
      destruct (IHk x n1 s1 Hw1 Hh1 Hs1) as (q & t & F1 & F2 & F3 & F4 & F5).
      exists q, t. rewrite (finish_next i c k h s _ Hh), Ex1. cbn [fst snd next]. split; [exact F1|]. split; [exact F2|].
      split; [exact F3|]. split; [exact F4|]. intros Y j c' Ho. destruct (F5 Y j c' Ho) as [G1 G2].
      destruct (diamond i j c c' s Hm Ho Hs) as (E1 & E2 & E3). rewrite Ex1 in E1, E2, E3. cbn [fst snd] in E1, E2, E3.
      rewrite (finish_next i c k h _ (Excl i (S n))) by (rewrite outer_locks; exact Hh). rewrite E1, E3. cbn [next].
      split; [exact G1|congruence]. }
    assert (Hgo' : forall e s1 n1, exec i c s = (Fail e, s1) -> movable c -> wf (eq Out) (In n1 true) (h e) -> held_by i n1 s1 -> 
      exists q t, finish L i (Act c k h) s = Some (q, t) /\ wf (eq Out) Out q /\ lks t !! L = None /\ St (dat t) /\
      forall Y j (c' : C Y), outer c' ->
        finish L i (Act c k h) (snd (exec j (Op c') s)) = Some (q, snd (exec j (Op c') t)) /\ fst (exec j (Op c') t) = fst (exec j (Op c') s)).
    { intros x s1 n1 Ex1 Hm Hw1 Hh1. pose proof (movable_keep i c s Hm Hs) as Hs1. rewrite Ex1 in Hs1. cbn [snd] in Hs1.
      destruct (IHh x n1 s1 Hw1 Hh1 Hs1) as (q & t & F1 & F2 & F3 & F4 & F5).
      exists q, t. rewrite (finish_next i c k h s _ Hh), Ex1. cbn [fst snd next]. split; [exact F1|]. split; [exact F2|].
      split; [exact F3|]. split; [exact F4|]. intros Y j c' Ho. destruct (F5 Y j c' Ho) as [G1 G2].
      destruct (diamond i j c c' s Hm Ho Hs) as (E1 & E2 & E3). rewrite Ex1 in E1, E2, E3. cbn [fst snd] in E1, E2, E3.
      rewrite (finish_next i c k h _ (Excl i (S n))) by (rewrite outer_locks; exact Hh). rewrite E1, E3. cbn [next].
      split; [exact G1|congruence]. }
    destruct c as [l m|l|X c].
    - destruct Hv as [(-> & -> & Hv)|(_ & ? & _)]; [|discriminate].
      eapply Hgo; [apply (acq_again i n s Hh)|exact Logic.I|exact Hv|]. unfold held_by. simpl. apply lookup_insert.
    - destruct Hv as [(-> & Hv)|(_ & ? & _)]; [|discriminate]. destruct n as [|n].
      + clear Hgo Hgo'. exists (k tt), (mkst (dat s) (delete L (lks s))).
        assert (Hd : lks (mkst (dat s) (delete L (lks s))) !! L = None) by apply lookup_delete.
        rewrite (finish_next i (Rel L) k h s _ Hh), (rel_leave i s Hh). cbn [fst snd next].
        split; [apply finish_free, Hd|]. split; [exact Hv|]. split; [exact Hd|]. split; [exact Hs|].
        intros Y j c' Ho. destruct (diamond i j (Rel L) c' s Logic.I Ho Hs) as (E1 & E2 & E3).
        rewrite (rel_leave i s Hh) in E1, E2, E3. cbn [fst snd] in E1, E2, E3.
        rewrite (finish_next i (Rel L) k h _ (Excl i 1)) by (rewrite outer_locks; exact Hh). rewrite E1, E3. cbn [next].
        split; [|exact E2]. apply finish_free. rewrite outer_locks. exact Hd.
      + eapply Hgo; [apply (rel_less i n s Hh)|exact Logic.I|exact Hv|]. unfold held_by. simpl. apply lookup_insert.
    - destruct Hv as [(x & Hx & Hv)|[(Hi & Hk & Hf)|(? & _)]]; [| |discriminate].
      + eapply (Hgo x s n); [destruct s as [d lk]; rewrite exec_op, (Hx d Hs); reflexivity|right; exists x; exact Hx|exact Hv|exact Hh].
      + pose proof (inc_moves _ c (dat s) Hi Hs) as Hb. destruct s as [d lk]. cbn [dat] in *.
        destruct (cexec c d) as [[x|e|] d'] eqn:Ec; [| |simpl in Hb; congruence].
        * apply (Hgo x (mkst d' lk) n); [simpl; rewrite Ec; reflexivity|left; exact Hi|apply Hk|exact Hh].
        * apply (Hgo' e (mkst d' lk) n); [simpl; rewrite Ec; reflexivity|left; exact Hi|apply Hf|exact Hh].
  Qed.

  (** ** The simulation *)
  Notation wfp := (wf (eq Out)).
  Inductive sim {A} : list (prog C A) -> st D -> list (prog C A) -> st D -> Prop :=
  | sim_free ps s : lks s !! L = None -> St (dat s) -> Forall (wfp Out) ps -> sim ps s ps s
  | sim_early i n p q qs s t :
      held_by i n s -> St (dat s) -> lks t !! L = None -> Forall (wfp Out) qs -> qs !! i = Some q ->
      wfp (In n false) p -> part i q t p s -> sim (<[i:=p]> qs) s qs t
  | sim_late i n p q ps s t :
      held_by i n s -> St (dat s) -> lks t !! L = None -> wfp (In n true) p -> ps !! i = Some p ->
      Forall (wfp Out) (<[i:=q]> ps) -> finish L i p s = Some (q, t) -> sim ps s (<[i:=q]> ps) t.

  (** A step of a thread outside its sections. *)
  Lemma outer_cmd {A} j X (c : C X) (k : X -> prog C A) h s p' s' : wfp Out (Act (Op c) k h) -> St (dat s) ->
    pstep j (Act (Op c) k h) s = Some (p', s') ->
    outer c /\ s' = snd (exec j (Op c) s) /\ next (fst (exec j (Op c) s)) k h = Some p' /\ wfp Out p'.
  Proof.
    intros Hw Hs Hp. pose proof (wf_inv _ _ _ Hw) as Hv. rewrite pstep_next in Hp.
    destruct (next _ k h) as [p1|] eqn:En; [|discriminate]. injection Hp as -> <-.
    destruct Hv as [(x & Hx & Hv)|(Ho & Hk & Hh)].
    - split; [right; exists x; exact Hx|]. split; [reflexivity|]. split; [reflexivity|].
      destruct s as [d lk]. rewrite exec_op, (Hx d Hs) in En. injection En as <-. exact Hv.
    - split; [left; exact Ho|]. split; [reflexivity|]. split; [reflexivity|].
      destruct (fst (exec j (Op c) s)) as [x|e|]; [| |discriminate]; injection En as <-; auto.
  Qed.
  Lemma outer_step {A} i n j (p : prog C A) s p' s' : wfp Out p -> St (dat s) -> held_by i n s -> i <> j ->
    pstep j p s = Some (p', s') ->
    exists X (c : C X) k h, p = Act (Op c) k h /\ outer c /\ s' = snd (exec j (Op c) s) /\
      next (fst (exec j (Op c) s)) k h = Some p' /\ wfp Out p'.
  Proof.
    intros Hw Hs Hl Hij Hp. pose proof (wf_inv _ _ _ Hw) as Hv. destruct p as [a|e|X c k h]; [discriminate|discriminate|].
    destruct c as [l m|l|X c].
    - destruct Hv as (-> & -> & Hv). exfalso. simpl in Hp. unfold lock_acq in Hp. rewrite Hl in Hp.
      replace (i =? j) with false in Hp by (symmetry; apply Nat.eqb_neq, Hij). rewrite andb_false_r in Hp. discriminate.
    - destruct Hv.
    - exists X, c, k, h. split; [reflexivity|]. apply outer_cmd; assumption.
  Qed.
  (** A coarse step that does not take the lock. *)
  Lemma big_outer {A} j X (c : C X) (k : X -> prog C A) h s p' : lks s !! L = None ->
    next (fst (exec j (Op c) s)) k h = Some p' -> big_step L j (Act (Op c) k h) s = Some (p', snd (exec j (Op c) s)).
  Proof.
    intros Hl Hn. unfold big_step. rewrite pstep_next, Hn. apply finish_free. rewrite outer_locks. exact Hl.
  Qed.
  Lemma run_one {A} j (p p' : prog C A) s s' ps : ps !! j = Some p -> big_step L j p s = Some (p', s') ->
    atomic_run L [j] (ps, s) = Some (<[j:=p']> ps, s').
  Proof. intros H1 H2. simpl. rewrite H1, H2. reflexivity. Qed.

  (** A step of the holder before the one command. *)
  Lemma early_step {A} i n (p : prog C A) s p' s' : wfp (In n false) p -> held_by i n s -> St (dat s) -> pstep i p s = Some (p', s') ->
    St (dat s') /\
    ((exists X (c : cmd C X) k h, p = Act c k h /\ movable c /\
        ((exists n', wfp (In n' false) p' /\ held_by i n' s') \/ (wfp Out p' /\ lks s' !! L = None))) \/
     (wfp (In n true) p' /\ held_by i n s')).
  Proof.
    intros Hw Hh Hs Hp. pose proof (wf_inv _ _ _ Hw) as Hv. destruct p as [a|e|X c k h]; [discriminate|discriminate|].
    destruct c as [l m|l|X c].
    - split; [rewrite pstep_next in Hp; destruct (next _ k h); [|discriminate]; injection Hp as _ <-;
              apply (movable_keep i (Acq l m) s Logic.I Hs)|]. left. exists _, (Acq l m), k, h.
      split; [reflexivity|]. split; [exact Logic.I|]. left. destruct Hv as [(-> & -> & Hv)|(Hl & _ & Hk & He)].
      + rewrite pstep_next, (acq_again i n s Hh) in Hp. injection Hp as <- <-. exists (S n). split; [exact Hv|].
        unfold held_by. simpl. apply lookup_insert.
      + exists n. unfold held_by in *. simpl in Hp. destruct (exec (C:=C) i (Acq l m) s) as [r s1] eqn:E.
        pose proof (acq_other i l m s r s1 Hl E) as El. simpl in E. rewrite E in Hp.
        destruct r as [[]|e|]; try discriminate; injection Hp as <- <-; rewrite El; auto.
    - split; [rewrite pstep_next in Hp; destruct (next _ k h); [|discriminate]; injection Hp as _ <-;
              apply (movable_keep i (Rel l) s Logic.I Hs)|]. left. exists _, (Rel l), k, h.
      split; [reflexivity|]. split; [exact Logic.I|]. destruct Hv as [(-> & Hv)|(Hl & _ & Hk & He)].
      + destruct n as [|n].
        * right. rewrite pstep_next, (rel_leave i s Hh) in Hp. injection Hp as <- <-. split; [exact Hv|]. apply lookup_delete.
        * left. rewrite pstep_next, (rel_less i n s Hh) in Hp. injection Hp as <- <-. exists n. split; [exact Hv|].
          unfold held_by. simpl. apply lookup_insert.
      + left. exists n. unfold held_by in *. simpl in Hp. destruct (exec (C:=C) i (Rel l) s) as [r s1] eqn:E.
        pose proof (rel_other i l s r s1 Hl E) as El. simpl in E. rewrite E in Hp.
        destruct r as [[]|e|]; try discriminate; injection Hp as <- <-; rewrite El; auto.
    - destruct s as [d lk]. cbn [dat] in Hs. rewrite pstep_next, exec_op in Hp. cbn [fst snd] in Hp.
      destruct Hv as [(x & Hx & Hv)|[(Hi & Hk & He)|(_ & Ho & Hk & He)]].
      + rewrite (Hx d Hs) in Hp. injection Hp as <- <-. split; [exact Hs|]. left. exists _, (Op c), k, h.
        split; [reflexivity|]. split; [right; exists x; exact Hx|]. left. exists n. split; [exact Hv|exact Hh].
      + destruct (next _ k h) as [p1|] eqn:En; [|discriminate]. injection Hp as -> <-.
        split; [apply (keep _ c d (or_introl Hi) Hs)|]. left. exists _, (Op c), k, h.
        split; [reflexivity|]. split; [left; exact Hi|]. left. exists n. split; [|exact Hh].
        destruct (fst (cexec c d)) as [x|e|]; [| |discriminate]; injection En as <-; auto.
      + destruct (next _ k h) as [p1|] eqn:En; [|discriminate]. injection Hp as -> <-.
        split; [apply (keep _ c d (or_intror Ho) Hs)|]. right. split; [|exact Hh].
        destruct (fst (cexec c d)) as [x|e|]; [| |discriminate]; injection En as <-; auto.
  Qed.
  (** ... and after it. *)
  Lemma late_step {A} i n (p : prog C A) s p' s' : wfp (In n true) p -> held_by i n s -> St (dat s) -> pstep i p s = Some (p', s') ->
    St (dat s') /\ ((exists n', wfp (In n' true) p' /\ held_by i n' s') \/ (wfp Out p' /\ lks s' !! L = None)).
  Proof.
    intros Hw Hh Hs Hp. pose proof (wf_inv _ _ _ Hw) as Hv. destruct p as [a|e|X c k h]; [discriminate|discriminate|].
    destruct c as [l m|l|X c].
    - destruct Hv as [(-> & -> & Hv)|(_ & ? & _)]; [|discriminate].
      rewrite pstep_next, (acq_again i n s Hh) in Hp. injection Hp as <- <-. split; [exact Hs|]. left. exists (S n). split; [exact Hv|].
      unfold held_by. simpl. apply lookup_insert.
    - destruct Hv as [(-> & Hv)|(_ & ? & _)]; [|discriminate]. destruct n as [|n].
      + rewrite pstep_next, (rel_leave i s Hh) in Hp. injection Hp as <- <-. split; [exact Hs|]. right. split; [exact Hv|]. apply lookup_delete.
      + rewrite pstep_next, (rel_less i n s Hh) in Hp. injection Hp as <- <-. split; [exact Hs|]. left. exists n. split; [exact Hv|].
        unfold held_by. simpl. apply lookup_insert.
    - destruct s as [d lk]. cbn [dat] in Hs. rewrite pstep_next, exec_op in Hp. cbn [fst snd] in Hp.
      destruct Hv as [(x & Hx & Hv)|[(Hi & Hk & He)|(? & _)]]; [| |discriminate].
      + rewrite (Hx d Hs) in Hp. injection Hp as <- <-. split; [exact Hs|]. left. exists n. split; [exact Hv|exact Hh].
      + destruct (next _ k h) as [p1|] eqn:En; [|discriminate]. injection Hp as -> <-.
        split; [apply (keep _ c d (or_introl Hi) Hs)|]. left. exists n. split; [|exact Hh].
        destruct (fst (cexec c d)) as [x|e|]; [| |discriminate]; injection En as <-; auto.
  Qed.
  Lemma held_not_free i n s : held_by i n s -> lks s !! L <> None.
  Proof. unfold held_by. intros ->. discriminate. Qed.

  Lemma sim_step {A} (ps : list (prog C A)) s qs t j ps' s' : sim ps s qs t -> cstep j (ps, s) = Some (ps', s') ->
    exists sch qs' t', atomic_run L sch (qs, t) = Some (qs', t') /\ sim ps' s' qs' t'.
  Proof.
    intros Hsim Hc. unfold cstep in Hc. cbn [fst snd] in Hc. destruct (ps !! j) as [pj|] eqn:Ej; [|discriminate].
    destruct (pstep j pj s) as [[pj' sj]|] eqn:Ep; [|discriminate]. injection Hc as <- <-.
    destruct Hsim as [ps s Hl Hs Hf|i n p q qs s t Hh Hs Ht Hf Hq Hw Hpt|i n p q ps s t Hh Hs Ht Hw Hq Hf Hfin].
    - (* nobody is in a section *)
      pose proof (Forall_lookup_1 _ _ _ _ Hf Ej) as Hwj. pose proof (wf_inv _ _ _ Hwj) as Hv.
      destruct pj as [a|e|X c k h]; [discriminate|discriminate|]. destruct c as [l m|l|X c].
      + destruct Hv as (-> & -> & Hv). exists [], ps, s. split; [reflexivity|].
        assert (Hx : pj' = k tt /\ sj = mkst (dat s) (<[L := Excl j 1]> (lks s))).
        { simpl in Ep. unfold lock_acq in Ep. rewrite Hl in Ep. injection Ep as <- <-. auto. }
        destruct Hx as [-> ->].
        assert (Hh : held_by j 0 (mkst (dat s) (<[L := Excl j 1]> (lks s)))) by (unfold held_by; simpl; apply lookup_insert).
        eapply sim_early; [exact Hh|exact Hs|exact Hl|exact Hf|exact Ej|exact Hv|].
        eapply part_one; [reflexivity|exact Hs|exact Ep|eapply held_not_free, Hh].
      + destruct Hv.
      + destruct (outer_cmd j X c k h s pj' sj Hwj Hs Ep) as (Ho & -> & Hn & Hw').
        exists [j], (<[j:=pj']> ps), (snd (exec j (Op c) s)).
        split; [apply run_one with (p := Act (Op c) k h); [exact Ej|apply big_outer; assumption]|].
        apply sim_free; [rewrite outer_locks; exact Hl|apply outer_St; assumption|].
        apply Forall_insert; assumption.
    - destruct (decide (j = i)) as [->|Hne].
      + (* the holder moves *)
        rewrite list_lookup_insert in Ej by (eapply lookup_lt_Some, Hq). injection Ej as <-.
        destruct (early_step i n p s pj' sj Hw Hh Hs Ep) as (Hs' & [(X & c & k & h & -> & Hm & [(n' & Hw' & Hh')|(Hw' & Hl')])|(Hw' & Hh')]).
        * exists [], qs, t. split; [reflexivity|]. rewrite list_insert_insert.
          eapply sim_early; [exact Hh'|exact Hs'|exact Ht|exact Hf|exact Hq|exact Hw'|].
          eapply part_step; [exact Hpt|exact Hs|reflexivity|exact Hm|exact Ep|eapply held_not_free, Hh'].
        * exists [i], (<[i:=pj']> qs), sj. split.
          -- apply run_one with (p := q); [exact Hq|]. rewrite (part_big i q t _ s Hpt).
             rewrite (finish_next i c k h s _ Hh). rewrite pstep_next in Ep.
             destruct (next _ k h) as [p1|]; [|discriminate]. injection Ep as -> <-. apply finish_free, Hl'.
          -- rewrite list_insert_insert. apply sim_free; [exact Hl'|exact Hs'|]. apply Forall_insert; assumption.
        * destruct (finish_late i pj' n sj Hw' Hh' Hs') as (q' & t' & F1 & F2 & F3 & F4 & _).
          exists [i], (<[i:=q']> qs), t'. split.
          -- apply run_one with (p := q); [exact Hq|]. rewrite (part_big i q t _ s Hpt). rewrite <- F1.
             destruct p as [a|e|X c k h]; [discriminate|discriminate|].
             rewrite (finish_next i c k h s _ Hh). rewrite pstep_next in Ep.
             destruct (next _ k h) as [p1|]; [|discriminate]. injection Ep as -> <-. reflexivity.
          -- rewrite list_insert_insert.
             replace (<[i:=q']> qs) with (<[i:=q']> (<[i:=pj']> qs)) by apply list_insert_insert.
             eapply sim_late; [exact Hh'|exact Hs'|exact F3|exact Hw'| | |exact F1].
             ++ apply list_lookup_insert. eapply lookup_lt_Some, Hq.
             ++ rewrite list_insert_insert. apply Forall_insert; assumption.
      + (* somebody else moves *)
        rewrite list_lookup_insert_ne in Ej by auto. pose proof (Forall_lookup_1 _ _ _ _ Hf Ej) as Hwj.
        destruct (outer_step i n j pj s pj' sj Hwj Hs Hh (not_eq_sym Hne) Ep) as (X & c & k & h & -> & Ho & -> & Hn & Hw').
        destruct (part_swap i j c q t p s Ho Hpt) as [E1 E2].
        exists [j], (<[j:=pj']> qs), (snd (exec j (Op c) t)). split.
        * apply run_one with (p := Act (Op c) k h); [exact Ej|]. apply big_outer; [exact Ht|]. rewrite E1. exact Hn.
        * rewrite list_insert_commute by auto.
          eapply sim_early; [|apply outer_St; assumption| | | |exact Hw|exact E2].
          -- unfold held_by. rewrite outer_locks. exact Hh.
          -- rewrite outer_locks. exact Ht.
          -- apply Forall_insert; assumption.
          -- rewrite list_lookup_insert_ne by auto. exact Hq.
    - destruct (decide (j = i)) as [->|Hne].
      + rewrite Hq in Ej. injection Ej as <-. exists [], (<[i:=q]> ps), t. split; [reflexivity|].
        assert (Hfin' : finish L i pj' sj = Some (q, t)).
        { rewrite <- Hfin. destruct p as [a|e|X c k h]; [discriminate|discriminate|].
          rewrite (finish_next i c k h s _ Hh). rewrite pstep_next in Ep.
          destruct (next _ k h) as [p1|]; [|discriminate]. injection Ep as -> <-. reflexivity. }
        destruct (late_step i n p s pj' sj Hw Hh Hs Ep) as (Hs' & [(n' & Hw' & Hh')|(Hw' & Hl')]).
        * replace (<[i:=q]> ps) with (<[i:=q]> (<[i:=pj']> ps)) by apply list_insert_insert.
          eapply sim_late; [exact Hh'|exact Hs'|exact Ht|exact Hw'| | |exact Hfin'].
          -- apply list_lookup_insert. eapply lookup_lt_Some, Hq.
          -- rewrite list_insert_insert. exact Hf.
        * rewrite (finish_free i pj' sj Hl') in Hfin'. injection Hfin' as -> ->. apply sim_free; assumption.
      + assert (Hwj : wfp Out pj).
        { apply (Forall_lookup_1 _ _ j _ Hf). rewrite list_lookup_insert_ne by auto. exact Ej. }
        destruct (outer_step i n j pj s pj' sj Hwj Hs Hh (not_eq_sym Hne) Ep) as (X & c & k & h & -> & Ho & -> & Hn & Hw').
        destruct (finish_late i p n s Hw Hh Hs) as (q' & t' & F1 & F2 & F3 & F4 & F5).
        rewrite Hfin in F1. injection F1 as <- <-. destruct (F5 X j c Ho) as [E1 E2].
        exists [j], (<[j:=pj']> (<[i:=q]> ps)), (snd (exec j (Op c) t)). split.
        * apply run_one with (p := Act (Op c) k h); [rewrite list_lookup_insert_ne by auto; exact Ej|].
          apply big_outer; [exact Ht|]. rewrite E2. exact Hn.
        * rewrite list_insert_commute by auto.
          eapply sim_late; [|apply outer_St; assumption| |exact Hw| | |exact E1].
          -- unfold held_by. rewrite outer_locks. exact Hh.
          -- rewrite outer_locks. exact Ht.
          -- rewrite list_lookup_insert_ne by auto. exact Hq.
          -- rewrite list_insert_commute by auto. apply Forall_insert; assumption.
  Qed.

  Lemma sim_sched {A} sch : forall (ps : list (prog C A)) s qs t ps' s', sim ps s qs t -> sched_run sch (ps, s) = Some (ps', s') ->
    exists sch' qs' t', atomic_run L sch' (qs, t) = Some (qs', t') /\ sim ps' s' qs' t'.
  Proof.
    induction sch as [|j sch IH]; intros ps s qs t ps' s' Hsim Hr; simpl in Hr.
    - injection Hr as <- <-. exists [], qs, t. auto.
    - destruct (cstep j (ps, s)) as [[ps1 s1]|] eqn:Ec; [|discriminate].
      destruct (sim_step ps s qs t j ps1 s1 Hsim Ec) as (sch1 & qs1 & t1 & R1 & Hsim1).
      destruct (IH ps1 s1 qs1 t1 ps' s' Hsim1 Hr) as (sch2 & qs2 & t2 & R2 & Hsim2).
      exists (sch1 ++ sch2), qs2, t2. split; [|exact Hsim2]. rewrite (atomic_app L sch1 sch2 _ _ R1). exact R2.
  Qed.

  (** Every execution, looked at when the lock is free. *)
  Theorem sections_atomic {A} sch (ps : list (prog C A)) s ps' s' :
    lks s !! L = None -> St (dat s) -> Forall (wfp Out) ps ->
    sched_run sch (ps, s) = Some (ps', s') -> lks s' !! L = None ->
    exists sch', atomic_run L sch' (ps, s) = Some (ps', s').
  Proof.
    intros Hl Hs Hf Hr Hl'. destruct (sim_sched sch ps s ps s ps' s' (sim_free ps s Hl Hs Hf) Hr) as (sch' & qs & t & R & Hsim).
    exists sch'. rewrite R. destruct Hsim as [|i n p q qs s' t Hh|i n p q ps' s' t Hh]; [reflexivity| |];
      exfalso; exact (held_not_free _ _ _ Hh Hl').
  Qed.
  (** When all threads have finished, the lock is free. *)
  Lemma finished_free {A} sch (ps : list (prog C A)) s ps' s' :
    lks s !! L = None -> St (dat s) -> Forall (wfp Out) ps ->
    sched_run sch (ps, s) = Some (ps', s') -> Forall (fun p => finished p = true) ps' -> lks s' !! L = None.
  Proof.
    intros Hl Hs Hf Hr Hd. destruct (sim_sched sch ps s ps s ps' s' (sim_free ps s Hl Hs Hf) Hr) as (sch' & qs & t & R & Hsim).
    destruct Hsim as [ps' s' Hl'|i n p q qs s' t Hh Hs' Ht Hf' Hq Hw Hpt|i n p q ps' s' t Hh Hs' Ht Hw Hq Hf' Hfin].
    - exact Hl'.
    - exfalso. assert (E : <[i:=p]> qs !! i = Some p) by (apply list_lookup_insert; eapply lookup_lt_Some, Hq).
      pose proof (Forall_lookup_1 _ _ _ _ Hd E) as Hp. pose proof (wf_inv _ _ _ Hw) as Hv. destruct p; discriminate.
    - exfalso. pose proof (Forall_lookup_1 _ _ _ _ Hd Hq) as Hp. pose proof (wf_inv _ _ _ Hw) as Hv. destruct p; discriminate.
  Qed.
End Sections.

(** * Accounts of what the threads did

    Events are attached to the steps of the coarse execution. *)
Section Account.
  Context {C : Type -> Type} {D : Type} `{!Sem C D}.
  Variable L : nat.
  Hypothesis L_reent : reent L = true.
  Variable St : D -> Prop.
  Variable inc outc : forall X, C X -> Prop.
  Hypothesis keep : forall X (c : C X) d, inc X c \/ outc X c -> St d -> St (snd (cexec c d)).
  Hypothesis inc_moves : forall X (c : C X) d, inc X c -> St d -> fst (cexec c d) <> Block.
  Hypothesis commute : forall X Y (c : C X) (c' : C Y) d, inc X c -> outc Y c' -> St d ->
    fst (cexec c (snd (cexec c' d))) = fst (cexec c d) /\
    fst (cexec c' (snd (cexec c d))) = fst (cexec c' d) /\
    snd (cexec c (snd (cexec c' d))) = snd (cexec c' (snd (cexec c d))).
  Notation wfp := (wf L St inc outc (eq Out)).
  Notation finish := (finish L).
  Notation big_step := (big_step L).
  Notation held_by := (held_by L).

  (** Contexts that follow the commands of a program. *)
  Definition ctx {A B} (F : prog C A -> prog C B) : Prop :=
    forall X (c : cmd C X) k h, F (Act c k h) = Act c (fun x => F (k x)) (fun e => F (h e)).
  Lemma ctx_bind {A B} (f : A -> prog C B) : ctx (fun p => bind p f).
  Proof. intros X c k h. reflexivity. Qed.
  Lemma ctx_attempt {A} : ctx (@attempt C A).
  Proof. intros X c k h. reflexivity. Qed.

  Lemma step_in {A} i n b (p : prog C A) s p' s' : wfp (In n b) p -> held_by i n s -> St (dat s) -> pstep i p s = Some (p', s') ->
    St (dat s') /\ ((exists n' b', wfp (In n' b') p' /\ held_by i n' s') \/ (wfp Out p' /\ lks s' !! L = None)).
  Proof.
    intros Hw Hh Hs Hp. destruct b.
    - destruct (late_step L L_reent St inc outc keep i n p s p' s' Hw Hh Hs Hp) as (H & [(n' & H1 & H2)|H1]); split; eauto.
    - destruct (early_step L L_reent St inc outc keep i n p s p' s' Hw Hh Hs Hp) as (H & [(X & c & k & h & _ & _ & [(n' & H1 & H2)|H1])|[H1 H2]]); split; eauto.
  Qed.
  Lemma finish_ctx {A B} (F : prog C A -> prog C B) i p : ctx F -> forall n b s, wfp (In n b) p -> held_by i n s -> St (dat s) ->
    match finish i p s with
    | Some (q, t) => finish i (F p) s = Some (F q, t) /\ wfp Out q /\ lks t !! L = None
    | None => True
    end.
  Proof.
    intros HF. induction p as [a|e|X c k IHk h IHh]; intros n b s Hw Hh Hs.
    - pose proof (wf_inv _ _ _ _ _ _ _ Hw) as Hv. discriminate.
    - pose proof (wf_inv _ _ _ _ _ _ _ Hw) as Hv. discriminate.
    - rewrite HF, !(finish_next L i c _ _ s _ Hh).
      destruct (fst (exec i c s)) as [x|e|] eqn:E; cbn [next]; [| |exact Logic.I].
      + assert (Hp : pstep i (Act c k h) s = Some (k x, snd (exec i c s))) by (rewrite pstep_next, E; reflexivity).
        destruct (step_in i n b _ s _ _ Hw Hh Hs Hp) as (Hs' & [(n' & b' & Hw' & Hh')|(Hw' & Hl')]).
        * apply (IHk x n' b' _ Hw' Hh' Hs').
        * rewrite !finish_free by exact Hl'. auto.
      + assert (Hp : pstep i (Act c k h) s = Some (h e, snd (exec i c s))) by (rewrite pstep_next, E; reflexivity).
        destruct (step_in i n b _ s _ _ Hw Hh Hs Hp) as (Hs' & [(n' & b' & Hw' & Hh')|(Hw' & Hl')]).
        * apply (IHh e n' b' _ Hw' Hh' Hs').
        * rewrite !finish_free by exact Hl'. auto.
  Qed.
  Lemma big_ctx {A B} (F : prog C A -> prog C B) i p s q t : ctx F -> wfp Out p -> lks s !! L = None -> St (dat s) ->
    big_step i p s = Some (q, t) -> big_step i (F p) s = Some (F q, t) /\ wfp Out q.
  Proof.
    intros HF Hw Hl Hs. unfold Sections.big_step. destruct p as [a|e|X c k h]; [discriminate|discriminate|].
    rewrite HF, !pstep_next. pose proof (wf_inv _ _ _ _ _ _ _ Hw) as Hv. destruct c as [l m|l|X c].
    - destruct Hv as (-> & -> & Hv).
      assert (Ex : exec (C:=C) i (Acq L Ex) s = (Good tt, mkst (dat s) (<[L := Excl i 1]> (lks s)))).
      { destruct s as [d lk]. simpl in *. unfold lock_acq. rewrite Hl. reflexivity. }
      rewrite Ex. cbn [fst snd next]. intros H.
      pose proof (finish_ctx F i (k tt) HF 0 false (mkst (dat s) (<[L := Excl i 1]> (lks s))) Hv) as Hf. rewrite H in Hf.
      destruct Hf as (H1 & H2 & _); [unfold Sections.held_by; simpl; apply lookup_insert|exact Hs|]. auto.
    - destruct Hv.
    - assert (Hl' : lks (snd (exec i (Op c) s)) !! L = None) by (destruct s as [d lk]; rewrite exec_op; exact Hl).
      destruct (fst (exec i (Op c) s)) as [x|e|] eqn:Ef; cbn [next]; [| |discriminate]; rewrite !finish_free by exact Hl'; intros H; injection H as <- <-;
        (split; [reflexivity|]); destruct s as [d lk]; rewrite exec_op in Ef; cbn [fst] in Ef.
      + destruct Hv as [(y & Hy & Hk)|(_ & Hk & _)]; [|apply Hk]. rewrite (Hy d Hs) in Ef. injection Ef as <-. exact Hk.
      + destruct Hv as [(y & Hy & Hk)|(_ & _ & Hk)]; [|apply Hk]. rewrite (Hy d Hs) in Ef. discriminate.
  Qed.

  (** ** Events *)
  Context {Ev V : Type}.
  Variable view : D -> V.
  Variable moves : list Ev -> V -> V -> Prop.
  Hypothesis moves_nil : forall v, moves [] v v.
  Hypothesis moves_app : forall e1 e2 v1 v2 v3, moves e1 v1 v2 -> moves e2 v2 v3 -> moves (e1 ++ e2) v1 v3.
  Variable J : D -> Prop.
  Hypothesis J_St : forall d, J d -> St d.
  Notation free := (stdpp.base.empty : locks).

  (** Whatever the other threads do, [p] goes on for [N] coarse steps or ends before, and
      then the events and the outcome satisfy [R]. *)
  Fixpoint led {A} (N : nat) (R : list Ev -> outcome A -> Prop) (p : prog C A) : Prop :=
    match N with
    | O => True
    | S N' =>
        match p with
        | Ret a => R [] (Good a)
        | Raise e => R [] (Fail e)
        | Act _ _ _ => forall i d, J d -> exists p' d' es, big_step i p (mkst d free) = Some (p', mkst d' free) /\ J d' /\
                       moves es (view d) (view d') /\ led N' (fun es' r => R (es ++ es') r) p'
        end
    end.
  Lemma led_more {A} N : forall (R R' : list Ev -> outcome A -> Prop) p, (forall es r, R es r -> R' es r) -> led N R p -> led N R' p.
  Proof.
    induction N as [|N IH]; intros R R' p HR H; [exact Logic.I|]. destruct p as [a|e|X c k h]; [apply HR, H|apply HR, H|].
    intros i d Hd. destruct (H i d Hd) as (p' & d' & es & E & Hd' & Hm & Hl). exists p', d', es.
    split; [exact E|]. split; [exact Hd'|]. split; [exact Hm|]. eapply IH; [|exact Hl]. intros es' r. apply HR.
  Qed.
  Lemma led_ctx {A B} (F : prog C A -> prog C B) N : ctx F -> forall (R : list Ev -> outcome A -> Prop) (R' : list Ev -> outcome B -> Prop) p,
    wfp Out p -> led N R p ->
    (forall N' es a, R es (Good a) -> led N' (fun es' r => R' (es ++ es') r) (F (Ret a))) ->
    (forall N' es e, R es (Fail e) -> led N' (fun es' r => R' (es ++ es') r) (F (Raise e))) ->
    led N R' (F p).
  Proof.
    intros HF. induction N as [|N IH]; intros R R' p Hw H Hg Hb; [exact Logic.I|].
    destruct p as [a|e|X c k h].
    - apply (Hg (S N) [] a H).
    - apply (Hb (S N) [] e H).
    - pose proof (HF X c k h) as EF. destruct (F (Act c k h)) as [| |Y c' k' h'] eqn:E0; [discriminate|discriminate|].
      intros i d Hd. destruct (H i d Hd) as (p' & d' & es & E & Hd' & Hm & Hl).
      destruct (big_ctx F i _ (mkst d free) _ _ HF Hw (lookup_empty L) (J_St d Hd) E) as [E' Hw']. rewrite E0 in E'.
      exists (F p'), d', es. split; [exact E'|]. split; [exact Hd'|]. split; [exact Hm|].
      eapply IH; [exact Hw'|exact Hl| |].
      + intros N' es' a Ha. eapply led_more; [|apply (Hg N' _ a Ha)]. intros es2 r. simpl. rewrite app_assoc. auto.
      + intros N' es' a Ha. eapply led_more; [|apply (Hb N' _ a Ha)]. intros es2 r. simpl. rewrite app_assoc. auto.
  Qed.
  Lemma led_ret {A} N (R : list Ev -> outcome A -> Prop) (a : A) : R [] (Good a) -> led N R (Ret a).
  Proof. destruct N; [exact (fun _ => Logic.I)|auto]. Qed.
  Lemma led_raise {A} N (R : list Ev -> outcome A -> Prop) e : R [] (Fail e) -> led N R (Raise e : prog C A).
  Proof. destruct N; [exact (fun _ => Logic.I)|auto]. Qed.
  Lemma led_bind {A B} N (p : prog C A) (f : A -> prog C B) (R : list Ev -> outcome A -> Prop) (R' : list Ev -> outcome B -> Prop) :
    wfp Out p -> led N R p -> (forall N' es a, R es (Good a) -> led N' (fun es' r => R' (es ++ es') r) (f a)) ->
    (forall es e, R es (Fail e) -> R' es (Fail e)) -> led N R' (bind p f).
  Proof.
    intros Hw Hp Hg Hb. apply (led_ctx (fun p => bind p f) N (ctx_bind f) R R' p Hw Hp Hg).
    intros N' es e H. apply led_raise. rewrite app_nil_r. auto.
  Qed.
  (** A command outside of sections. *)
  Lemma led_op {A X} N (c : C X) (k : X -> prog C A) h (R : list Ev -> outcome A -> Prop) :
    (forall d, J d -> exists x d' es, cexec c d = (Good x, d') /\ J d' /\ moves es (view d) (view d') /\
       forall N', led N' (fun es' r => R (es ++ es') r) (k x)) -> led N R (Act (Op c) k h).
  Proof.
    intros H. destruct N as [|N]; [exact Logic.I|]. intros i d Hd. destruct (H d Hd) as (x & d' & es & E & Hd' & Hm & Hl).
    exists (k x), d', es. split; [|auto]. unfold Sections.big_step. simpl. rewrite E.
    apply finish_free. apply lookup_empty.
  Qed.

  (** Threads. *)
  Lemma led_thread {X R} (call : X -> prog C R) (acts : X -> outcome R -> list Ev -> Prop) (all3 : list X -> list (outcome R) -> list (list Ev) -> Prop) :
    all3 [] [] [] -> (forall c r es cs rs ess, acts c r es -> all3 cs rs ess -> all3 (c :: cs) (r :: rs) (es :: ess)) ->
    forall cs rs N, Forall (fun c => wfp Out (call c) /\ forall N, led N (fun es r => acts c r es) (call c)) cs ->
    led N (fun es r => exists rs' ess, r = Good (rev rs ++ rs') /\ es = concat ess /\ all3 cs rs' ess)
        (thread_from rs (map call cs)).
  Proof.
    intros Hnil Hcons. induction cs as [|c cs IH]; intros rs N H; simpl.
    - apply led_ret. exists [], []. rewrite app_nil_r. split; [reflexivity|]. split; [reflexivity|exact Hnil].
    - apply List.Forall_cons_iff in H. destruct H as [[Hw Hc] Hcs].
      assert (Hrest : forall r N' es, acts c r es ->
        led N' (fun es' r' => exists rs' ess, r' = Good (rev rs ++ rs') /\ es ++ es' = concat ess /\ all3 (c :: cs) rs' ess)
          (thread_from (r :: rs) (map call cs))).
      { intros r N' es Hr. eapply led_more; [|apply (IH (r :: rs) N' Hcs)]. intros es' r' (rs' & ess & -> & -> & Ha).
        exists (r :: rs'), (es :: ess). simpl. rewrite <- app_assoc. simpl. split; [reflexivity|]. split; [reflexivity|].
        apply Hcons; assumption. }
      apply (led_bind N (attempt (call c)) _ (fun es r => exists r', r = Good r' /\ acts c r' es)).
      + apply wf_attempt, Hw.
      + apply (led_ctx attempt N ctx_attempt (fun es r => acts c r es) _ (call c) Hw (Hc N)).
        * intros N' es a Ha. apply led_ret. exists (Good a). rewrite app_nil_r. auto.
        * intros N' es e Ha. apply led_ret. exists (Fail e). rewrite app_nil_r. auto.
      + intros N' es r (r' & E & Ha). injection E as ->. apply Hrest, Ha.
      + intros es e (r' & E & _). discriminate.
  Qed.

  (** Pools. *)
  Definition tagged (i : nat) (es : list (nat * Ev)) : list Ev := map snd (List.filter (fun e => fst e =? i) es).
  Lemma tagged_app i e1 e2 : tagged i (e1 ++ e2) = tagged i e1 ++ tagged i e2.
  Proof. unfold tagged. rewrite List.filter_app, map_app. reflexivity. Qed.
  Lemma tagged_own i es : tagged i (map (pair i) es) = es.
  Proof. unfold tagged. induction es as [|e es IH]; [reflexivity|]. simpl. rewrite Nat.eqb_refl. simpl. f_equal. exact IH. Qed.
  Lemma tagged_other i j es : i <> j -> tagged j (map (pair i) es) = [].
  Proof. intros H. unfold tagged. induction es as [|e es IH]; [reflexivity|]. simpl. apply Nat.eqb_neq in H. rewrite H. exact IH. Qed.

  Lemma led_less {A} N : forall (R : list Ev -> outcome A -> Prop) p, led (S N) R p -> led N R p.
  Proof.
    induction N as [|N IH]; intros R p H; [exact Logic.I|]. destruct p as [a|e|X c k h]; [exact H|exact H|].
    intros i d Hd. destruct (H i d Hd) as (p' & d' & es & E & Hd' & Hm & Hl). exists p', d', es.
    split; [exact E|]. split; [exact Hd'|]. split; [exact Hm|]. apply IH, Hl.
  Qed.
  Lemma led_run {A} K : forall sch (ps : list (prog C A)) d (R : nat -> list Ev -> outcome A -> Prop) ps' s',
    J d -> (forall i p, ps !! i = Some p -> led (length sch + K) (R i) p) -> atomic_run L sch (ps, mkst d free) = Some (ps', s') ->
    exists d' es, s' = mkst d' free /\ J d' /\ moves (map snd es) (view d) (view d') /\ Forall (fun e => fst e < length ps) es /\
      length ps' = length ps /\
      forall i p, ps' !! i = Some p -> led K (fun es' r => R i (tagged i es ++ es') r) p.
  Proof.
    induction sch as [|j sch IH]; intros ps d R ps' s' Hd Hps Hr; simpl in Hr.
    - injection Hr as <- <-. exists d, []. split; [reflexivity|]. split; [exact Hd|]. split; [apply moves_nil|].
      split; [constructor|]. split; [reflexivity|]. exact Hps.
    - destruct (ps !! j) as [p|] eqn:Ej; [|discriminate].
      destruct (big_step j p (mkst d free)) as [[p1 s1]|] eqn:Eb; [|discriminate].
      assert (Hx : exists d1 es, s1 = mkst d1 free /\ J d1 /\ moves es (view d) (view d1) /\ led (length sch + K) (fun es' r => R j (es ++ es') r) p1).
      { pose proof (Hps j p Ej) as Hp. destruct p as [a|e|X c k h]; [discriminate|discriminate|].
        destruct (Hp j d Hd) as (p' & d' & es & E & Hd' & Hm & Hl). rewrite E in Eb. injection Eb as <- <-. eauto 10. }
      destruct Hx as (d1 & es & -> & Hd1 & Hm & Hl).
      destruct (IH (<[j:=p1]> ps) d1 (fun i es' r => R i (tagged i (map (pair j) es) ++ es') r) ps' s' Hd1) as (d2 & es2 & -> & Hd2 & Hm2 & Hf2 & Hn & Hl2).
      + intros i q Hi. destruct (decide (i = j)) as [->|Hne].
        * rewrite list_lookup_insert in Hi by (eapply lookup_lt_Some, Ej). injection Hi as <-. rewrite tagged_own. exact Hl.
        * rewrite list_lookup_insert_ne in Hi by auto. rewrite tagged_other by auto. apply led_less, (Hps i q Hi).
      + exact Hr.
      + exists d2, (map (pair j) es ++ es2). split; [reflexivity|]. split; [exact Hd2|].
        split; [rewrite map_app, map_map, map_id; eapply moves_app; eassumption|]. rewrite insert_length in Hf2, Hn.
        split; [apply List.Forall_app; split; [|exact Hf2]; apply Forall_map, List.Forall_forall; intros e _; simpl; eapply lookup_lt_Some, Ej|].
        split; [exact Hn|]. intros i q Hi. rewrite tagged_app. eapply led_more; [|apply (Hl2 i q Hi)].
        intros es' r. simpl. rewrite app_assoc. auto.
  Qed.

  (** ** The pool, in terms of its fine executions *)
  Section Pool.
    Context {A : Type}.
    Variables (ps : list (prog C A)) (R : nat -> list Ev -> outcome A -> Prop).
    Hypothesis ps_wf : Forall (wfp Out) ps.
    Hypothesis ps_led : forall i p N, ps !! i = Some p -> led N (R i) p.

    Theorem account sch d ps' s' : J d -> sched_run sch (ps, mkst d free) = Some (ps', s') ->
      Forall (fun p => finished p = true) ps' ->
      exists d' es, s' = mkst d' free /\ J d' /\ moves (map snd es) (view d) (view d') /\ Forall (fun e => fst e < length ps) es /\
        forall i p, ps' !! i = Some p -> exists r, R i (tagged i es) r /\ match r with Good a => p = Ret a | Fail e => p = Raise e | Block => False end.
    Proof.
      intros Hd Hr Hf.
      assert (Hl : lks s' !! L = None).
      { eapply (finished_free L L_reent St inc outc keep inc_moves commute sch ps (mkst d free)); eauto using lookup_empty. }
      destruct (sections_atomic L L_reent St inc outc keep inc_moves commute sch ps (mkst d free) ps' s') as [sch' Hr']; [apply lookup_empty|apply J_St, Hd|exact ps_wf|exact Hr|exact Hl|].
      destruct (led_run 1 sch' ps d R ps' s' Hd) as (d' & es & -> & Hd' & Hm & Hfs & Hn & Hled); [auto|exact Hr'|].
      exists d', es. split; [reflexivity|]. split; [exact Hd'|]. split; [exact Hm|]. split; [exact Hfs|].
      intros i p Hi. specialize (Hled i p Hi). pose proof (Forall_lookup_1 _ _ _ _ Hf Hi) as Hfi.
      destruct p as [a|e|X c k h]; [| |discriminate].
      - exists (Good a). simpl in Hled. rewrite app_nil_r in Hled. auto.
      - exists (Fail e). simpl in Hled. rewrite app_nil_r in Hled. auto.
    Qed.

    (** Somebody can go on. *)
    Theorem account_progress sch d ps' s' : J d -> sched_run sch (ps, mkst d free) = Some (ps', s') ->
      Forall (fun p => finished p = true) ps' \/ exists i, cstep i (ps', s') <> None.
    Proof.
      intros Hd Hr.
      destruct (sim_sched L L_reent St inc outc keep inc_moves commute sch ps (mkst d free) ps (mkst d free) ps' s') as (sch' & qs & t & Hr' & Hsim); [|exact Hr|].
      { apply sim_free; [apply lookup_empty|apply J_St, Hd|exact ps_wf]. }
      destruct (led_run 1 sch' ps d R qs t Hd) as (d' & es & -> & Hd' & Hm & Hfs & Hn & Hled); [auto|exact Hr'|].
      assert (Hgo : forall i (p : prog C A) (s : st D), finish i p s <> None -> lks s !! L <> None -> pstep i p s <> None).
      { intros i p s H1 H2. destruct p as [a|e|X c k h]; simpl in *; (destruct (lks s !! L); [|congruence]); [congruence|congruence|].
        destruct (exec i c s) as [[x|e|] s1]; congruence. }
      assert (Hmove : forall i (p : prog C A) s, ps' !! i = Some p -> s = s' -> pstep i p s <> None -> exists i, cstep i (ps', s') <> None).
      { intros i p s Hi -> H. exists i. unfold cstep. simpl. rewrite Hi. destruct (pstep i p s') as [[p1 s1]|]; [discriminate|congruence]. }
      remember (mkst d' free) as t0 eqn:E0.
      destruct Hsim as [ps' s' Hl Hs Hf|i n p q qs s' t Hh Hs Ht Hf Hq Hw Hpt|i n p q ps' s' t Hh Hs Ht Hw Hq Hf Hfin]; subst.
      - destruct (Forall_Exists_dec (fun p : prog C A => finished p = true) (fun p => bool_dec (finished p) true) ps') as [H|H]; [left; exact H|].
        right. apply Exists_exists in H. destruct H as (p & Hin & Hp). apply elem_of_list_In, elem_of_list_lookup in Hin. destruct Hin as [i Hi].
        specialize (Hled i p Hi). destruct p as [a|e|X c k h]; [exfalso; apply Hp; reflexivity|exfalso; apply Hp; reflexivity|].
        destruct (Hled i d' Hd') as (p' & d2 & es2 & E & _). unfold Sections.big_step in E.
        eapply (Hmove i _ _ Hi eq_refl). destruct (pstep i _ (mkst d' free)) as [[p1 s1]|]; [discriminate|discriminate].
      - right. pose proof (Hled i q Hq) as Hqi.
        assert (Hi : <[i:=p]> qs !! i = Some p) by (apply list_lookup_insert; eapply lookup_lt_Some, Hq).
        eapply (Hmove i p s' Hi eq_refl). apply Hgo; [|eapply held_not_free, Hh].
        rewrite <- (part_big L St inc i q _ p s' Hpt). 
        destruct (part_first L St inc i q _ p s' Hpt) as (k & h & ->).
        destruct (Hqi i d' Hd') as (p' & d2 & es2 & E & _). rewrite E. discriminate.
      - right. eapply (Hmove i p s' Hq eq_refl). apply Hgo; [rewrite Hfin; discriminate|eapply held_not_free, Hh].
    Qed.
  End Pool.
End Account.
