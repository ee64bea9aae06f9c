(** * CountProofs: the counter n_mirrors under any interleaving (lemmas for C81) *)
From stdpp Require Import gmap.
From Coq Require Import List NArith ZArith Bool Arith Lia.
From Verif Require Import PyStr Prog ProgFacts PyIO Base Spec LineBuf Proc ProcSpec ProcRun CountSpec.
Import ListNotations.
Local Open Scope nat_scope.

Definition sets {X} (c : scmd X) : option Z :=
  match c with SP c => match c with PSetN z => Some z | _ => None end | _ => None end.
Definition next_v {X} (c : scmd X) : X -> option Z -> option Z :=
  match c in scmd X return X -> option Z -> option Z with
  | SP c => match c in pcmd X return X -> option Z -> option Z with PN => fun x _ => Some x | _ => fun _ v => v end
  | _ => fun _ v => v
  end.

(** The value stored is one more than the one read ([v]), or one less, or zero. *)
Definition store (v : option Z) (k r : nat) (z : Z) (k' r' : nat) : Prop :=
  (r = S r' /\ k' = k /\ z = 0%Z) \/
  (exists u, v = Some u /\ z = (u + 1)%Z /\ k = S k' /\ r' = r) \/
  (exists u, v = Some u /\ z = (u - 1)%Z /\ r = S r' /\ k' = k).

Lemma next_v_cases {X} (c : scmd X) x : (exists u, forall v, next_v c x v = Some u) \/ (forall v, next_v c x v = v).
Proof. destruct c as [i X c|X c]; [right; reflexivity|]. destruct c; (right; reflexivity) || (left; eexists; reflexivity). Qed.

Section Ctr.
Context {C : Type -> Type} (emb : forall X, C X -> scmd X).
Notation em c := (emb _ c).

(** [ctr v k r p]: the program [p] stores in n_mirrors one more than the number it has read
    before ([v]) exactly [k] times, and one less or zero at most [r] times. *)
Fixpoint ctr {A} (v : option Z) (k r : nat) (p : prog C A) : Prop :=
  match p with
  | Ret _ | Raise _ => k = 0
  | Act c kk h =>
      match c in cmd _ X return (X -> option Z -> nat -> nat -> Prop) -> (exn -> option Z -> nat -> nat -> Prop) -> Prop with
      | Acq _ _ | Rel _ => fun fk fh => fk tt v k r /\ forall e, fh e v k r
      | Op c => fun fk fh =>
          (forall e d d', cexec (em c) d = (Fail e, d') -> fh e v k r) /\
          match sets (em c) with
          | None => forall x, fk x (next_v (em c) x v) k r
          | Some z => forall x, exists k' r', store v k r z k' r' /\ fk x None k' r'
          end
      end (fun x v k r => ctr v k r (kk x)) (fun e v k r => ctr v k r (h e))
  end.

Lemma ctr_more {A} (p : prog C A) : forall v k r r', r <= r' -> ctr None k r p \/ ctr v k r p -> ctr v k r' p.
Proof.
  induction p as [a|e|X c kk IHk h IHh]; intros v k r r' Hr H; [destruct H; exact H|destruct H; exact H|].
  destruct c as [l m|l|X c].
  - simpl in *. split; [eapply IHk; [exact Hr|]; tauto|intros e; eapply IHh; [exact Hr|]; destruct H as [[_ H]|[_ H]]; [left|right]; apply H].
  - simpl in *. split; [eapply IHk; [exact Hr|]; tauto|intros e; eapply IHh; [exact Hr|]; destruct H as [[_ H]|[_ H]]; [left|right]; apply H].
  - cbn [ctr] in *. split.
    + intros e d d' E. eapply IHh; [exact Hr|]. destruct H as [[H _]|[H _]]; [left|right]; eapply H, E.
    + destruct (sets (em c)) as [z|] eqn:Es.
      * intros x. assert (Hx : exists k' r', store v k r z k' r' /\ ctr None k' r' (kk x)).
        { destruct H as [[_ H]|[_ H]]; [|apply H]. destruct (H x) as (k' & r1 & Hs & Hc). exists k', r1. split; [|exact Hc].
          destruct Hs as [Hs|[(u & E & _)|(u & E & _)]]; [left; exact Hs|discriminate|discriminate]. }
        destruct Hx as (k' & r1 & Hs & Hc). exists k', (r1 + (r' - r)). split; [|eapply IHk; [|left; exact Hc]; lia].
        destruct Hs as [(H1 & H2 & H3)|[(u & H1 & H2 & H3 & H4)|(u & H1 & H2 & H3 & H4)]].
        -- left. repeat split; [lia|exact H2|exact H3].
        -- right. left. exists u. repeat split; [exact H1|exact H2|exact H3|lia].
        -- right. right. exists u. repeat split; [exact H1|exact H2|lia|exact H4].
      * intros x. destruct H as [[_ H]|[_ H]]; specialize (H x); [|eapply IHk; [exact Hr|right; exact H]].
        eapply IHk; [exact Hr|]. destruct (next_v_cases (em c) x) as [(u & Hu)|Hu].
        -- rewrite Hu in *. right. exact H.
        -- rewrite Hu in *. left. exact H.
Qed.

(** A small structural induction scheme used for the combinators. *)
Local Ltac ctr_act c x :=
  destruct c as [?l ?m|?l|?X c];
  [ simpl in *; split; [|intros ?e] | simpl in *; split; [|intros ?e]
  | cbn [ctr] in *; split; [intros ?e ?d ?d' ?E|destruct (sets (em c)) as [?z|] eqn:?Es; intros x] ].

Lemma store_add v k r z k' r' k2 r2 : store v k r z k' r' -> store v (k + k2) (r + r2) z (k' + k2) (r' + r2).
Proof.
  intros [(H1 & H2 & H3)|[(u & H1 & H2 & H3 & H4)|(u & H1 & H2 & H3 & H4)]].
  - left. repeat split; [lia|lia|exact H3].
  - right. left. exists u. repeat split; [exact H1|exact H2|lia|lia].
  - right. right. exists u. repeat split; [exact H1|exact H2|lia|lia].
Qed.

Lemma ctr_bind {A B} (p : prog C A) (f : A -> prog C B) : forall v r1 r2,
  ctr v 0 r1 p -> (forall a, ctr None 0 r2 (f a)) -> ctr v 0 (r1 + r2) (bind p f).
Proof.
  induction p as [a|e|X c kk IHk h IHh]; intros v r1 r2 H Hf.
  - simpl. eapply ctr_more; [|left; apply Hf]. lia.
  - reflexivity.
  - cbn [bind]. ctr_act c x.
    + apply IHk; [apply H|exact Hf].
    + apply IHh; [apply H|exact Hf].
    + apply IHk; [apply H|exact Hf].
    + apply IHh; [apply H|exact Hf].
    + apply IHh; [eapply (proj1 H), E|exact Hf].
    + destruct (proj2 H x) as (k' & r' & Hs & Hc). assert (k' = 0) as -> by (destruct Hs as [Hs|[(u & Hs)|(u & Hs)]]; lia).
      exists 0, (r' + r2). split; [exact (store_add _ _ _ _ _ _ 0 r2 Hs)|]. apply IHk; [exact Hc|exact Hf].
    + apply IHk; [apply (proj2 H x)|exact Hf].
Qed.

Lemma ctr_attempt {A B} (p : prog C A) (f : outcome A -> prog C B) : forall v k1 r1 k2 r2,
  ctr v k1 r1 p -> (forall a, ctr None k2 r2 (f a)) -> ctr v (k1 + k2) (r1 + r2) (bind (attempt p) f).
Proof.
  induction p as [a|e|X c kk IHk h IHh]; intros v k1 r1 k2 r2 H Hf.
  - simpl in *. subst k1. eapply ctr_more; [|left; apply Hf]. lia.
  - simpl in *. subst k1. eapply ctr_more; [|left; apply Hf]. lia.
  - cbn [bind attempt]. ctr_act c x.
    + apply IHk; [apply H|exact Hf].
    + apply IHh; [apply H|exact Hf].
    + apply IHk; [apply H|exact Hf].
    + apply IHh; [apply H|exact Hf].
    + apply IHh; [eapply (proj1 H), E|exact Hf].
    + destruct (proj2 H x) as (k' & r' & Hs & Hc).
      exists (k' + k2), (r' + r2). split; [exact (store_add _ _ _ _ _ _ k2 r2 Hs)|]. apply IHk; [exact Hc|exact Hf].
    + apply IHk; [apply (proj2 H x)|exact Hf].
Qed.

Lemma ctr_finally {A} (p : prog C A) (q : prog C unit) : forall v r,
  ctr v 0 r p -> ctr None 0 0 q -> ctr v 0 r (try_finally p q).
Proof.
  induction p as [a|e|X c kk IHk h IHh]; intros v r H Hq.
  - simpl. eapply ctr_more; [|left; apply (ctr_bind _ _ _ 0 0); [exact Hq|reflexivity]]. lia.
  - simpl. eapply ctr_more; [|left; apply (ctr_bind _ _ _ 0 0); [exact Hq|reflexivity]]. lia.
  - cbn [try_finally]. ctr_act c x.
    + apply IHk; [apply H|exact Hq].
    + apply IHh; [apply H|exact Hq].
    + apply IHk; [apply H|exact Hq].
    + apply IHh; [apply H|exact Hq].
    + apply IHh; [eapply (proj1 H), E|exact Hq].
    + destruct (proj2 H x) as (k' & r' & Hs & Hc). assert (k' = 0) as -> by (destruct Hs as [Hs|[(u & Hs)|(u & Hs)]]; lia).
      exists 0, r'. split; [exact Hs|]. apply IHk; [exact Hc|exact Hq].
    + apply IHk; [apply (proj2 H x)|exact Hq].
Qed.
Lemma ctr_with {A} l m (p : prog C A) v r : ctr v 0 r p -> ctr v 0 r (with_lock l m p).
Proof. intros H. simpl. split; [|reflexivity]. apply ctr_finally; [exact H|]. simpl. split; [reflexivity|reflexivity]. Qed.

End Ctr.

(** Programs of mirrors, and of the main buffer's base class, leave the counter alone. *)
Definition EP : forall X, pcmd X -> scmd X := fun X c => SP c.
Definition ES : forall X, scmd X -> scmd X := fun X c => c.
Lemma ctr_lift {A} (p : prog pcmd A) : forall v k r, ctr EP v k r p -> ctr ES v k r (sys_p p).
Proof.
  unfold sys_p. induction p as [a|e|X c kk IHk h IHh]; intros v k r H; [exact H|exact H|].
  destruct c as [l m|l|X c].
  - simpl in *. split; [apply IHk, H|intros e; apply IHh, H].
  - simpl in *. split; [apply IHk, H|intros e; apply IHh, H].
  - cbn [lift lift_cmd ctr] in *. unfold ES, EP in *. split; [intros e d d' E; eapply IHh, (proj1 H), E|].
    destruct (sets (SP c)) as [z|]; intros x; destruct H as [_ H]; specialize (H x).
    + destruct H as (k' & r' & Hs & Hc). exists k', r'. split; [exact Hs|apply IHk, Hc].
    + apply IHk, H.
Qed.
Lemma ctr_mir {A} i (p : prog mcmd A) v : ctr ES v 0 0 (sys_m i p).
Proof.
  unfold sys_m. revert v. induction p as [a|e|X c kk IHk h IHh]; intros v; [reflexivity|reflexivity|].
  destruct c as [l m|l|X c]; simpl; split; intros; try apply IHk; try apply IHh; auto.
Qed.
Lemma ctr_main {A} (p : prog bcmd A) v : ctr EP v 0 0 (on_main p).
Proof.
  unfold on_main. revert v. induction p as [a|e|X c kk IHk h IHh]; intros v; [reflexivity|reflexivity|].
  destruct c as [l m|l|X c]; simpl; split; intros; try apply IHk; try apply IHh; auto.
Qed.
Lemma ctr_op {X} (c : pcmd X) v : sets (SP c) = None -> ctr EP v 0 0 (pop c).
Proof. intros H. unfold op. cbn [ctr]. unfold EP at 2. rewrite H. split; [reflexivity|intros x; reflexivity]. Qed.
Lemma ctr_bind0 {A B} (p : prog pcmd A) (f : A -> prog pcmd B) v r :
  ctr EP v 0 0 p -> (forall a, ctr EP None 0 r (f a)) -> ctr EP v 0 r (bind p f).
Proof. intros H Hf. exact (ctr_bind EP p f v 0 r H Hf). Qed.
Lemma ctr_ret0 {A B} (p : prog pcmd A) (f : A -> B) v r : ctr EP v 0 r p -> ctr EP v 0 r (bind p (fun x => Ret (f x))).
Proof. intros H. replace r with (r + 0) by lia. apply ctr_bind; [exact H|reflexivity]. Qed.

(** The methods. *)
Lemma ctr_check v : ctr EP v 0 1 lp_check_close.
Proof.
  unfold lp_check_close, op. cbn [bind ctr]. split; [intros e d d' E; discriminate|]. intros n. cbn [ctr].
  split; [intros e d d' E; discriminate|]. intros []. exists 0, 0. split.
  - right. right. exists n. auto.
  - cbn [ctr]. split; [intros e d d' E; discriminate|]. intros x. reflexivity.
Qed.
Lemma ctr_receive v : ctr EP v 0 1 lp_receive.
Proof.
  apply ctr_with. apply ctr_bind0; [apply ctr_op; reflexivity|]. intros [s|m|m| | |].
  - apply ctr_ret0. eapply (ctr_more EP _ None 0 0 1); [lia|left; apply ctr_main].
  - apply ctr_bind0; [apply ctr_op; reflexivity|]. intros _. apply ctr_check.
  - apply ctr_ret0. eapply (ctr_more EP _ None 0 0 1); [lia|left; apply ctr_op; reflexivity].
  - apply ctr_check.
  - unfold op. cbn [bind ctr]. split; [intros e d d' E; discriminate|]. intros []. exists 0, 0. split; [left; auto|reflexivity].
  - reflexivity.
Qed.
Lemma ctr_wait fuel : ctr EP None 0 fuel (lp_wait fuel).
Proof.
  induction fuel as [|fuel IH]; [reflexivity|]. cbn [lp_wait]. apply (ctr_bind EP _ _ None 1 fuel); [apply ctr_receive|].
  intros []; [exact IH|reflexivity].
Qed.
Lemma ctr_base c : ctr EP None 0 0 (lp_call (PBase c)).
Proof.
  assert (H : ctr EP None 0 0 (on_main (lb_call c))) by apply ctr_main.
  destruct c; try exact H; cbn [lp_call]; unfold pret.
  - reflexivity.
  - apply ctr_ret0. unfold lp_len. apply ctr_bind0; [apply ctr_op; reflexivity|]. intros ml.
    apply ctr_bind0; [apply ctr_op; reflexivity|]. intros n. apply ctr_bind0; [|reflexivity].
    apply ctr_with. apply ctr_ret0. apply ctr_op; reflexivity.
  - apply ctr_ret0. apply ctr_op; reflexivity.
Qed.
Lemma ctr_reset v : ctr EP v 0 0 lp_reset.
Proof.
  unfold lp_reset. apply ctr_bind0; [apply ctr_op; reflexivity|]. intros n. destruct (0 <? n)%Z; [reflexivity|].
  apply ctr_bind0; [|intros _; apply ctr_op; reflexivity]. apply ctr_with.
  apply ctr_bind0; [apply ctr_op; reflexivity|]. intros _. apply ctr_op; reflexivity.
Qed.
Lemma ctr_s_call c : ctr ES None (gives c) (takes c) (s_call c).
Proof.
  destruct c as [c|i c]; [|apply ctr_mir]. cbn [s_call]. apply ctr_lift.
  destruct c as [c| | | | | |fuel]; cbn [gives takes]; try apply ctr_ret0.
  - apply ctr_base.
  - unfold lp_call, pret, lp_mirror, op. cbn [bind ctr]. split; [intros e d d' E; discriminate|]. intros n. cbn [ctr].
    split; [intros e d d' E; discriminate|]. intros []. exists 0, 0. split; [right; left; exists n; auto|].
    cbn [ctr]. split; [intros e d d' E; discriminate|]. intros x. reflexivity.
  - apply ctr_ret0, ctr_with, ctr_op. reflexivity.
  - apply ctr_ret0, ctr_reset.
  - apply ctr_ret0, ctr_op. reflexivity.
  - apply ctr_ret0, ctr_receive.
  - apply ctr_ret0, ctr_wait.
Qed.
Lemma ctr_thread cs : forall rs, ctr ES None (list_sum (map gives cs)) (list_sum (map takes cs)) (thread_from rs (map s_call cs)).
Proof.
  induction cs as [|c cs IH]; intros rs; [reflexivity|]. cbn [map thread_from list_sum fold_right].
  apply ctr_attempt; [apply ctr_s_call|]. intros a. apply IH.
Qed.

(** ** The pool *)
Record wt := mkwt { wv : option Z; wk : nat; wr : nat }.
Definition sumk (ws : list wt) : Z := Z.of_nat (list_sum (map wk ws)).
Definition sumr (ws : list wt) : Z := Z.of_nat (list_sum (map wr ws)).

Lemma sum_upd (f : wt -> nat) (ws : list wt) i w w' : ws !! i = Some w ->
  list_sum (map f (<[i := w']> ws)) + f w = list_sum (map f ws) + f w'.
Proof.
  revert i. induction ws as [|w0 ws IH]; intros i H; [discriminate|]. destruct i as [|i].
  - injection H as ->. simpl. lia.
  - simpl in *. specialize (IH i H). lia.
Qed.

Section Pool.
  Context {A : Type}.
  Variables (lo hi : Z) (K0 R0 : Z).
  Definition bounded (ws : list wt) (u : Z) : Prop := (lo <= u - sumr ws /\ u + sumk ws <= hi)%Z.
  Definition cinv (c : config (C := scmd) (D := psys) A) : Prop :=
    exists ws, Forall2 (fun p w => ctr ES (wv w) (wk w) (wr w) p) (fst c) ws /\
      bounded ws (s_n (dat (snd c))) /\ (0 < sumr ws -> lo <= - sumr ws /\ sumk ws <= hi)%Z /\
      (forall i w u, ws !! i = Some w -> wv w = Some u -> bounded ws u) /\
      (sumk ws <= K0 /\ sumr ws <= R0 /\ (R0 = 0 -> sumk ws < K0 -> lo < s_n (dat (snd c))))%Z.

  Lemma n_keep {X} (c : scmd X) d o d' : cexec c d = (o, d') -> sets c = None -> s_n d' = s_n d.
  Proof.
    intros E Hs. destruct c as [i X c|X c]; simpl in E.
    - destruct (mexec c (get_menv i d)) as [r e] eqn:Em. injection E as <- <-. reflexivity.
    - destruct c; simpl in E; try discriminate Hs; try (injection E as <- <-; reflexivity).
      + destruct (bexec c (s_main d)) as [r b]. injection E as <- <-. reflexivity.
      + destruct (nth (cur_q d) (s_qs d) []); injection E as <- <-; reflexivity.
  Qed.

  Lemma cinv_same ps s ws i p w q v' s' :
    Forall2 (fun p w => ctr ES (wv w) (wk w) (wr w) p) ps ws -> ps !! i = Some p -> ws !! i = Some w ->
    bounded ws (s_n (dat s)) -> (0 < sumr ws -> lo <= - sumr ws /\ sumk ws <= hi)%Z ->
    (forall i w u, ws !! i = Some w -> wv w = Some u -> bounded ws u) ->
    (sumk ws <= K0 /\ sumr ws <= R0 /\ (R0 = 0 -> sumk ws < K0 -> lo < s_n (dat s)))%Z ->
    ctr ES v' (wk w) (wr w) q -> (v' = wv w \/ v' = Some (s_n (dat s))) -> s_n (dat s') = s_n (dat s) ->
    cinv (<[i := q]> ps, s').
  Proof.
    intros HF Hp Hw Hb H0 Hv HK Hq Hv' Hn. set (w' := mkwt v' (wk w) (wr w)).
    assert (Ek : sumk (<[i := w']> ws) = sumk ws) by (unfold sumk; pose proof (sum_upd wk ws i w w' Hw); simpl in *; lia).
    assert (Er : sumr (<[i := w']> ws) = sumr ws) by (unfold sumr; pose proof (sum_upd wr ws i w w' Hw); simpl in *; lia).
    exists (<[i := w']> ws). cbn [fst snd]. unfold bounded in *. rewrite Ek, Er, Hn.
    split; [apply Forall2_insert; [exact HF|exact Hq]|]. split; [exact Hb|]. split; [exact H0|]. split; [|exact HK].
    intros j x u Hx Hu. destruct (decide (j = i)) as [->|Hne].
    - rewrite list_lookup_insert in Hx by (eapply lookup_lt_Some, Hw). injection Hx as <-. cbn [wv w'] in Hu.
      destruct Hv' as [->| ->]; [eapply Hv; [exact Hw|exact Hu]|]. injection Hu as <-. exact Hb.
    - rewrite list_lookup_insert_ne in Hx by auto. eapply Hv; [exact Hx|exact Hu].
  Qed.

  Lemma cinv_step i c c' : cinv c -> cstep i c = Some c' -> cinv c'.
  Proof.
    intros (ws & HF & Hb & H0 & Hv & HK) E. unfold cstep in E. destruct c as [ps s]. cbn [fst snd] in *.
    destruct (ps !! i) as [p|] eqn:Hp; [|discriminate]. destruct (pstep i p s) as [[q s']|] eqn:Es; [|discriminate]. injection E as <-.
    destruct (Forall2_lookup_l _ _ _ _ _ HF Hp) as (w & Hw & Hc).
    destruct p as [a|e|X c kk h]; [discriminate|discriminate|]. simpl in Es.
    destruct (exec i c s) as [[x|e|] s1] eqn:Ee; [| |discriminate].
    - injection Es as <- <-. destruct c as [l m|l|X c]; cbn [exec] in Ee.
      + destruct (lock_acq (reent l) i l m (lks s)) as [r k]. injection Ee as -> <-. destruct x.
        eapply (cinv_same ps s ws i _ w _ (wv w)); eauto. cbn [ctr] in Hc. apply Hc.
      + destruct (lock_rel i l (lks s)) as [r k]. injection Ee as -> <-. destruct x.
        eapply (cinv_same ps s ws i _ w _ (wv w)); eauto. cbn [ctr] in Hc. apply Hc.
      + destruct (cexec c (dat s)) as [r d'] eqn:Ex. injection Ee as -> <-. cbn [ctr] in Hc. unfold ES in Hc.
        destruct Hc as [_ Hc]. destruct (sets c) as [z|] eqn:Hz.
        * destruct (Hc x) as (k' & r' & Hs & Hq). set (w' := mkwt None k' r').
          pose proof (sum_upd wk ws i w w' Hw) as Ek. pose proof (sum_upd wr ws i w w' Hw) as Er. cbn [wk wr w'] in Ek, Er.
          assert (En : s_n d' = z).
          { destruct c as [j X c|X c]; [discriminate|]. destruct c; try discriminate Hz. injection Hz as ->. simpl in Ex. injection Ex as _ <-. reflexivity. }
          exists (<[i := w']> ws). cbn [fst snd dat]. rewrite En. unfold bounded, sumk, sumr in *.
          split; [apply Forall2_insert; [exact HF|exact Hq]|].
          assert (Hin : forall u, wv w = Some u -> (lo <= u - Z.of_nat (list_sum (map wr ws)) /\ u + Z.of_nat (list_sum (map wk ws)) <= hi)%Z)
            by (intros u Hu; eapply Hv; [exact Hw|exact Hu]).
          assert (Hmono : list_sum (map wk (<[i := w']> ws)) <= list_sum (map wk ws) /\ list_sum (map wr (<[i := w']> ws)) <= list_sum (map wr ws)).
          { destruct Hs as [(H1 & H2 & H3)|[(u & H1 & H2 & H3 & H4)|(u & H1 & H2 & H3 & H4)]]; lia. }
          split; [|split; [|split; [|split; [|split]]]].
          -- destruct Hs as [(H1 & H2 & H3)|[(u & H1 & H2 & H3 & H4)|(u & H1 & H2 & H3 & H4)]].
             ++ lia.
             ++ specialize (Hin u H1). lia.
             ++ specialize (Hin u H1). lia.
          -- lia.
          -- intros j y u Hy Hu. destruct (decide (j = i)) as [->|Hne].
             ++ rewrite list_lookup_insert in Hy by (eapply lookup_lt_Some, Hw). injection Hy as <-. discriminate.
             ++ rewrite list_lookup_insert_ne in Hy by auto. specialize (Hv _ _ _ Hy Hu). lia.
          -- lia.
          -- lia.
          -- intros HR HKK. destruct Hs as [(H1 & H2 & H3)|[(u & H1 & H2 & H3 & H4)|(u & H1 & H2 & H3 & H4)]].
             ++ lia.
             ++ specialize (Hin u H1). lia.
             ++ lia.
        * eapply (cinv_same ps s ws i _ w (kk x) (next_v c x (wv w))); eauto.
          -- destruct (next_v_cases c x) as [(u & Hu)|Hu]; [|left; apply Hu]. right. rewrite Hu.
             destruct c as [j X c|X c]; [discriminate (Hu None)|]. destruct c; try discriminate (Hu None). simpl in Ex. injection Ex as <- <-.
             specialize (Hu None). simpl in Hu. symmetry. exact Hu.
          -- cbn [dat]. eapply n_keep; [exact Ex|exact Hz].
    - injection Es as <- <-. destruct c as [l m|l|X c]; cbn [exec] in Ee.
      + destruct (lock_acq (reent l) i l m (lks s)) as [r k]. injection Ee as -> <-.
        eapply (cinv_same ps s ws i _ w _ (wv w)); eauto. cbn [ctr] in Hc. apply Hc.
      + destruct (lock_rel i l (lks s)) as [r k]. injection Ee as -> <-.
        eapply (cinv_same ps s ws i _ w _ (wv w)); eauto. cbn [ctr] in Hc. apply Hc.
      + destruct (cexec c (dat s)) as [r d'] eqn:Ex. injection Ee as -> <-. cbn [ctr] in Hc. unfold ES in Hc.
        eapply (cinv_same ps s ws i _ w _ (wv w)); eauto; [eapply (proj1 Hc), Ex|]. cbn [dat].
        destruct c as [j X c|X c]; [eapply n_keep; [exact Ex|reflexivity]|].
        destruct c; try (eapply n_keep; [exact Ex|reflexivity]). discriminate Ex.
  Qed.

  Lemma cinv_run sch : forall c c', cinv c -> sched_run sch c = Some c' -> cinv c'.
  Proof.
    induction sch as [|i sch IH]; intros c c' H E; simpl in E; [injection E as <-; exact H|].
    destruct (cstep i c) as [c1|] eqn:E1; [|discriminate]. eapply IH; [|exact E]. eapply cinv_step; [exact H|exact E1].
  Qed.
End Pool.

(** ** Summary *)
Lemma cinv_init css s lo hi : let K := Z.of_nat (total gives css) in let R := Z.of_nat (total takes css) in
  (lo <= s_n (dat s) - R)%Z -> (s_n (dat s) + K <= hi)%Z -> (0 < R -> lo <= - R /\ K <= hi)%Z ->
  cinv lo hi K R (sys_pool css, s).
Proof.
  intros K R H1 H2 H3. set (w := fun cs => mkwt None (list_sum (map gives cs)) (list_sum (map takes cs))).
  assert (Hsum : forall f, list_sum (map f (concat css)) = list_sum (map (fun cs => list_sum (map f cs)) css)).
  { intros f. induction css as [|cs l IH]; [reflexivity|]. simpl. rewrite map_app, list_sum_app. simpl in *. f_equal.
    clear -f. induction l as [|cs l IH]; [reflexivity|]. simpl. rewrite map_app, list_sum_app. f_equal. exact IH. }
  exists (map w css). cbn [fst snd]. unfold bounded, sumk, sumr. rewrite !map_map.
  change (fun x => wk (w x)) with (fun cs => list_sum (map gives cs)). change (fun x => wr (w x)) with (fun cs => list_sum (map takes cs)).
  rewrite <- !Hsum. fold (total gives css) (total takes css). fold K R. split; [|split; [lia|split; [exact H3|split]]].
  - unfold sys_pool. clear. induction css as [|cs l IH]; simpl; constructor; [apply ctr_thread|exact IH].
  - intros i x u Hx Hu. apply list_lookup_fmap_Some in Hx. destruct Hx as (cs & _ & ->). discriminate.
  - lia.
Qed.

Lemma count_bounds css sch s ps' s' : sched_run sch (sys_pool css, s) = Some (ps', s') ->
  (Z.min (s_n (dat s)) 0 - Z.of_nat (total takes css) <= s_n (dat s') <= Z.max (s_n (dat s)) 0 + Z.of_nat (total gives css))%Z.
Proof.
  intros E. eapply cinv_run in E; [|apply (cinv_init css s (Z.min (s_n (dat s)) 0 - Z.of_nat (total takes css)) (Z.max (s_n (dat s)) 0 + Z.of_nat (total gives css))); lia].
  destruct E as (ws & _ & Hb & _). unfold bounded, sumk, sumr in Hb. cbn [snd] in Hb. lia.
Qed.

Lemma finished_sumk {A} (ps : list (prog scmd A)) ws : Forall2 (fun p w => ctr ES (wv w) (wk w) (wr w) p) ps ws ->
  (forall p, In p ps -> finished p = true) -> list_sum (map wk ws) = 0.
Proof.
  induction 1 as [|p w ps ws Hc _ IH]; intros Hf; [reflexivity|]. simpl. rewrite IH by (intros q Hq; apply Hf; right; exact Hq).
  specialize (Hf p (or_introl eq_refl)). destruct p; simpl in Hc, Hf; [lia|lia|discriminate].
Qed.

Lemma count_handed css sch s ps' s' : sched_run sch (sys_pool css, s) = Some (ps', s') -> total takes css = 0 ->
  (s_n (dat s) <= s_n (dat s') <= s_n (dat s) + Z.of_nat (total gives css))%Z /\
  ((forall p, In p ps' -> finished p = true) -> 0 < total gives css -> (s_n (dat s) < s_n (dat s'))%Z).
Proof.
  intros E HR. eapply cinv_run in E; [|apply (cinv_init css s (s_n (dat s)) (s_n (dat s) + Z.of_nat (total gives css))); lia].
  destruct E as (ws & HF & Hb & _ & _ & HK & Hr & Hlt). unfold bounded, sumk, sumr in *. cbn [fst snd] in *. split; [lia|].
  intros Hf Hk. pose proof (finished_sumk _ _ HF Hf). lia.
Qed.

(** ** A witness that cannot go on *)
Definition stuckb {C D A} `{!Sem C D} (c : config (C:=C) (D:=D) A) : bool :=
  forallb (fun j => match cstep j c with None => true | _ => false end) (seq 0 (length (fst c))).
Lemma plan_stuck {C D A} `{!Sem C D} turns (c : config (C:=C) (D:=D) A) (Q : config (C:=C) (D:=D) A -> Prop) :
  stuckb (plan turns c) = true -> Q (plan turns c) ->
  exists sch ps' s', sched_run sch c = Some (ps', s') /\ (forall j, cstep j (ps', s') = None) /\ Q (ps', s').
Proof.
  intros H HQ. destruct (plan_sched turns c) as [sch E]. destruct (plan turns c) as [ps' s'].
  exists sch, ps', s'. split; [exact E|]. split; [|exact HQ]. intros j. unfold stuckb in H. rewrite forallb_forall in H.
  destruct (Nat.lt_ge_cases j (length ps')) as [Hj|Hj].
  - specialize (H j). destruct (cstep j (ps', s')); [|reflexivity]. discriminate H. apply in_seq. simpl. lia.
  - unfold cstep. cbn [fst]. rewrite lookup_ge_None_2 by exact Hj. reflexivity.
Qed.
