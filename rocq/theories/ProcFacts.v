(** * ProcFacts: exact sequential behaviour of LineProcMirror *)
From stdpp Require Import gmap.
From Coq Require Import List NArith ZArith Bool Arith Lia.
From Verif Require Import PyStr Prog ProgFacts PyIO Base Spec SpecFacts LineBuf LineBufFacts Locks Held Proc ProcSpec.
Import ListNotations.
Local Open Scope nat_scope.

(** ** The abstract mirror: held text, closed, aggressive, timeout *)
Record amir := mkam { mv : text; mc : bool; mag : bool; mto : option Z }.

Section Spec.
  Variables (qmax : nat) (stopped : bool).

  Definition xput (m : msg) (a : amir) (q : list msg) : outcome unit * amir * list msg :=
    if q_full qmax q then (match mto a with None => Block | Some _ => Fail QueueFull end, a, q)
    else (Good tt, a, q ++ [m]).

  Definition has_break (data : text) : bool := match fst (seg data) with [] => false | _ => true end.

  Definition xbody (data : text) (a : amir) (q : list msg) : outcome nat * amir * list msg :=
    if stopped then (Fail StopIteration, a, q)
    else if mag a then
      match xput (QStr data) a q with
      | (Good _, a', q') => (Good (length data), a', q')
      | (Fail e, a', q') => (Fail e, a', q')
      | (Block, a', q') => (Block, a', q')
      end
    else if has_break data then
      match xput (QStr (mv a ++ data)) a q with
      | (Good _, a', q') => (Good (length data), mkam [] (mc a) (mag a) (mto a), q')
      | (Fail e, a', q') => (Fail e, mkam (mv a ++ data) (mc a) (mag a) (mto a), q')
      | (Block, a', q') => (Block, mkam (mv a ++ data) (mc a) (mag a) (mto a), q')
      end
    else (Good (length data), mkam (mv a ++ data) (mc a) (mag a) (mto a), q).

  Definition xseq {A B} (r : outcome A * amir * list msg)
             (f : A -> amir -> list msg -> outcome B * amir * list msg) : outcome B * amir * list msg :=
    match r with
    | (Good x, a, q) => f x a q
    | (Fail e, a, q) => (Fail e, a, q)
    | (Block, a, q) => (Block, a, q)
    end.

  Definition xwrite (data : text) (a : amir) (q : list msg) : outcome nat * amir * list msg :=
    if mc a then (Fail OSError, a, q) else xbody data a q.
  Definition xnew_line (a : amir) (q : list msg) : outcome unit * amir * list msg :=
    if mc a then (Fail ValueError, a, q)
    else match mv a with
         | [] => (Good tt, a, q)
         | _ => xseq (xbody [LF] a q) (fun _ a q => (Good tt, a, q))
         end.
  Definition xsignal (m : msg) (a : amir) (q : list msg) : outcome unit * amir * list msg :=
    if mc a then (Good tt, a, q)
    else xseq (xnew_line a q) (fun _ a q => xput m a q).
  Definition xclose (exc : option excobj) (a : amir) (q : list msg) : outcome unit * amir * list msg :=
    if mc a then (Good tt, a, q)
    else xseq (xsignal (match exc with None => QClose | Some e => QError (gm_init (GMExc e)) end) a q)
              (fun _ a q => (Good tt, mkam [] true (mag a) (mto a), q)).

  Definition xret {A} (f : A -> mres) (r : outcome A * amir * list msg) : outcome mres * amir * list msg :=
    xseq r (fun x a q => (Good (f x), a, q)).

  Definition xcall (c : mcall) (a : amir) (q : list msg) : outcome mres * amir * list msg :=
    match c with
    | CWrite data => xret MNat (xwrite data a q)
    | CRead size => if mc a then (Fail OSError, a, q)
                    else (Good (MText match size with None => mv a | Some _ => [] end), a, q)
    | CNewLine => xret munit (xnew_line a q)
    | CClear => if mc a then (Fail ValueError, a, q)
                else (Good MUnit, mkam [] false (mag a) (mto a), q)
    | CClose exc => xret munit (xclose exc a q)
    | CFlush => (Good MUnit, a, q)
    | CEof => xret munit (xsignal QClose a q)
    | CError e => xret munit (xsignal (QError (gm_init (GMExc e))) a q)
    | CWarning e => xret munit (xsignal (QWarning (gm_init (GMExc e))) a q)
    | CSendData data => if mc a then (Good MUnit, a, q) else xret munit (xput (QStr data) a q)
    | CClosed => (Good (MBool (mc a)), a, q)
    | CReadable | CWritable => (Good (MBool (negb (mc a))), a, q)
    | CFileno | CSeek => (Fail OSError, a, q)
    | CIsatty | CSeekable => (Good (MBool false), a, q)
    | CSetAggr b => (Good MUnit, mkam (mv a) (mc a) b (mto a), q)
    | CSetTimeout t => (Good MUnit, mkam (mv a) (mc a) (mag a) t, q)
    end.
End Spec.

(** ** The concrete mirror *)

(** [base]: the part of a mirror that its methods never change, plus the lock reference. *)
Record mbase := mkmb { b_ref : option nat; b_has : bool; b_q : nat; b_id : nat; b_cnt : nat }.
Definition mk (b : mbase) (a : amir) : mir :=
  mkmir (fl (mv a) (mc a)) (b_ref b) (mag a) (mto a) (b_has b) (b_q b) (b_id b) (b_cnt b).
(** After the lock was created. *)
Definition il (b : mbase) : mbase :=
  match b_ref b with
  | Some _ => b
  | None => mkmb (Some (lock_no (b_id b) (b_cnt b))) (b_has b) (b_q b) (b_id b) (S (b_cnt b))
  end.
Definition ln (b : mbase) : nat :=
  mlock match b_ref b with Some n => n | None => lock_no (b_id b) (b_cnt b) end.

Lemma il_il b : il (il b) = il b.
Proof. unfold il. destruct (b_ref b) eqn:E; [rewrite E|]; reflexivity. Qed.
Lemma ln_il b : ln (il b) = ln b.
Proof. unfold ln, il. destruct (b_ref b) eqn:E; [rewrite E|]; reflexivity. Qed.
Lemma has_il b : b_has (il b) = b_has b.
Proof. unfold il. destruct (b_ref b); reflexivity. Qed.

Lemma reent_mlock n : reent (mlock n) = true.
Proof.
  unfold reent, mlock. replace (2 * n + 7) with (2 * (n + 3) + 1) by lia.
  rewrite Nat.odd_add, Nat.odd_mul. reflexivity.
Qed.

Lemma allowed_nil l : allowedb [] l Ex = true.
Proof. reflexivity. Qed.
Lemma allowed_again b : allowedb [ln b] (ln b) Ex = true.
Proof.
  unfold allowedb. unfold ln. rewrite reent_mlock. simpl. rewrite Nat.eqb_refl. simpl. apply orb_true_r.
Qed.
Lemma allowed_stl n : allowedb [mlock n] STL Ex = true.
Proof.
  unfold allowedb. replace (forallb _ _) with true; [reflexivity|].
  simpl. symmetry. rewrite andb_true_r. apply Nat.ltb_lt. unfold STL, mlock. lia.
Qed.

Section Mirror.
  Variables (qmax : nat) (state : option bool).
  Notation E b a q := (mkmenv (mk b a) q qmax state).
  Definition stopped_of (b : mbase) : bool := b_has b && match state with Some true => true | _ => false end.

  Lemma hok_lock b a q hs : hok lm_lock (E b a q) hs (Good (ln b)) (E (il b) a q).
  Proof.
    exists hs. split; [|reflexivity]. unfold lm_lock. rewrite hrun_bind, hrun_op. cbn [cexec msem mexec fst snd].
    unfold mk at 1. cbn [e_mir m_ref]. unfold il, ln. destruct (b_ref b) as [n|] eqn:Eb; [simpl; rewrite Eb; reflexivity|].
    reflexivity.
  Qed.

  Lemma hok_with_m {A} (body : prog mcmd A) b a q hs r d' :
    allowedb hs (ln b) Ex = true ->
    hok body (E (il b) a q) (ln b :: hs) r d' -> hok (with_m body) (E b a q) hs r d'.
  Proof. intros Ha Hb. eapply hok_bind; [apply hok_lock|]. apply hok_with; assumption. Qed.

  (** Single commands. *)
  Definition inb (f : sio -> sio) (a : amir) : amir := a.
  Ltac op := eapply hok_op; reflexivity.

  Lemma hok_closed b a q hs : hok (mop MClosed) (E b a q) hs (Good (mc a)) (E b a q).
  Proof. op. Qed.
  Lemma hok_getvalue b v ag to q hs :
    hok (mop MGetvalue) (E b (mkam v false ag to) q) hs (Good v) (E b (mkam v false ag to) q).
  Proof. op. Qed.
  Lemma hok_mwrite b v ag to q hs data :
    hok (mop (MWrite data)) (E b (mkam v false ag to) q) hs (Good (length data)) (E b (mkam (v ++ data) false ag to) q).
  Proof.
    eapply hok_op. cbn [cexec msem mexec]. unfold on_buf, mk. cbn [e_mir m_buf mv mc].
    rewrite sio_write_end. reflexivity.
  Qed.
  Lemma hok_seek_trunc b v ag to q hs {A} (k : prog mcmd A) r d' :
    hok k (E b (mkam [] false ag to) q) hs r d' ->
    hok (bind (mop MSeek0) (fun _ => bind (mop MTruncate0) (fun _ => k))) (E b (mkam v false ag to) q) hs r d'.
  Proof.
    intros H. eapply hok_bind; [op|]. eapply hok_bind; [op|]. exact H.
  Qed.

  Lemma hok_put m b a q hs r a' q' :
    xput qmax m a q = (r, a', q') -> hok (lm_put m) (E b a q) hs r (E b a' q').
  Proof.
    unfold xput. intros H. unfold lm_put. eapply hok_bind; [op|]. eapply hok_op.
    cbn [cexec msem mexec e_q e_qmax]. 
    destruct (q_full qmax q); [|injection H as <- <- <-; reflexivity].
    change (m_timeout (e_mir (E b a q))) with (mto a).
    destruct (mto a); injection H as <- <- <-; reflexivity.
  Qed.

  Lemma xput_a m a q r a' q' : xput qmax m a q = (r, a', q') -> a' = a.
  Proof. unfold xput. destruct (q_full qmax q); intros [= <- <- <-]; reflexivity. Qed.

  Lemma hok_send_data data b v ag to q hs r a' q' : allowedb hs (ln b) Ex = true -> il b = b ->
    xput qmax (QStr data) (mkam v false ag to) q = (r, a', q') ->
    hok (lm_send_data data) (E b (mkam v false ag to) q) hs r (E b a' q').
  Proof.
    intros Ha Hi H. unfold lm_send_data. eapply hok_bind.
    - apply hok_with_m; [exact Ha|]. rewrite Hi. apply hok_closed.
    - cbn [mc]. apply hok_put, H.
  Qed.

  Lemma trigger_break data :
    ((1 <? length (splitlines data)) || ((length (splitlines data) =? 1) && text_eqb (hd [] (splitlines data)) [])
     || is_end_line_break data)%bool = has_break data.
  Proof.
    rewrite splitlines_single. unfold has_break. rewrite is_end_seg. unfold single_break.
    rewrite splitlines_seg. destruct (seg data) as [ls r]. cbn [fst snd].
    destruct ls as [|l ls].
    - destruct r; reflexivity.
    - destruct r as [|c r]; [rewrite !orb_true_r; reflexivity|]. cbn [opt_line].
      rewrite app_length. destruct ls; simpl; rewrite ?orb_true_r; try reflexivity.
  Qed.

  Lemma no_break_lines data : has_break data = false ->
    (data <> [] -> (length (splitlines data) =? 1) = true) /\ (data = [] -> (length (splitlines data) =? 1) = false).
  Proof.
    unfold has_break. intros H. rewrite splitlines_seg. destruct (seg data) as [ls r] eqn:Es. cbn [fst snd] in *.
    destruct ls; [|discriminate]. split.
    - intros Hn. destruct r; [apply seg_nil_nil in Es; congruence|]. reflexivity.
    - intros ->. simpl in Es. injection Es as <-. reflexivity.
  Qed.

  (** [__write], called with the lock held. *)
  Lemma hok_body data b a q r a' q' : il b = b -> mc a = false ->
    xbody qmax (stopped_of b) data a q = (r, a', q') ->
    hok (lm_write_body data) (E b a q) [ln b] r (E b a' q').
  Proof.
    intros Hi Hc H. destruct a as [v c ag to]. cbn [mc] in Hc. subst c. unfold lm_write_body, xbody in *.
    eapply hok_bind; [op|]. unfold stopped_of in H. change (m_has (e_mir (E b (mkam v false ag to) q))) with (b_has b).
    cbn [mag mv mc mto] in H.
    (* the stop flag *)
    assert (Hstop : hok (if b_has b then with_lock STL Ex
              (bind (mop MStTruth) (fun t => bind (if t then mop MStGet else Ret false)
                 (fun c => if c then Raise StopIteration else Ret tt))) else Ret tt)
            (E b (mkam v false ag to) q) [ln b]
            (if (b_has b && match state with Some true => true | _ => false end)%bool then Fail StopIteration else Good tt)
            (E b (mkam v false ag to) q)).
    { destruct (b_has b); [|apply hok_ret]. apply hok_with; [apply allowed_stl|].
      destruct state as [[|]|]; cbn [andb].
      - eapply hok_bind; [op|]. eapply hok_bind; [op|]. apply hok_raise.
      - eapply hok_bind; [op|]. eapply hok_bind; [op|]. apply hok_ret.
      - eapply hok_bind; [op|]. eapply hok_bind; [apply hok_ret|]. apply hok_ret. }
    destruct (b_has b && _)%bool.
    { injection H as <- <- <-. eapply hok_bind_fail. exact Hstop. }
    eapply hok_bind; [exact Hstop|]. clear Hstop. cbv zeta. eapply hok_bind; [op|].
    change (m_aggr (e_mir (E b (mkam v false ag to) q))) with ag.
    destruct ag.
    - destruct (xput qmax (QStr data) _ q) as [[r1 a1] q1] eqn:Ep. pose proof (xput_a _ _ _ _ _ _ Ep). subst a1.
      pose proof (hok_send_data data b v true to q [ln b] _ _ _ (allowed_again b) Hi Ep) as Hs.
      destruct r1; injection H as <- <- <-.
      + eapply hok_bind; [exact Hs|]. apply hok_ret.
      + eapply hok_bind_fail. exact Hs.
      + eapply hok_bind_block. exact Hs.
    - rewrite trigger_break. destruct (has_break data) eqn:Eb.
      + eapply hok_bind; [apply hok_mwrite|]. eapply hok_bind; [apply hok_getvalue|].
        assert (Ep : exists r1 q1, xput qmax (QStr (v ++ data)) (mkam v false false to) q = (r1, mkam v false false to, q1) /\
                 xput qmax (QStr (v ++ data)) (mkam (v ++ data) false false to) q = (r1, mkam (v ++ data) false false to, q1)).
        { unfold xput. cbn [mto]. destruct (q_full qmax q); eauto. }
        destruct Ep as (r1 & q1 & Ep1 & Ep2). rewrite Ep1 in H.
        pose proof (hok_send_data (v ++ data) b _ false to q [ln b] _ _ _ (allowed_again b) Hi Ep2) as Hs.
        destruct r1; injection H as <- <- <-.
        * eapply hok_bind; [exact Hs|]. apply hok_seek_trunc. apply hok_ret.
        * eapply hok_bind_fail. exact Hs.
        * eapply hok_bind_block. exact Hs.
      + injection H as <- <- <-. destruct (no_break_lines data Eb) as [H1 H2].
        destruct data as [|ch data].
        * rewrite H2 by reflexivity. rewrite app_nil_r. apply hok_ret.
        * rewrite H1 by discriminate. apply hok_mwrite.
  Qed.

  Lemma hok_checkc {A} (f : bool -> prog mcmd A) b a q r d' :
    hok (f (mc a)) (E (il b) a q) [] r d' -> hok (bind (with_m (mop MClosed)) f) (E b a q) [] r d'.
  Proof.
    intros H. eapply hok_bind; [|exact H]. apply hok_with_m; [apply allowed_nil|]. apply hok_closed.
  Qed.

  Lemma stopped_il b : stopped_of (il b) = stopped_of b.
  Proof. unfold stopped_of. rewrite has_il. reflexivity. Qed.

  Lemma hok_checkw {A} (f : bool -> prog mcmd A) b a q r d' :
    hok (f (negb (mc a))) (E (il b) a q) [] r d' ->
    hok (bind (with_m (bind (mop MClosed) (fun c => Ret (negb c)))) f) (E b a q) [] r d'.
  Proof.
    intros H. eapply hok_bind; [|exact H]. apply hok_with_m; [apply allowed_nil|].
    eapply hok_bind; [apply hok_closed|apply hok_ret].
  Qed.

  Lemma hok_write data b a q r a' q' :
    xwrite qmax (stopped_of b) data a q = (r, a', q') -> hok (lm_write data) (E b a q) [] r (E (il b) a' q').
  Proof.
    unfold xwrite. intros H. unfold lm_write, lm_writable. apply hok_checkw. destruct (mc a) eqn:Ec; simpl negb; cbv iota.
    - injection H as <- <- <-. apply hok_raise.
    - apply hok_with_m; [apply allowed_nil|]. rewrite il_il, ln_il.
      replace (ln b) with (ln (il b)) by apply ln_il. apply hok_body; [apply il_il|exact Ec|].
      rewrite stopped_il. exact H.
  Qed.

  Lemma hok_new_line b a q r a' q' :
    xnew_line qmax (stopped_of b) a q = (r, a', q') -> hok lm_new_line (E b a q) [] r (E (il b) a' q').
  Proof.
    unfold xnew_line. intros H. apply hok_with_m; [apply allowed_nil|].
    destruct a as [v c ag to]. cbn [mc mv] in H. destruct c.
    - injection H as <- <- <-. eapply hok_bind_fail. op.
    - eapply (hok_bind _ _ _ _ (length v)); [op|]. destruct v as [|ch v].
      + injection H as <- <- <-. apply hok_ret.
      + change (0 <? length (ch :: v)) with true. cbv iota.
        destruct (xbody qmax (stopped_of b) [LF] _ q) as [[r1 a1] q1] eqn:Eb.
        assert (Hb : hok (lm_write_body [LF]) (E (il b) (mkam (ch :: v) false ag to) q) [ln b] r1 (E (il b) a1 q1)).
        { replace (ln b) with (ln (il b)) by apply ln_il. apply hok_body; [apply il_il|reflexivity|].
          rewrite stopped_il. exact Eb. }
        destruct r1; simpl in H; injection H as <- <- <-.
        * eapply hok_bind; [exact Hb|apply hok_ret].
        * eapply hok_bind_fail; exact Hb.
        * eapply hok_bind_block; exact Hb.
  Qed.

  Lemma hok_signal m b a q r a' q' :
    xsignal qmax (stopped_of b) m a q = (r, a', q') -> hok (lm_send_signal m) (E b a q) [] r (E (il b) a' q').
  Proof.
    unfold xsignal. intros H. apply hok_checkc. destruct (mc a).
    - injection H as <- <- <-. apply hok_ret.
    - destruct (xnew_line qmax (stopped_of b) a q) as [[r1 a1] q1] eqn:En.
      assert (Hn : hok lm_new_line (E (il b) a q) [] r1 (E (il b) a1 q1)).
      { rewrite <- (il_il b) at 2. apply hok_new_line. rewrite stopped_il. exact En. }
      destruct r1; simpl in H.
      + eapply hok_bind; [exact Hn|]. apply hok_put, H.
      + injection H as <- <- <-. eapply hok_bind_fail. exact Hn.
      + injection H as <- <- <-. eapply hok_bind_block. exact Hn.
  Qed.

  Lemma xbody_c data a q r a' q' b : xbody qmax b data a q = (r, a', q') -> mc a' = mc a.
  Proof.
    unfold xbody. destruct b; [intros [= <- <- <-]; reflexivity|]. destruct (mag a).
    - destruct (xput _ _ a q) as [[r1 a1] q1] eqn:Ep. apply xput_a in Ep. subst.
      destruct r1; intros [= <- <- <-]; reflexivity.
    - destruct (has_break data); [|intros [= <- <- <-]; reflexivity].
      destruct (xput _ _ a q) as [[r1 a1] q1] eqn:Ep.
      destruct r1; intros [= <- <- <-]; reflexivity.
  Qed.

  Lemma xnew_line_c a q r a' q' b : xnew_line qmax b a q = (r, a', q') -> mc a' = mc a.
  Proof.
    unfold xnew_line. destruct (mc a) eqn:Ec; [intros [= <- <- <-]; exact Ec|].
    destruct (mv a); [intros [= <- <- <-]; exact Ec|].
    destruct (xbody qmax b [LF] a q) as [[r1 a1] q1] eqn:Eb. apply xbody_c in Eb.
    destruct r1; simpl; intros [= <- <- <-]; congruence.
  Qed.

  Lemma xsignal_c m a q r a' q' b : xsignal qmax b m a q = (r, a', q') -> mc a' = mc a.
  Proof.
    unfold xsignal. destruct (mc a) eqn:Ec; [intros [= <- <- <-]; exact Ec|].
    destruct (xnew_line qmax b a q) as [[r1 a1] q1] eqn:Eb. apply xnew_line_c in Eb.
    destruct r1; simpl; [|intros [= <- <- <-]; congruence|intros [= <- <- <-]; congruence].
    intros H. apply xput_a in H. congruence.
  Qed.

  Lemma hok_clear b v ag to q : hok lm_clear (E b (mkam v false ag to) q) [] (Good tt) (E (il b) (mkam [] false ag to) q).
  Proof.
    apply hok_with_m; [apply allowed_nil|]. eapply hok_bind; [op|]. op.
  Qed.

  Lemma hok_close exc b a q r a' q' :
    xclose qmax (stopped_of b) exc a q = (r, a', q') -> hok (lm_close exc) (E b a q) [] r (E (il b) a' q').
  Proof.
    unfold xclose. intros H. apply hok_checkc. destruct (mc a) eqn:Ec.
    - injection H as <- <- <-. apply hok_ret.
    - set (m := match exc with None => QClose | Some e => QError (gm_init (GMExc e)) end) in *.
      destruct (xsignal qmax (stopped_of b) m a q) as [[r1 a1] q1] eqn:Es.
      assert (Hs : hok (match exc with None => lm_send_eof | Some e => lm_send_error e end)
                       (E (il b) a q) [] r1 (E (il b) a1 q1)).
      { replace (match exc with None => lm_send_eof | Some e => lm_send_error e end) with (lm_send_signal m)
          by (subst m; destruct exc; reflexivity).
        rewrite <- (il_il b) at 2. apply hok_signal. rewrite stopped_il. exact Es. }
      pose proof (xsignal_c _ _ _ _ _ _ _ Es) as Hc1. rewrite Ec in Hc1.
      destruct a1 as [v1 c1 ag1 to1]. cbn [mc] in Hc1. subst c1.
      destruct r1; simpl in H; injection H as <- <- <-.
      + eapply hok_bind; [exact Hs|]. eapply hok_bind; [apply hok_clear|].
        rewrite il_il. apply hok_with_m; [apply allowed_nil|]. rewrite il_il. op.
      + eapply hok_bind_fail. exact Hs.
      + eapply hok_bind_block. exact Hs.
  Qed.

  Lemma hok_mret {X} (f : X -> mres) (p : prog mcmd X) b a q (x : outcome X * amir * list msg) r a' q' b' :
    (forall r1 a1 q1, x = (r1, a1, q1) -> hok p (E b a q) [] r1 (E b' a1 q1)) ->
    xret f x = (r, a', q') -> hok (mret f p) (E b a q) [] r (E b' a' q').
  Proof.
    intros H Hx. destruct x as [[r1 a1] q1]. specialize (H _ _ _ eq_refl). unfold xret, xseq in Hx. unfold mret.
    destruct r1; injection Hx as <- <- <-.
    - eapply hok_bind; [exact H|apply hok_ret].
    - eapply hok_bind_fail; exact H.
    - eapply hok_bind_block; exact H.
  Qed.

  Lemma hok_send_data' data b a q r a' q' :
    (if mc a then (Good tt, a, q) else xput qmax (QStr data) a q) = (r, a', q') ->
    hok (lm_send_data data) (E b a q) [] r (E (il b) a' q').
  Proof.
    intros H. apply hok_checkc. destruct (mc a).
    - injection H as <- <- <-. apply hok_ret.
    - apply hok_put, H.
  Qed.

  Theorem lm_call_ok c b a q r a' q' :
    xcall qmax (stopped_of b) c a q = (r, a', q') ->
    hok (lm_call c) (E b a q) [] r (E (if uses_lock c then il b else b) a' q').
  Proof.
    intros H. destruct c; cbn [lm_call xcall uses_lock] in *.
    - eapply hok_mret; [|exact H]. intros. apply hok_write. assumption.
    - assert (Hr : hok (lm_read size) (E b a q) [] (if mc a then Fail OSError else Good match size with None => mv a | Some _ => [] end) (E (il b) a q)).
      { unfold lm_read, lm_readable. apply hok_checkw. destruct a as [v cl ag to]. cbn [mc].
        destruct cl; simpl negb; cbv iota; [apply hok_raise|].
        apply hok_with_m; [apply allowed_nil|]. rewrite il_il. destruct size as [z|].
        - eapply hok_op. cbn. unfold on_buf, sio_read, mk, fl. cbn. rewrite skipn_all.
          rewrite firstn_nil. destruct (z <? 0)%Z; simpl; rewrite Nat.add_0_r; reflexivity.
        - apply hok_getvalue. }
      destruct (mc a); injection H as <- <- <-.
      + eapply hok_bind_fail, Hr.
      + eapply hok_bind; [exact Hr|apply hok_ret].
    - eapply hok_mret; [|exact H]. intros. apply hok_new_line. assumption.
    - destruct a as [v cl ag to]. cbn [mc mag mto] in H. destruct cl; injection H as <- <- <-.
      + eapply hok_bind_fail. apply hok_with_m; [apply allowed_nil|]. eapply hok_bind_fail. op.
      + eapply hok_bind; [apply hok_clear|apply hok_ret].
    - eapply hok_mret; [|exact H]. intros. apply hok_close. assumption.
    - injection H as <- <- <-. eapply hok_bind; [apply hok_with_m; [apply allowed_nil|op]|apply hok_ret].
    - eapply hok_mret; [|exact H]. intros. apply hok_signal. assumption.
    - eapply hok_mret; [|exact H]. intros. apply hok_signal. assumption.
    - eapply hok_mret; [|exact H]. intros. apply hok_signal. assumption.
    - eapply (hok_mret munit _ _ _ _ (if mc a then (Good tt, a, q) else xput qmax (QStr data) a q)).
      + intros. apply hok_send_data'. assumption.
      + destruct (mc a); [|exact H]. exact H.
    - injection H as <- <- <-. eapply hok_bind; [apply hok_with_m; [apply allowed_nil|apply hok_closed]|apply hok_ret].
    - injection H as <- <- <-. eapply hok_bind; [|apply hok_ret].
      apply hok_with_m; [apply allowed_nil|]. eapply hok_bind; [apply hok_closed|apply hok_ret].
    - injection H as <- <- <-. eapply hok_bind; [|apply hok_ret].
      apply hok_with_m; [apply allowed_nil|]. eapply hok_bind; [apply hok_closed|apply hok_ret].
    - injection H as <- <- <-. eapply hok_bind_fail. apply hok_raise.
    - injection H as <- <- <-. eapply hok_bind_fail. apply hok_raise.
    - injection H as <- <- <-. eapply hok_bind; [apply hok_ret|apply hok_ret].
    - injection H as <- <- <-. eapply hok_bind; [apply hok_ret|apply hok_ret].
    - injection H as <- <- <-. eapply hok_bind; [op|apply hok_ret].
    - injection H as <- <- <-. eapply hok_bind; [op|apply hok_ret].
  Qed.
End Mirror.
