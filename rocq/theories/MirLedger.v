(** * MirLedger: proofs of C80 *)
From stdpp Require Import gmap.
From Coq Require Import List NArith ZArith Bool Arith Lia.
From Verif Require Import PyStr Prog ProgFacts PyIO Base Spec SpecFacts LineBuf LineBufConcProofs Held Conc ReentConc Proc ProcSpec
  ProcFacts ProcSeq Sections MirSect MirLedgerSpec.
From Verif Require MirConc.
Import ListNotations.
Local Open Scope prog_scope.
Local Open Scope nat_scope.

Lemma tmoves_app ag stop e1 e2 v1 v2 v3 : tmoves ag stop e1 v1 v2 -> tmoves ag stop e2 v2 v3 -> tmoves ag stop (e1 ++ e2) v1 v3.
Proof. intros H H2. induction H; [exact H2|]. simpl. econstructor; eauto. Qed.
Lemma tmoves_one ag stop e v1 v2 : tmove ag stop e v1 v2 -> tmoves ag stop [e] v1 v2.
Proof. intros H. econstructor; [exact H|constructor]. Qed.

Section Ledger.
  Variables (n : nat) (b : mbase) (ag : bool) (state : option bool).
  Hypothesis b_lock : b_ref b = Some n.
  Notation L := (mlock n).
  Notation free := (stdpp.base.empty : locks).
  Notation E a q := (mkmenv (mk b a) q 0 state).
  Notation stop := (stopped_of state b).
  Definition J (d : menv) : Prop := exists a q, d = E a q /\ mag a = ag.
  Lemma J_St d : J d -> St n d.
  Proof. intros (a & q & -> & _). exact b_lock. Qed.
  Notation led := (led L tview (tmoves ag stop) J).
  Notation wfp := (wf L (St n) inm outm (eq Out)).

  Lemma il_b : il b = b.
  Proof. unfold il. rewrite b_lock. reflexivity. Qed.
  Lemma ln_b : ln b = L.
  Proof. unfold ln. rewrite b_lock. reflexivity. Qed.

  Lemma finish_hsteps {A} P i (p : prog mcmd A) s p' s' : hsteps L P i p s p' s' -> lks s !! L <> None -> finish L i p s = finish L i p' s'.
  Proof.
    induction 1 as [|p s p1 s1 p' s' H1 H2 H3 H4 IH]; intros Hl; [reflexivity|]. rewrite <- (IH H3).
    destruct p as [a|e|X c k h]; simpl in *; [discriminate|discriminate|]. destruct (lks s !! L); [|congruence].
    destruct (exec i c s) as [[x|e|] s2]; [| |discriminate]; injection H1 as <- <-; reflexivity.
  Qed.

  (** One section. *)
  Lemma sect {A} N (R : list tev -> outcome A -> Prop) (body : prog mcmd A) :
    (forall i d, J d -> exists r d' es, r <> Block /\
       hsteps L (fun _ => true) i body (mkst d {[L := Excl i 1]}) (fin r) (mkst d' {[L := Excl i 1]}) /\ J d' /\
       tmoves ag stop es (tview d) (tview d') /\ R es r) ->
    led N R (with_m body).
  Proof.
    intros H. unfold with_m, lm_lock. simpl.
    assert (Hr : forall N' (R' : list tev -> outcome A -> Prop) k h, (forall N', led N' R' (k (Some n))) -> led N' R' (Act (Op MRef) k h)).
    { intros N' R' k h Hk. apply (led_op L tview (tmoves ag stop) J). intros d Hd. exists (Some n), d, [].
      split; [apply ref_const, J_St, Hd|]. split; [exact Hd|]. split; [constructor|]. exact Hk. }
    apply Hr. intros N1. simpl. apply Hr. intros N2. destruct N2 as [|N2]; [exact Logic.I|]. intros i d Hd.
    destruct (H i d Hd) as (r & d' & es & Hb & Hs & Hd' & Hm & HR). exists (fin r), d', es.
    split; [|split; [exact Hd'|split; [exact Hm|]]].
    - unfold big_step. simpl. unfold lock_acq. rewrite lookup_empty. simpl.
      change (<[L:=Excl i 1]> (∅ : locks)) with ({[L := Excl i 1]} : locks).
      rewrite (finish_hsteps _ _ _ _ _ _ (hsteps_try L (fun _ => true) i body (release L) _ _ _ Hs))
        by (simpl; rewrite lookup_singleton; discriminate).
      assert (Hrel : exec (C:=mcmd) i (Rel L) (mkst d' {[L := Excl i 1]}) = (Good tt, mkst d' free)).
      { simpl. unfold lock_rel. rewrite lookup_singleton. rewrite delete_singleton. reflexivity. }
      assert (Hl : lks (mkst d' ({[L := Excl i 1]} : locks)) !! L = Some (Excl i 1)) by apply lookup_singleton.
      destruct r as [x|e|]; [| |congruence]; cbn [fin try_finally release bind].
      + rewrite (finish_next L i (Rel L) _ _ _ _ Hl), Hrel. cbn [fst snd next]. apply finish_free. apply lookup_empty.
      + rewrite (finish_next L i (Rel L) _ _ _ _ Hl), Hrel. cbn [fst snd next]. apply finish_free. apply lookup_empty.
    - destruct r as [x|e|]; [apply led_ret|apply led_raise|congruence]; rewrite app_nil_r; exact HR.
  Qed.
  Lemma hsteps_any {A} P i (p : prog mcmd A) s p' s' : hsteps L P i p s p' s' -> hsteps L (fun _ => true) i p s p' s'.
  Proof. induction 1; [constructor|]. eapply h_step; eauto. Qed.
  Lemma sect_hok {A} N (R : list tev -> outcome A -> Prop) (body : prog mcmd A) :
    (forall c, good L (MirConc.St n) (MirConc.Inv n c) [STL] body) ->
    (forall a q, mag a = ag -> exists r a' q' es, hok body (E a q) [L] r (E a' q') /\ mag a' = ag /\ r <> Block /\
       tmoves ag stop es (tview (E a q)) (tview (E a' q')) /\ R es r) ->
    led N R (with_m body).
  Proof.
    intros Hg H. apply sect. intros i d (a & q & -> & Ha). destruct (H a q Ha) as (r & a' & q' & es & Hk & Ha' & Hb & Hm & HR).
    assert (Hinv : MirConc.Inv n (mc a) (E a q)).
    { split; [unfold MirConc.St; simpl; rewrite b_lock; apply Nat.eqb_refl|]. split; [reflexivity|left; reflexivity]. }
    destruct (Hg (mc a) i (E a q) {[L := Excl i 1]} 0) as (r1 & d1 & Hb1 & Hi1 & Hs); [apply lookup_singleton| |exact Hinv|].
    { intros l [<-|[]]. apply lookup_singleton_ne. apply not_eq_sym, STL_L. }
    assert (Hw : hok (with_m body) (E a q) [] r (E a' q')).
    { apply hok_with_m; [apply allowed_nil|]. rewrite il_b, ln_b. exact Hk. }
    destruct (hok_run i _ _ _ _ Hw) as (k' & Hrun & Hk'). rewrite (Hk' Hb) in Hrun.
    rewrite (MirConc.run_with_m n (mc a) i body _ Hinv) in Hrun.
    rewrite (hsteps_run _ _ i _ _ _ _ (hsteps_try L (MirConc.St n) i body (release L) _ _ _ Hs)) in Hrun.
    assert (Hx : r1 = r /\ d1 = E a' q').
    { destruct r1 as [x|e|]; [| |congruence]; simpl in Hrun; unfold lock_rel in Hrun; rewrite lookup_singleton in Hrun; simpl in Hrun;
        injection Hrun as <- <- _; auto. }
    destruct Hx as [-> ->]. exists r, (E a' q'), es. split; [exact Hb|]. split; [eapply hsteps_any, Hs|].
    split; [exists a', q'; auto|]. auto.
  Qed.

  (** The sections of the calls. *)
  Notation LED := (led_op L tview (tmoves ag stop) J).
  Lemma tview_E a q : tview (E a q) = mkts q (if mc a then [] else mv a) (mc a).
  Proof. destruct a as [v [|] g to]; reflexivity. Qed.
  Lemma is_move a q : tmoves ag stop [TIs (mc a)] (tview (E a q)) (tview (E a q)).
  Proof. apply tmoves_one. rewrite tview_E. apply tm_is. Qed.
  Lemma led_closed N : led N (fun es r => exists c, es = [TIs c] /\ r = Good c) (with_m (mop MClosed)).
  Proof.
    apply sect_hok; [intros c; apply MirConc.good_closed|]. intros a q Ha. exists (Good (mc a)), a, q, [TIs (mc a)].
    split; [apply hok_closed|]. split; [exact Ha|]. split; [discriminate|]. split; [apply is_move|]. eauto.
  Qed.
  Lemma led_open N : led N (fun es r => exists c, es = [TIs c] /\ r = Good (negb c)) (with_m (c <- mop MClosed ;; Ret (negb c))).
  Proof.
    apply sect_hok; [intros c; apply MirConc.good_chk|]. intros a q Ha. exists (Good (negb (mc a))), a, q, [TIs (mc a)].
    split; [eapply hok_bind; [apply hok_closed|apply hok_ret]|]. split; [exact Ha|]. split; [discriminate|]. split; [apply is_move|]. eauto.
  Qed.
  Lemma led_put N m : led N (fun es r => r = Good tt /\ es = [TMsg m]) (lm_put m).
  Proof.
    unfold lm_put. simpl. apply LED. intros d (a & q & -> & Ha). exists (mto a), (E a q), [].
    split; [reflexivity|]. split; [exists a, q; auto|]. split; [constructor|]. intros N1.
    apply LED. intros d (a1 & q1 & -> & Ha1). exists tt, (E a1 (q1 ++ [m])), [TMsg m].
    split; [reflexivity|]. split; [exists a1, (q1 ++ [m]); auto|].
    split; [apply tmoves_one, tm_msg|]. intros N2. apply led_ret. auto.
  Qed.
  Lemma breaks data : has_break data = false <-> no_break data.
  Proof.
    unfold has_break. pose proof (seg_segments data) as H. split.
    - destruct (seg data) as [[|l ls] r]; [|discriminate]. intros _. simpl in H. inversion H; subst; assumption.
    - intros Hn. assert (Hs : segments data [] data) by (constructor; exact Hn). apply segments_iff in Hs. rewrite Hs. reflexivity.
  Qed.
  (** [__write] on an open mirror. *)
  Lemma body_moves data a q : mag a = ag -> mc a = false ->
    exists r a' q', xbody 0 stop data a q = (r, a', q') /\ mag a' = ag /\ mc a' = false /\
    (stop = true /\ r = Fail StopIteration /\ a' = a /\ q' = q \/
     r = Good (length data) /\ tmove ag stop (TText data) (mkts q (mv a) false) (mkts q' (mv a') false)).
  Proof.
    intros Ha Hc. destruct a as [v c g to]. simpl in Ha, Hc. subst. unfold xbody, xput. cbn [mag mv mc mto q_full Nat.ltb Nat.leb andb].
    destruct stop eqn:Es; [eexists _, _, _; split; [reflexivity|]; simpl; auto 10|].
    destruct ag eqn:Eg; [eexists _, _, _; split; [reflexivity|]; simpl; split; [reflexivity|]; split; [reflexivity|]; right; split; [reflexivity|]; apply tm_aggr; auto|].
    destruct (has_break data) eqn:Eb; eexists _, _, _; (split; [reflexivity|]); simpl; (split; [reflexivity|]); (split; [reflexivity|]); right; (split; [reflexivity|]).
    - apply tm_send; auto. intros Hn. apply breaks in Hn. congruence.
    - apply tm_hold; auto. apply breaks, Eb.
  Qed.

  (** [__write] after the mirror was closed by another thread. *)
  Lemma hok_body_closed data v g to q :
    hok (lm_write_body data) (E (mkam v true g to) q) [L]
      (if stop then Fail StopIteration
       else if g then Good (length data)
       else match data with [] => Good 0 | _ => Fail ValueError end) (E (mkam v true g to) q).
  Proof.
    set (a := mkam v true g to). unfold lm_write_body. eapply hok_bind; [eapply hok_op; reflexivity|].
    change (m_has (e_mir (E a q))) with (b_has b).
    assert (Hstop : hok (if b_has b then with_lock STL Ex
              (bind (mop MStTruth) (fun t => bind (if t then mop MStGet else Ret false)
                 (fun c => if c then Raise StopIteration else Ret tt))) else Ret tt)
            (E a q) [L] (if stop then Fail StopIteration else Good tt) (E a q)).
    { unfold stopped_of. destruct (b_has b); [|apply hok_ret]. apply hok_with; [apply allowed_stl|].
      destruct state as [[|]|]; cbn [andb].
      - eapply hok_bind; [eapply hok_op; reflexivity|]. eapply hok_bind; [eapply hok_op; reflexivity|]. apply hok_raise.
      - eapply hok_bind; [eapply hok_op; reflexivity|]. eapply hok_bind; [eapply hok_op; reflexivity|]. apply hok_ret.
      - eapply hok_bind; [eapply hok_op; reflexivity|]. eapply hok_bind; [apply hok_ret|]. apply hok_ret. }
    destruct stop; [eapply hok_bind_fail, Hstop|]. eapply hok_bind; [exact Hstop|]. clear Hstop.
    eapply hok_bind; [eapply hok_op; reflexivity|]. change (m_aggr (e_mir (E a q))) with g. destruct g.
    - eapply hok_bind; [|apply hok_ret]. unfold lm_send_data, lm_closed. eapply hok_bind.
      + apply hok_with_m; [rewrite <- ln_b; apply allowed_again|]. rewrite il_b. apply (hok_closed 0 state b a).
      + apply hok_ret.
    - cbv zeta. rewrite trigger_break. destruct (has_break data) eqn:Eb.
      + destruct data as [|ch data]; [discriminate|]. eapply hok_bind_fail. eapply hok_op. reflexivity.
      + destruct (no_break_lines data Eb) as [H1 H2]. destruct data as [|ch data].
        * rewrite H2 by reflexivity. apply hok_ret.
        * rewrite H1 by discriminate. eapply hok_op. reflexivity.
  Qed.

  Definition nat_res (r : outcome nat) : outcome mres := match r with Good x => Good (MNat x) | Fail e => Fail e | Block => Block end.
  Definition unit_res (r : outcome unit) : outcome mres := match r with Good _ => Good MUnit | Fail e => Fail e | Block => Block end.
  Lemma led_write_body N data : led N (fun es r => acts ag stop (CWrite data) (nat_res r) (TIs false :: es)) (with_m (lm_write_body data)).
  Proof.
    apply sect_hok; [intros c; apply MirConc.good_write_body|]. intros a q Ha. destruct (mc a) eqn:Ec.
    - destruct a as [v c g to]. simpl in Ha, Ec. subst c g.
      pose proof (hok_body_closed data v ag to q) as Hk. pose proof (is_move (mkam v true ag to) q) as Hm. cbn [mc] in Hm.
      destruct stop eqn:Es.
      { exists (Fail StopIteration), (mkam v true ag to), q, []. split; [exact Hk|]. split; [reflexivity|]. split; [discriminate|].
        split; [constructor|]. apply a_write_stop. reflexivity. }
      eexists _, _, _, [TIs true]. split; [exact Hk|].
      split; [reflexivity|]. split; [destruct ag; [discriminate|]; destruct data; discriminate|].
      split; [exact Hm|]. destruct ag eqn:Eg; [apply a_write_late_aggr; reflexivity|].
      destruct data; [apply a_write_late_none; reflexivity|apply a_write_late; [reflexivity|reflexivity|discriminate]].
    - destruct (body_moves data a q Ha Ec) as (r & a' & q' & Ex & Ha' & Ec' & Hr).
      pose proof (hok_body 0 state data b a q r a' q' il_b Ec Ex) as Hk. rewrite ln_b in Hk.
      destruct Hr as [(Es & -> & -> & ->)|(-> & Hm)].
      + exists (Fail StopIteration), a, q, []. split; [exact Hk|]. split; [exact Ha|]. split; [discriminate|]. split; [constructor|].
        apply a_write_stop, Es.
      + exists (Good (length data)), a', q', [TText data]. split; [exact Hk|]. split; [exact Ha'|]. split; [discriminate|].
        split; [|apply a_write]. apply tmoves_one. rewrite !tview_E, Ec, Ec'. exact Hm.
  Qed.
  Lemma led_new_line N : led N (fun es r => a_line stop (unit_res r) es) lm_new_line.
  Proof.
    apply sect_hok; [intros c; apply MirConc.new_line_body|]. intros a q Ha. destruct (mc a) eqn:Ec.
    - exists (Fail ValueError), a, q, [TIs true]. split; [|split; [exact Ha|split; [discriminate|split; [rewrite <- Ec; apply is_move|apply al_shut]]]].
      destruct a as [v c g to]. simpl in Ec. subst c. eapply hok_bind_fail. eapply hok_op. reflexivity.
    - destruct a as [v c g to]. simpl in Ec. subst c. destruct v as [|ch v].
      + exists (Good tt), (mkam [] false g to), q, [TLine]. split; [eapply hok_bind; [eapply hok_op; reflexivity|apply hok_ret]|].
        split; [exact Ha|]. split; [discriminate|]. split; [apply tmoves_one, tm_no_line|apply al_good].
      + destruct (body_moves [LF] (mkam (ch :: v) false g to) q Ha eq_refl) as (r & a' & q' & Ex & Ha' & Ec' & Hr).
        pose proof (hok_body 0 state [LF] b (mkam (ch :: v) false g to) q r a' q' il_b eq_refl Ex) as Hk. rewrite ln_b in Hk.
        destruct Hr as [(Es & -> & -> & ->)|(-> & Hm)].
        * eexists (Fail StopIteration), _, q, [THeld (ch :: v)].
          split; [|split; [exact Ha|split; [discriminate|split; [apply tmoves_one, tm_held|apply al_stop; [exact Es|discriminate]]]]].
          eapply hok_bind; [eapply hok_op; reflexivity|]. eapply hok_bind_fail. exact Hk.
        * exists (Good tt), a', q', [TLine]. split; [eapply hok_bind; [eapply hok_op; reflexivity|]; eapply hok_bind; [exact Hk|apply hok_ret]|].
          split; [exact Ha'|]. split; [discriminate|]. split; [|apply al_good]. apply tmoves_one. rewrite !tview_E, Ec'.
          apply tm_line; [discriminate|exact Hm].
  Qed.
  Lemma led_clear N : led N (fun es r => r = Good tt /\ es = [TDrop] \/ r = Fail ValueError /\ es = [TIs true]) lm_clear.
  Proof.
    apply sect_hok; [intros c; apply MirConc.clear_body|]. intros a q Ha. destruct a as [v c g to]. destruct c.
    - eexists (Fail ValueError), (mkam v true g to), q, [TIs true]. split; [eapply hok_bind_fail, hok_op; reflexivity|].
      split; [exact Ha|]. split; [discriminate|]. split; [apply (is_move (mkam v true g to))|auto].
    - exists (Good tt), (mkam [] false g to), q, [TDrop]. split; [eapply hok_bind; [eapply hok_op; reflexivity|eapply hok_op; reflexivity]|].
      split; [exact Ha|]. split; [discriminate|]. split; [apply tmoves_one, tm_drop|auto].
  Qed.
  Lemma led_shut N : led N (fun es r => r = Good tt /\ es = [TShut]) (with_m (mop MClose)).
  Proof.
    apply sect. intros i d (a & q & -> & Ha). destruct a as [v c g to].
    exists (Good tt), (E (mkam v true g to) q), [TShut]. split; [discriminate|]. split; [|split; [|split; [|auto]]].
    - eapply h_step; [simpl; reflexivity|reflexivity|simpl; rewrite lookup_singleton; discriminate|]. constructor.
    - exists (mkam v true g to), q. auto.
    - apply tmoves_one. rewrite !tview_E. cbn [mc]. apply tm_shut.
  Qed.
  Lemma led_flush N : led N (fun es r => r = Good tt /\ es = []) (with_m (mop MFlush)).
  Proof.
    apply sect_hok; [intros k; apply MirConc.good_flush|]. intros a q Ha. exists (Good tt), a, q, [].
    split; [eapply hok_op; reflexivity|]. split; [exact Ha|]. split; [discriminate|]. split; [constructor|auto].
  Qed.
  Lemma led_read_body N size : led N (fun es r => acts ag stop (CRead size) (match r with Good x => Good (MText x) | Fail e => Fail e | Block => Block end) (TIs false :: es))
    (with_m (match size with None => mop MGetvalue | Some z => mop (MRead z) end)).
  Proof.
    apply sect_hok; [intros k; apply MirConc.good_read_body|]. intros a q Ha. destruct a as [v c g to]. destruct c.
    - exists (Fail ValueError), (mkam v true g to), q, [TIs true].
      split; [destruct size; eapply hok_op; reflexivity|]. split; [exact Ha|]. split; [discriminate|].
      split; [apply (is_move (mkam v true g to))|apply a_read_late].
    - destruct size as [z|].
      + exists (Good []), (mkam v false g to), q, [TIs false]. split.
        * eapply hok_op. cbn. unfold on_buf, sio_read, mk. cbn. rewrite skipn_all.
          rewrite firstn_nil. destruct (z <? 0)%Z; simpl; rewrite Nat.add_0_r; reflexivity.
        * split; [exact Ha|]. split; [discriminate|]. split; [apply (is_move (mkam v false g to))|apply a_read_some].
      + exists (Good v), (mkam v false g to), q, [THeld v]. split; [eapply hok_op; reflexivity|].
        split; [exact Ha|]. split; [discriminate|]. split; [apply tmoves_one, tm_held|apply a_read_all].
  Qed.

  (** The calls. *)
  Lemma BIND {A B} N (p : prog mcmd A) (f : A -> prog mcmd B) (R : list tev -> outcome A -> Prop) (R' : list tev -> outcome B -> Prop) :
    wfp Out p -> led N R p -> (forall N' es a, R es (Good a) -> led N' (fun es' r => R' (es ++ es') r) (f a)) ->
    (forall es e, R es (Fail e) -> R' es (Fail e)) -> led N R' (bind p f).
  Proof. apply (led_bind L (L_reent n) (St n) inm outm (keep n) tview (tmoves ag stop) J J_St). Qed.
  Lemma led_signal N m : led N (fun es r => a_signal stop m (unit_res r) es) (lm_send_signal m).
  Proof.
    unfold lm_send_signal. eapply BIND; [apply wf_check|apply led_closed| |intros es e (c & _ & H); discriminate].
    intros N1 es c (c' & -> & H). injection H as <-. destruct c; [apply led_ret, as_shut|].
    eapply BIND; [apply wf_new_line|apply led_new_line| |].
    - intros N2 es u H. simpl in H. assert (es = [TLine]) as -> by (inversion H; reflexivity).
      eapply led_more; [|apply led_put]. intros es r (-> & ->). apply as_good.
    - intros es e H. apply as_fail, H.
  Qed.
  Lemma led_mret {X} N (f : X -> mres) (p : prog mcmd X) R (R' : list tev -> outcome mres -> Prop) : wfp Out p -> led N R p ->
    (forall es x, R es (Good x) -> R' es (Good (f x))) -> (forall es e, R es (Fail e) -> R' es (Fail e)) -> led N R' (mret f p).
  Proof.
    intros Hw Hp Hg Hb. unfold mret. eapply BIND; [exact Hw|exact Hp| |exact Hb].
    intros N' es a Ha. apply led_ret. rewrite app_nil_r. auto.
  Qed.
  (** As [acts], but a call of close() does not remember that the mirror was shut. *)
  Definition acts0 (c : mcall) (r : outcome mres) (es : list tev) : Prop :=
    acts ag stop c r es \/
    exists exc, c = CClose exc /\ r = Good MUnit /\ es = [TIs false; TIs true; TDrop; TShut].
  Lemma led_call N c : fixed_settings c = true -> led N (fun es r => acts0 c r es) (lm_call c).
  Proof.
    intros Hc. pose proof (wf_call n c Hc) as Hw.
    assert (Hgo : (forall es r, acts ag stop c r es -> acts0 c r es)) by (left; assumption).
    destruct c; try discriminate Hc; cbn [lm_call].
    - (* write *)
      eapply led_more; [apply Hgo|].
      apply (led_mret N MNat (lm_write data) (fun es r => acts ag stop (CWrite data) (nat_res r) es));
        [| |intros es x H; exact H|intros es e H; exact H].
      + unfold lm_write. apply out_bind; [apply wf_open|]. intros [|]; simpl; [apply wf_with_m, wf_write_body|apply wf_raise; reflexivity].
      + unfold lm_write, lm_writable. eapply BIND; [apply wf_open|apply led_open| |intros es e (c & _ & H); discriminate].
        intros N1 es w (c & -> & H). injection H as ->. destruct c; simpl negb; cbv iota; [apply led_raise, a_write_shut|apply led_write_body].
    - (* read *)
      eapply led_more; [apply Hgo|].
      apply (led_mret N MText (lm_read size) (fun es r => acts ag stop (CRead size) (match r with Good x => Good (MText x) | Fail e => Fail e | Block => Block end) es));
        [| |auto|auto].
      + unfold lm_read. apply out_bind; [apply wf_open|]. intros [|]; simpl; [|apply wf_raise; reflexivity].
        apply wf_with_m. destruct size; apply wf_op; exact Logic.I.
      + unfold lm_read, lm_readable. eapply BIND; [apply wf_open|apply led_open| |intros es e (c & _ & H); discriminate].
        intros N1 es w (c & -> & H). injection H as ->. destruct c; simpl negb; cbv iota; [apply led_raise, a_read_shut|apply led_read_body].
    - eapply led_more; [apply Hgo|].
      apply (led_mret N munit lm_new_line _ _ (wf_new_line n) (led_new_line N)); intros es x H; apply a_new_line, H.
    - eapply led_more; [apply Hgo|].
      apply (led_mret N munit lm_clear _ _ (wf_clear n) (led_clear N)); intros es x [(H & ->)|(H & ->)]; try discriminate; [apply a_clear|].
      injection H as ->. apply a_clear_shut.
    - (* close *)
      apply (led_mret N munit (lm_close exc) (fun es r => acts0 (CClose exc) (unit_res r) es)); [| |simpl; auto|simpl; auto].
      + unfold lm_close. apply out_bind; [apply wf_check|]. intros [|]; [apply wf_ret; reflexivity|].
        apply out_bind; [destruct exc; apply wf_signal|]. intros _. apply out_bind; [apply wf_clear|]. intros _.
        apply wf_with_m, wf_op. exact Logic.I.
      + unfold lm_close. eapply BIND; [apply wf_check|apply led_closed| |intros es e (c & _ & H); discriminate].
        intros N1 es c (c' & -> & H). injection H as <-. destruct c; [apply led_ret; left; apply a_close_shut|].
        replace (match exc with None => lm_send_eof | Some e => lm_send_error e end) with (lm_send_signal (end_msg exc)) by (destruct exc; reflexivity).
        eapply BIND; [apply wf_signal|apply led_signal| |intros es e H; left; apply a_close_fail, H].
        intros N2 es u Hes. simpl in Hes.
        eapply BIND; [apply wf_clear|apply led_clear| |].
        * intros N3 es' u' [(_ & ->)|(H & _)]; [|discriminate].
          eapply led_more; [|apply led_shut]. intros es' r (-> & ->). simpl.
          inversion Hes; subst; simpl; [right; exists exc; auto|left; apply a_close].
        * intros es' e [(H & _)|(H & ->)]; [discriminate|]. injection H as ->. left. apply a_close_late, Hes.
    - eapply led_more; [apply Hgo|].
      apply (led_mret N munit lm_flush (fun es r => r = Good tt /\ es = [])); [apply wf_with_m, wf_op; exact Logic.I|apply led_flush| |].
      + intros es x (_ & ->). apply a_flush.
      + intros es e (H & _). discriminate.
    - eapply led_more; [apply Hgo|].
      apply (led_mret N munit lm_send_eof _ _ (wf_signal n QClose) (led_signal N QClose)); intros es x H; apply a_eof, H.
    - eapply led_more; [apply Hgo|].
      apply (led_mret N munit (lm_send_error e) _ _ (wf_signal n _) (led_signal N _)); intros es x H; apply a_error, H.
    - eapply led_more; [apply Hgo|].
      apply (led_mret N munit (lm_send_warning e) _ _ (wf_signal n _) (led_signal N _)); intros es x H; apply a_warning, H.
    - eapply led_more; [apply Hgo|].
      apply (led_mret N munit (lm_send_data data) (fun es r => acts ag stop (CSendData data) (unit_res r) es)); [| |auto|auto].
      + unfold lm_send_data. apply out_bind; [apply wf_check|]. intros [|]; [apply wf_ret; reflexivity|apply wf_put_out].
      + unfold lm_send_data. eapply BIND; [apply wf_check|apply led_closed| |intros es e (c & _ & H); discriminate].
        intros N1 es c (c' & -> & H). injection H as <-. destruct c; [apply led_ret, a_data_shut|].
        eapply led_more; [|apply led_put]. intros es r (-> & ->). apply a_data.
    - eapply led_more; [apply Hgo|].
      apply (led_mret N MBool lm_closed _ _ (wf_check n) (led_closed N)); intros es x (c & -> & H); [injection H as ->; apply a_closed|discriminate].
    - eapply led_more; [apply Hgo|].
      apply (led_mret N MBool lm_readable _ _ (wf_open n) (led_open N)); intros es x (c & -> & H); [injection H as ->; apply a_readable|discriminate].
    - eapply led_more; [apply Hgo|].
      apply (led_mret N MBool lm_writable _ _ (wf_open n) (led_open N)); intros es x (c & -> & H); [injection H as ->; apply a_writable|discriminate].
    - apply led_raise. apply Hgo, a_fileno.
    - apply led_raise. apply Hgo, a_seek.
    - apply led_ret. apply Hgo, a_isatty.
    - apply led_ret. apply Hgo, a_seekable.
  Qed.

  (** A shut mirror is not opened again. *)
  Lemma tmove_shut e v v' : tmove ag stop e v v' -> t_shut v = true -> t_shut v' = true.
  Proof. destruct 1 as [| | | | | |q h v Hh Hm| | |]; simpl; intros; congruence. Qed.
  Lemma shut_no_drop es : forall v v', tmoves ag stop es v v' -> t_shut v = true -> ~ TDrop ∈ es.
  Proof.
    intros v v' H. induction H as [v|e es v1 v2 v3 Hm _ IH]; intros Hs Hin; [inversion Hin|].
    apply elem_of_cons in Hin. destruct Hin as [<-|Hin]; [inversion Hm; subst; discriminate|].
    exact (IH (tmove_shut _ _ _ Hm Hs) Hin).
  Qed.
  Lemma no_bogus es v v' : tmoves ag stop es v v' -> ~ sublist [TIs true; TDrop] es.
  Proof.
    intros H. induction H as [v|e es v1 v2 v3 Hm H IH]; intros Hs; [inversion Hs|].
    inversion Hs as [|x l1 l2 H1|x l1 l2 H1]; subst.
    - inversion Hm; subst. eapply (shut_no_drop _ _ _ H eq_refl).
      apply (sublist_submseteq [TDrop] es) in H1. eapply (elem_of_submseteq [TDrop]); [apply elem_of_list_singleton; reflexivity|exact H1].
    - exact (IH H1).
  Qed.
  Lemma acts_of c r es : ~ sublist [TIs true; TDrop] es -> acts0 c r es -> acts ag stop c r es.
  Proof.
    intros H [Ha|(exc & -> & -> & ->)]; [exact Ha|]. exfalso. apply H.
    apply sublist_cons, sublist_skip, sublist_skip, sublist_nil_l.
  Qed.
End Ledger.

(** ** The pool *)
Lemma all3_in {X Y Z} (P Q : X -> Y -> Z -> Prop) xs ys zs :
  (forall x y z, z ∈ zs -> P x y z -> Q x y z) -> all3 P xs ys zs -> all3 Q xs ys zs.
Proof.
  intros H Ha. induction Ha as [|x y z xs ys zs Hp Ha IH]; constructor.
  - apply H; [apply elem_of_list_here|exact Hp].
  - apply IH. intros x' y' z' Hin. apply H. apply elem_of_list_further, Hin.
Qed.
Lemma sublist_concat {X} (l : list X) ls : l ∈ ls -> sublist l (concat ls).
Proof.
  induction 1 as [l ls|l l' ls H IH]; simpl; [apply sublist_inserts_r; reflexivity|apply sublist_inserts_l, IH].
Qed.
Lemma sublist_tagged {X} i (es : list (nat * X)) : sublist (tagged i es) (map snd es).
Proof.
  unfold tagged. induction es as [|e es IH]; [constructor|]. simpl. destruct (fst e =? i); simpl; [apply sublist_skip|apply sublist_cons]; exact IH.
Qed.

Lemma pool_length {C D A} `{!Sem C D} sch : forall (c c' : config (C:=C) (D:=D) A), sched_run sch c = Some c' -> length (fst c') = length (fst c).
Proof.
  induction sch as [|i sch IH]; intros c c' H; simpl in H; [injection H as <-; reflexivity|].
  destruct (cstep i c) as [c1|] eqn:E; [|discriminate]. rewrite (IH _ _ H). clear IH H. unfold cstep in E.
  destruct (fst c !! i) as [p|]; [|discriminate]. destruct (pstep i p (snd c)) as [[p' s']|]; [|discriminate].
  injection E as <-. simpl. apply insert_length.
Qed.

Section Pool.
  Variables (n : nat) (b : mbase) (ag : bool) (state : option bool).
  Hypothesis b_lock : b_ref b = Some n.
  Notation stop := (stopped_of state b).
  Notation L := (mlock n).
  Definition runs_as (cs : list mcall) (es : list tev) (r : outcome (list (outcome mres))) : Prop :=
    exists rs ess, r = Good rs /\ es = concat ess /\ all3 (acts0 b ag state) cs rs ess.
  Lemma led_mir_thread N cs : Forall (fun c => fixed_settings c = true) cs ->
    led L tview (tmoves ag stop) (J b ag state) N (runs_as cs) (thread (map lm_call cs)).
  Proof.
    intros H. change (led L tview (tmoves ag stop) (J b ag state) N
      (fun es r => exists rs' ess, r = Good (rev [] ++ rs') /\ es = concat ess /\ all3 (acts0 b ag state) cs rs' ess) (thread_from [] (map lm_call cs))).
    apply (led_thread L (L_reent n) (St n) inm outm (keep n) tview (tmoves ag stop) (J b ag state) (J_St n b ag state b_lock) lm_call
             (acts0 b ag state) (all3 (acts0 b ag state))); [constructor|constructor; assumption|].
    revert H. apply List.Forall_impl. intros c Hc. split; [apply wf_call, Hc|]. intros N'. apply (led_call n b ag state b_lock), Hc.
  Qed.
  Variable css : list (list mcall).
  Hypothesis css_ok : Forall (Forall (fun c => fixed_settings c = true)) css.
  Lemma pool_wf : Forall (wf L (St n) inm outm (eq Out) Out) (mir_pool css).
  Proof.
    unfold mir_pool. apply Forall_map. revert css_ok. apply List.Forall_impl. intros cs Hcs. simpl. apply wf_thread.
    apply Forall_map. revert Hcs. apply List.Forall_impl. intros c. simpl. apply wf_call.
  Qed.
  Definition Rp (i : nat) : list tev -> outcome (list (outcome mres)) -> Prop :=
    fun es r => forall cs, css !! i = Some cs -> runs_as cs es r.
  Lemma pool_led i p N : mir_pool css !! i = Some p -> led L tview (tmoves ag stop) (J b ag state) N (Rp i) p.
  Proof.
    unfold mir_pool. intros H. apply list_lookup_fmap_Some in H. destruct H as (cs & Hi & ->).
    eapply led_more; [|apply led_mir_thread, (Forall_lookup_1 _ _ _ _ css_ok Hi)].
    intros es r Hr cs' Hi'. rewrite Hi in Hi'. injection Hi' as <-. exact Hr.
  Qed.
  Theorem pool_account sch d ps' s' : J b ag state d -> sched_run sch (mir_pool css, idle d) = Some (ps', s') ->
    Forall (fun p => finished p = true) ps' ->
    exists es, tmoves ag stop (map snd es) (tview d) (tview (dat s')) /\ Forall (fun e => fst e < length css) es /\
      forall i cs, nth_error css i = Some cs -> exists rs ess, nth_error ps' i = Some (Ret rs) /\
        events_of i es = concat ess /\ all3 (acts ag stop) cs rs ess.
  Proof.
    intros Hd Hr Hf.
    destruct (account L (L_reent n) (St n) inm outm (keep n) (inc_moves n) (commute n) tview (tmoves ag stop) (tms_nil ag stop) (tmoves_app ag stop)
      (J b ag state) (J_St n b ag state b_lock) (mir_pool css) Rp pool_wf pool_led sch d ps' s' Hd Hr Hf) as (d' & es & -> & Hd' & Hm & Hlen & Hps).
    exists es. split; [exact Hm|]. unfold mir_pool in Hlen. rewrite map_length in Hlen. split; [exact Hlen|].
    intros i cs Hi. assert (Hi' : css !! i = Some cs) by (rewrite <- Hi; clear; revert i; induction css as [|c l IH]; intros [|i]; simpl; auto).
    assert (Hl : length ps' = length css).
    { transitivity (length (mir_pool css)); [|unfold mir_pool; apply map_length]. exact (pool_length sch _ _ Hr). }
    destruct (lookup_lt_is_Some_2 ps' i) as [p Hp]; [rewrite Hl; eapply lookup_lt_Some, Hi'|].
    destruct (Hps i p Hp) as (r & HR & Hpr). destruct (HR cs Hi') as (rs & ess & -> & Hes & Ha). subst p.
    exists rs, ess. split; [rewrite <- Hp; clear; revert i; induction ps' as [|c l IH]; intros [|i]; simpl; auto|]. split; [exact Hes|].
    apply (all3_in (acts0 b ag state)); [|exact Ha]. intros c r0 z Hin. apply acts_of. intros Hs.
    apply (no_bogus b ag state _ _ _ Hm). etransitivity; [exact Hs|]. etransitivity; [apply sublist_concat, Hin|].
    rewrite <- Hes. apply sublist_tagged.
  Qed.
  Theorem pool_progress sch d ps' s' : J b ag state d -> sched_run sch (mir_pool css, idle d) = Some (ps', s') ->
    Forall (fun p => finished p = true) ps' \/ exists i, cstep i (ps', s') <> None.
  Proof.
    intros Hd Hr.
    exact (account_progress L (L_reent n) (St n) inm outm (keep n) (inc_moves n) (commute n) tview (tmoves ag stop) (tms_nil ag stop) (tmoves_app ag stop)
      (J b ag state) (J_St n b ag state b_lock) (mir_pool css) Rp pool_wf pool_led sch d ps' s' Hd Hr).
  Qed.
End Pool.

Lemma reach_J d : mreach d -> has_lock d -> e_qmax d = 0 -> exists n b, b_ref b = Some n /\
  J b (m_aggr (e_mir d)) (e_state d) d /\ stopped_of (e_state d) b = stop_seen d.
Proof.
  intros H (n & Hn) Hq. destruct (mreach_inv d H) as (b & a & E & _). rewrite Hq in E. rewrite E in Hn |- *. simpl in Hn.
  exists n, b. split; [exact Hn|]. split; [exists a, (e_q d); auto|]. unfold stop_seen, stopped_of. simpl.
  destruct (b_has b), (e_state d) as [[|]|]; reflexivity.
Qed.

Theorem c80_account css sch d0 ps' s' :
  mreach d0 -> has_lock d0 -> e_qmax d0 = 0 -> Forall (Forall (fun c => fixed_settings c = true)) css ->
  sched_run sch (mir_pool css, idle d0) = Some (ps', s') -> Forall (fun p => finished p = true) ps' ->
  exists es,
    tmoves (m_aggr (e_mir d0)) (stop_seen d0) (map snd es) (tview d0) (tview (dat s')) /\
    Forall (fun e => fst e < length css) es /\
    forall i cs, nth_error css i = Some cs -> exists rs ess,
      nth_error ps' i = Some (Ret rs) /\ events_of i es = concat ess /\
      all3 (acts (m_aggr (e_mir d0)) (stop_seen d0)) cs rs ess.
Proof.
  intros H1 H2 H3 H4 H5 H6. destruct (reach_J d0 H1 H2 H3) as (n & b & Hn & HJ & <-).
  exact (pool_account n b _ _ Hn css H4 sch d0 ps' s' HJ H5 H6).
Qed.
Theorem c80_progress css sch d0 ps' s' :
  mreach d0 -> has_lock d0 -> e_qmax d0 = 0 -> Forall (Forall (fun c => fixed_settings c = true)) css ->
  sched_run sch (mir_pool css, idle d0) = Some (ps', s') ->
  Forall (fun p => finished p = true) ps' \/ exists i, cstep i (ps', s') <> None.
Proof.
  intros H1 H2 H3 H4 H5. destruct (reach_J d0 H1 H2 H3) as (n & b & Hn & HJ & _).
  exact (pool_progress n b _ _ Hn css H4 sch d0 ps' s' HJ H5).
Qed.
