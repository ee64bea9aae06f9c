(** * FlakyServerProofs: what an exception inside the service leaves (C103) *)
From stdpp Require Import gmap.
From Coq Require Import String.
From Coq Require Import List NArith ZArith Bool Arith Lia.
From Verif Require Import PyStr Prog ProgFacts PyIO Base Spec SpecFacts LineBuf LineBufFacts LineBufSpec LineBufProofs LineBufConc LineBufConcProofs Locks Atomic Crash
  Serial Json Strip Host HostSpec HostInt HostFacts HostProofs Flaky FlakySpec FlakyFacts FlakyCalls FlakyBuf FlakyInv FlakyProofs FlakyServer FlakyServerSpec.
Import ListNotations.
Local Open Scope prog_scope.
Local Open Scope nat_scope.

(** ** Lifted programs *)
Lemma alw_hlift {A} (P : lbuf -> Prop) t sd (p : prog bcmd A) : forall b k, alw P t p (mkst b k) ->
  alw (fun d => P (h_buf d) /\ h_state d = sd) t (hlift p) (mkst (mkhdata b sd) k).
Proof.
  induction p as [a|e|X c kk IHk h IHh]; intros b k Hp.
  - apply alw_ret. split; [exact (Hp 0)|reflexivity].
  - apply alw_raise. split; [exact (Hp 0)|reflexivity].
  - pose proof (Hp 0) as H0. apply alw_inv in Hp. cbn [lift]. apply alw_act; [split; [exact H0|reflexivity]| |].
    + intros x s' E. destruct c as [l m|l|X c]; cbn [lift_cmd exec dat lks] in *.
      * destruct (lock_acq (reent l) t l m k) as [r k']. injection E as -> <-. apply IHk, Hp.
      * destruct (lock_rel t l k) as [r k']. injection E as -> <-. apply IHk, Hp.
      * cbn [cexec hsem hexec h_buf h_state bsem] in *. destruct (bexec c b) as [r b']. injection E as -> <-. apply IHk, Hp.
    + intros e s' E. destruct c as [l m|l|X c]; cbn [lift_cmd exec dat lks] in *.
      * destruct (lock_acq (reent l) t l m k) as [r k']. injection E as -> <-. apply IHh, Hp.
      * destruct (lock_rel t l k) as [r k']. injection E as -> <-. apply IHh, Hp.
      * cbn [cexec hsem hexec h_buf h_state bsem] in *. destruct (bexec c b) as [r b']. injection E as -> <-. apply IHh, Hp.
Qed.
Lemma run_hlift {A} t (p : prog bcmd A) d k : run t (hlift p) (mkst d k) =
  (fst (run t p (mkst (h_buf d) k)), mkst (mkhdata (dat (snd (run t p (mkst (h_buf d) k)))) (h_state d)) (lks (snd (run t p (mkst (h_buf d) k))))).
Proof.
  apply (run_lift (fun _ c => HB c) h_buf (fun b d => mkhdata b (h_state d))); try reflexivity.
  - intros []. reflexivity.
  - intros X c d'. cbn. destruct (bexec c (h_buf d')). reflexivity.
Qed.
Lemma alw_good {C D} `{!Sem C D} {A} (P : D -> Prop) t (p : prog C A) s a s' : alw P t p s -> run t p s = (Good a, s') -> P (dat s').
Proof. intros H E. pose proof (alw_end P t p s H) as He. rewrite E in He. apply He. discriminate. Qed.
Lemma alw_then {C D} `{!Sem C D} {A B} (P : D -> Prop) t (p : prog C A) (f : A -> B) s : alw P t p s -> alw P t (bind p (fun a => Ret (f a))) s.
Proof.
  intros H. apply alw_bind; [exact H|]. intros a s' E. apply alw_ret. pose proof (alw_end P t p s H) as He. rewrite E in He. apply He. discriminate.
Qed.
Lemma alw_with0 {C D} `{!Sem C D} {A} (P : D -> Prop) t l (p : prog C A) d : alw P t p (mkst d (<[l := Excl t 1]> ∅)) ->
  alw P t (with_lock l Ex p) (mkst d ∅).
Proof.
  intros Hp. unfold with_lock. apply alw_act; [exact (Hp 0)| |]; cbn [exec dat lks]; unfold lock_acq; rewrite lookup_empty; cbn; intros x s' E; [|discriminate].
  injection E as <- <-. apply alw_try, Hp.
Qed.

(** ** Contents *)
Lemma srv_ends {A} t (p : prog hcmd A) d fs : uw may_acq [] [] p ->
  let o := run t (flaky_call p) (mkst (d, fs) ∅) in fst o <> Block /\ lks (snd o) = ∅.
Proof.
  intros H. destruct (run t (flaky_call p) (mkst (d, fs) ∅)) as [r s'] eqn:E.
  refine (wlk_run (flexec_nb (D := hdata) _) t [] (flaky_call p) (fun _ => []) (mkst (d, fs) ∅) r s' _ _ _ _ E); auto.
  - apply hexec_nb.
  - apply wlk_flaky_call, H.
  - intros l. cbn [lks]. rewrite lookup_empty. reflexivity.
Qed.
Lemma srv_cut (P : hdata -> Prop) E t c d fs : alw P t (h_call E c) (mkst d ∅) ->
  let o := run t (flaky_call (h_call E c)) (mkst (d, fs) ∅) in lks (snd o) = ∅ /\ P (fst (dat (snd o))).
Proof.
  intros Ha o. destruct (srv_ends t (h_call E c) d fs (uw_server E c)) as [Hb Hk]. split; [exact Hk|].
  destruct (cut_prefix t _ _ _ _ _ _ (c88_server E c t d fs ∅ wfk_empty) Hb) as [j Hj]. fold o in Hj. rewrite Hj. apply Ha.
Qed.
Lemma alw_and_eq P sd t c E d : alw (fun d => P (h_buf d) /\ h_state d = sd) t (h_call E c) (mkst d ∅) -> h_state d = sd ->
  forall fs, srv_left E t c (mkst d ∅) fs P (eq (h_state d)).
Proof. intros H <- fs. destruct (srv_cut _ E t c d fs H) as (H1 & H2 & H3). split; [exact H1|]. split; [exact H2|symmetry; exact H3]. Qed.

Section Contents.
  Variables (E : henv) (m : nat) (s : st hdata) (g : slog) (t : nat) (fs : faults).
  Hypothesis (Hm : 1 <= m) (Hs : served E m s) (Hh : HostSpec.holds m g (h_buf (dat s))).
  Notation q := (recs m g).
  Notation v := (pend g).
  Notation B := (FlakySpec.holds m q v (length v)).
  Lemma q_len : length q <= m.
  Proof. unfold recs. rewrite last_items_length. lia. Qed.
  Lemma s_is : exists sd, s = mkst (mkhdata B sd) ∅.
  Proof. destruct (served_holds E m s g Hm Hs Hh) as [sd ->]. exists sd. reflexivity. Qed.

  Lemma s_buf : h_buf (dat s) = B.
  Proof. destruct s_is as [sd ->]. reflexivity. Qed.
  (** A handler that changes only the buffer. *)
  Lemma left_buf P r : (forall sd, alw (fun d => P (h_buf d) /\ h_state d = sd) t (handle E r) (mkst (mkhdata B sd) ∅)) ->
    srv_left E t (HReq r) s fs P (eq (h_state (dat s))).
  Proof. intros H. destruct s_is as [sd ->]. apply (alw_and_eq P sd); [|reflexivity]. apply alw_then, H. Qed.

  Lemma c103_text args data x : type_word E args (txt "str") -> field (txt "data") args (JObj data) -> field (txt "value") data x -> x <> JNull ->
    srv_left E t (HReq (PostMsg (BJson (JObj args)))) s fs (write_cut m q v (py_str E x)) (eq (h_state (dat s))).
  Proof.
    intros Ht Hd Hv Hn. apply left_buf. intros sd. cbn [handle h_post]. fold (dtype E args). rewrite (type_word_dtype E args _ Ht).
    change (text_eqb (txt "str") s_str) with true. cbv iota. apply field_jget in Hd, Hv.
    change k_data with (txt "data"). rewrite Hd. change k_value with (txt "value"). rewrite Hv.
    apply alw_with. intros K. apply (alw_then _ t _ (fun _ => success 201)).
    destruct x; try congruence; (apply (alw_then _ t _ (fun _ => tt))); apply alw_hlift, alw_lb_write; (exact Hm || apply q_len).
  Qed.
  Lemma c103_close args : type_word E args (txt "close") ->
    srv_left E t (HReq (PostMsg (BJson (JObj args)))) s fs (fun d => d = h_buf (dat s) \/ (v <> [] /\ write_cut m q v [10%N] d)) (eq (h_state (dat s))).
  Proof.
    intros Ht. rewrite s_buf. apply left_buf. intros sd. cbn [handle h_post]. fold (dtype E args). rewrite (type_word_dtype E args _ Ht).
    change (text_eqb (txt "close") s_str) with false.
    change (text_eqb (txt "close") s_error || text_eqb (txt "close") s_warning)%bool with false.
    change (text_eqb (txt "close") s_close) with true. cbv iota.
    apply alw_with. intros K. apply (alw_then _ t _ (fun _ => success 201)).
    apply (alw_hlift (fun b => b = B \/ (v <> [] /\ write_cut m q v [10%N] b))). apply alw_lb_new_line; (exact Hm || apply q_len).
  Qed.
  Lemma c103_message args data : type_word E args (txt "error") \/ type_word E args (txt "warning") -> field (txt "data") args (JObj data) ->
    srv_left E t (HReq (PostMsg (BJson (JObj args)))) s fs
      (fun d => d = h_buf (dat s) \/ (v <> [] /\ write_cut m q v [10%N] d) \/
                exists i g', deserialize (JObj data) = Good i /\ log_note i g g' /\ HostSpec.holds m g' d) (eq (h_state (dat s))).
  Proof.
    intros Ht Hd. rewrite s_buf. apply left_buf. intros sd. cbn [handle h_post]. fold (dtype E args).
    assert (Hk : text_eqb (dtype E args) s_str = false /\ (text_eqb (dtype E args) s_error || text_eqb (dtype E args) s_warning = true)%bool).
    { destruct Ht as [Ht|Ht]; rewrite (type_word_dtype E args _ Ht); split; reflexivity. }
    destruct Hk as [-> ->]. apply field_jget in Hd. change k_data with (txt "data"). rewrite Hd.
    match goal with |- alw ?Q0 _ _ _ => set (Q := Q0) end.
    assert (Hl : forall K, alw Q t (hlift lb_new_line) (mkst (mkhdata B sd) K)).
    { intros K. apply (alw_weaken (fun d => (h_buf d = B \/ (v <> [] /\ write_cut m q v [10%N] (h_buf d))) /\ h_state d = sd)).
      - intros d [[H|H] Hd']; (split; [auto|exact Hd']).
      - apply (alw_hlift (fun b => b = B \/ (v <> [] /\ write_cut m q v [10%N] b))). apply alw_lb_new_line; (exact Hm || apply q_len). }
    apply alw_with0. apply (alw_then _ t _ (fun _ => success 201)). apply alw_bind; [apply Hl|]. intros a s' Er.
    assert (Hq1 : Q (dat s')).
    { exact (alw_good Q t _ _ _ _ (Hl _) Er). }
    assert (Hd1 : dat s' = hsd m (absg m (gnewline g)) sd).
    { rewrite run_hlift in Er. cbn [h_buf h_state] in Er.
      pose proof (run_new_line_open m t (<[CL := Excl t 1]> ∅) Hm) as Hr. specialize (Hr (lookup_insert_ne ∅ CL LL _ ltac:(discriminate))).
      specialize (Hr q v q_len). change B with (bd m q v false) in Er. rewrite Hr in Er. injection Er as _ <-.
      unfold hsd. pose proof (ab_new_line m g sd Hm) as Hn. rewrite srun_hlift in Hn. cbn [h_buf h_state hsd absg] in Hn.
      assert (Hx : srun lb_new_line (bd m q v false) = (Good tt, dat (snd (run t lb_new_line (mkst (bd m q v false) (<[CL:=Excl t 1]> ∅)))))).
      { rewrite Hr. apply srun_of_run; [apply wlk_new_line; constructor|]. pose proof (run_new_line_open m 0 ∅ Hm (lookup_empty _) q v q_len) as H0. rewrite H0. destruct v; reflexivity. }
      unfold absg in Hn. cbn [aq av acl] in Hn. fold (recs m g) in Hn. unfold hsd in Hn. rewrite Hx in Hn. rewrite Hr in Hn. cbn [fst snd dat] in Hn.
      injection Hn as Hn. cbn [fst snd dat]. f_equal. exact Hn. }
    destruct s' as [d' K']. cbn [dat] in *. subst d'.
    destruct (deserialize (JObj data)) as [i|e|] eqn:Ei; cbn [of_out bind]; [|apply alw_raise; exact Hq1..].
    apply alw_op; [exact Hq1|]. pose proof (ab_append m (gnewline g) sd Hm i) as Ha. rewrite srun_op in Ha. rewrite Ha. cbn [snd].
    split; [|reflexivity]. right. right. exists i, (mkslog (done (gnewline g) ++ [i]) (pend (gnewline g))). split; [reflexivity|].
    split; [constructor; apply log_new_line_fun; reflexivity|]. apply abs_holds.
  Qed.
  Lemma c103_get n : srv_left E t (HReq (GetMsg n)) s fs (read_cut m q v) (eq (h_state (dat s))).
  Proof.
    apply left_buf. intros sd. cbn [handle]. unfold h_get.
    assert (H0 : read_cut m q v (h_buf (mkhdata B sd)) /\ h_state (mkhdata B sd) = sd) by (split; [apply rc_start|reflexivity]).
    match goal with |- alw _ _ (match ?x with _ => _ end) _ => destruct x as [z|]; [|apply alw_raise; exact H0] end.
    apply (alw_then _ t _ (fun data => (200, JObj [(k_message, JStr s_success); (k_data, JArr data)]))). apply alw_with. intros K. unfold h_read_serialized.
    assert (Hr : alw (fun d => read_cut m q v (h_buf d) /\ h_state d = sd) t (hlift (lb_read z)) (mkst (mkhdata B sd) K)).
    { apply alw_hlift. apply alw_lb_read; [exact Hm|apply q_len]. }
    apply alw_bind; [exact Hr|]. intros a s' Er. pose proof (alw_good _ t _ _ _ _ Hr Er) as He.
    destruct (serialize_items a); cbn [of_out]; [apply alw_ret|apply alw_raise..]; exact He.
  Qed.
  Lemma c103_delete : srv_left E t (HReq DelMsg) s fs (clear_cut m q v) (eq (h_state (dat s))).
  Proof.
    apply left_buf. intros sd. cbn [handle]. unfold h_delete. apply (alw_then _ t _ (fun _ => success 200)). apply alw_with. intros K. apply alw_hlift, alw_clear.
  Qed.
End Contents.

(** ** The states *)
Lemma safe_alw {C D} `{!Sem C D} {A} (Inv : D -> Prop) t (p : prog C A) s : safe Inv p -> Inv (dat s) -> alw Inv t p s.
Proof.
  intros Hp Hi j. revert p s Hp Hi. induction j as [|j IH]; intros p s Hp Hi; cbn [prefix_run]; [exact Hi|].
  destruct (pstep t p s) as [[p' s']|] eqn:E; [|exact Hi]. destruct (safe_step Inv t p s p' s' Hp Hi E). auto.
Qed.
Section States.
  Variables (E : henv) (s : st hdata) (t : nat) (fs : faults).
  Hypothesis (Hk : lks s = ∅).
  Lemma left_state c (P : lbuf -> Prop) (Q : list (text * json) -> Prop) :
    alw (fun d => P (h_buf d) /\ Q (h_state d)) t (h_call E c) (mkst (dat s) ∅) -> srv_left E t c s fs P Q.
  Proof. intros H. unfold srv_left, srv_run. rewrite Hk. apply (srv_cut _ E t c (dat s) fs H). Qed.
  Lemma c103_reset c : c = HReset \/ c = HReq DelState ->
    srv_left E t c s fs (eq (h_buf (dat s))) (fun sd => sd = h_state (dat s) \/ sd = [] \/ sd = [(txt "closed", JBool false)]).
  Proof.
    intros Hc. apply left_state. match goal with |- alw ?Q0 _ _ _ => set (P := Q0) end.
    assert (H : alw P t h_reset_states (mkst (dat s) ∅)).
    { unfold h_reset_states. apply alw_with. intros K. apply alw_bind; [apply alw_op; (split; [reflexivity|cbn; auto])|].
      intros a s' Er. rewrite run_op in Er. cbn in Er. injection Er as _ <-. apply alw_op; (split; [reflexivity|cbn; auto]). }
    destruct Hc as [-> | ->]; cbn [h_call handle]; unfold s_delete.
    - apply (alw_then _ t _ (fun _ => HRes RUnit)), H.
    - apply (alw_then _ t _ (fun a => HAnswer a)), (alw_then _ t _ (fun _ => success 200)), H.
  Qed.
  Lemma c103_stop : srv_left E t HStopAll s fs (eq (h_buf (dat s)))
    (fun sd => sd = h_state (dat s) \/ sd = h_state (dat (snd (run t (h_call E HStopAll) s)))).
  Proof.
    apply left_state. match goal with |- alw ?Q0 _ _ _ => set (P := Q0) end. cbn [h_call]. apply (alw_then _ t _ (fun _ => HRes RUnit)). unfold h_stop_all. apply alw_with. intros K.
    apply alw_op; [split; auto|]. split; [reflexivity|]. right. destruct s as [d k]. cbn [lks] in Hk. subst k. rewrite run_h_call. reflexivity.
  Qed.
  Lemma c103_post_state b : srv_left E t (HReq (PostState b)) s fs (eq (h_buf (dat s)))
    (fun sd => sd = h_state (dat s) \/ sd = h_state (dat (snd (run t (h_call E (HReq (PostState b))) s)))).
  Proof.
    apply left_state. match goal with |- alw ?Q0 _ _ _ => set (P := Q0) end. assert (P0 : P (dat s)) by (split; auto).
    assert (Hr : snd (run t (h_call E (HReq (PostState b))) s) = mkst (snd (srun (h_call E (HReq (PostState b))) (dat s))) ∅).
    { destruct s as [d k]. cbn [lks dat] in *. subst k. rewrite run_h_call. reflexivity. }
    unfold P in *. rewrite Hr in *. clear Hr. cbn [dat] in *. clear P. cbn [h_call handle]. apply (alw_then _ t _ (fun a => HAnswer a)).
    cbn [h_call handle] in P0. destruct b as [| |x]; [apply alw_raise; exact P0..|]. destruct x as [|bb|z|y|l|args]; try (apply alw_raise; exact P0).
    unfold s_post in *. destruct (strip _) as [|c0 l]; [apply alw_raise; exact P0|]. apply (alw_then _ t _ (fun _ => success 201)).
    apply alw_with. intros K. apply alw_with. intros K'. cbv zeta in *. destruct (text_eqb (c0 :: l) k_closed) eqn:Et; [|apply alw_ret; exact P0].
    apply alw_op; [exact P0|]. split; [reflexivity|]. right. rewrite !srun_bind, !srun_with, srun_op. reflexivity.
  Qed.
  Lemma safe_lift_h {A} (p : prog bcmd A) d : safe (eq (h_buf d)) p -> safe (eq d) (hlift p).
  Proof.
    induction 1 as [a|e|X c k h Hc Hk' IHk Hh IHh|l m k h Hk' IHk Hh IHh|l k h Hk' IHk Hh IHh]; cbn [lift lift_cmd]; try (constructor; auto; fail).
    constructor; [| |exact IHh].
    - intros d' <-. specialize (Hc _ eq_refl). cbn in *. destruct (bexec c (h_buf d)) as [r b]. cbn in *. subst b. destruct d. reflexivity.
    - intros d' x <- Ex. apply (IHk (h_buf d) x eq_refl). cbn in *. destruct (bexec c (h_buf d)) as [r b]. exact Ex.
  Qed.
  Lemma c103_get_state name : srv_left E t (HReq (GetState name)) s fs (eq (h_buf (dat s))) (eq (h_state (dat s))).
  Proof.
    apply left_state. apply (alw_weaken (eq (dat s))); [intros d <-; auto|]. apply safe_alw; [|reflexivity]. cbn [h_call handle].
    apply safe_bind; [|intros; constructor]. unfold s_get. destruct (strip _) as [|c0 l]; [constructor|]. apply safe_bind; [|intros; constructor].
    apply safe_with. destruct (text_eqb _ _).
    - apply safe_bind; [|intros; constructor]. apply safe_lift_h. unfold lb_len, lb_maxlen. destruct (h_buf (dat s)) as [[q mx] [v0 pos cl]].
      repeat first [apply safe_ret|apply safe_with|apply safe_bind; [|intros ?]|apply safe_one; intros d <-; cbn;
        unfold on_file, on_dq, sio_tell, sio_truth, sio_guard; cbn; try destruct cl; reflexivity].
    - apply safe_with. apply safe_one. intros d <-. reflexivity.
  Qed.
End States.

(** ** At any time *)
Lemma ok_srv i : line_item i -> srv_item i.
Proof. intros (x & -> & H). exact H. Qed.
Section Always.
  Variables (E : henv) (m : nat).
  Notation Inv := (srv_sound m).
  Lemma srv_lift {A} (p : prog bcmd A) : safe (sound_of srv_item m) p -> safe Inv (hlift p).
  Proof.
    induction 1 as [a|e|X c k h Hc Hk' IHk Hh IHh|l n k h Hk' IHk Hh IHh|l k h Hk' IHk Hh IHh]; cbn [lift lift_cmd]; try (constructor; auto; fail).
    constructor; [| |exact IHh].
    - intros d [H1 H2]. specialize (Hc _ H1). cbn in *. destruct (bexec c (h_buf d)) as [r b]. exact (conj Hc H2).
    - intros d x [H1 H2] Ex. apply (IHk (h_buf d) x H1). cbn in *. destruct (bexec c (h_buf d)) as [r b]. exact Ex.
  Qed.
  Lemma put_closed b sd : (forall v, field (txt "closed") (jput k_closed (JBool b) sd) v -> exists b, v = JBool b).
  Proof.
    intros v H. apply field_jget in H. change k_closed with (txt "closed") in H. exists b.
    induction sd as [|[k w] sd IH]; cbn [jput jget] in H.
    - rewrite text_eqb_refl in H. congruence.
    - destruct (text_eqb k (txt "closed")) eqn:Ek; cbn [jget] in H; rewrite Ek in H; [congruence|auto].
  Qed.
  Lemma put_other name w sd : text_eqb name k_closed = true -> (exists b, w = JBool b) -> forall v, field (txt "closed") (jput name w sd) v -> exists b, v = JBool b.
  Proof. intros Hn [b ->]. apply text_eqb_eq in Hn. subst name. apply put_closed. Qed.
  Lemma safe_get_item {X} (c : hcmd X) : (forall d, snd (hexec c d) = d) -> safe Inv (hop c).
  Proof. intros H. apply safe_one. intros d Hd. cbn. rewrite H. exact Hd. Qed.
  Lemma safe_out {X} (o : outcome X) : safe Inv (of_out o).
  Proof. destruct o; constructor. Qed.
  Lemma safe_handle r : safe Inv (handle E r).
  Proof.
    assert (Hset : forall name w, text_eqb name k_closed = true -> (exists b, w = JBool b) -> safe Inv (hop (HStSet name w))).
    { intros name w Hn Hw. apply safe_one. intros d [H1 H2]. split; [exact H1|]. cbn. apply put_other; assumption. }
    destruct r as [b|n| |name|b|]; cbn [handle].
    - destruct b as [| |x]; [constructor..|]. destruct x as [|bb|z|y|l|args]; try solve [constructor].
      unfold h_post. cbv beta iota zeta. apply safe_with. apply safe_bind; [|intros; constructor].
      destruct (text_eqb _ s_str); [|destruct (text_eqb _ s_error || text_eqb _ s_warning); [|destruct (text_eqb _ s_close)]].
      + destruct (jget k_data args) as [[| | | | |data]|]; try solve [constructor].
        destruct (jget k_value data) as [[]|]; try solve [constructor];
          (apply safe_bind; [apply srv_lift, safe_lb_write, ok_srv|intros; constructor]).
      + destruct (jget k_data args) as [[| | | | |data]|]; try solve [constructor].
        apply safe_bind; [apply srv_lift, safe_lb_new_line, ok_srv|]. intros _.
        destruct (deserialize (JObj data)) as [i|e|] eqn:Ei; cbn [of_out bind]; try solve [constructor].
        apply safe_one. intros d [H1 H2]. cbn. pose proof (keeps srv_item m (DAppend i) (h_buf d)) as Hk. cbn in Hk.
        split; [|exact H2]. apply Hk; [|exact H1]. unfold deserialize in Ei. destruct (negb _); [injection Ei as <-; exact I|].
        destruct (jget k_type data); [|discriminate]. destruct (jget k_data data); [|discriminate]. destruct (py_tuple _); try discriminate. injection Ei as <-. exact I.
      + apply srv_lift, safe_lb_new_line, ok_srv.
      + constructor.
    - unfold h_get. match goal with |- safe _ (match ?x with _ => _ end) => destruct x as [z|]; [|constructor] end.
      apply safe_bind; [|intros; constructor]. apply safe_with. unfold h_read_serialized. apply safe_bind; [apply srv_lift, safe_lb_read|intros; apply safe_out].
    - unfold h_delete. apply safe_bind; [|intros; constructor]. apply safe_with, srv_lift, safe_lb_clear.
    - unfold s_get. destruct (strip _) as [|c0 l]; [constructor|]. apply safe_bind; [|intros; constructor]. apply safe_with. destruct (text_eqb _ _).
      + apply safe_bind; [apply srv_lift, safe_lb_len|intros; constructor].
      + apply safe_with, safe_get_item. reflexivity.
    - destruct b as [| |x]; [constructor..|]. destruct x as [|bb|z|y|l|args]; try solve [constructor].
      unfold s_post. cbv beta iota zeta. destruct (strip _) as [|c0 l]; [constructor|]. apply safe_bind; [|intros; constructor]. apply safe_with, safe_with.
      destruct (text_eqb (c0 :: l) k_closed) eqn:Et; [|constructor]. apply Hset; [exact Et|eauto].
    - unfold s_delete, h_reset_states. apply safe_bind; [|intros; constructor]. apply safe_with. apply safe_bind.
      + apply safe_one. intros d [H1 H2]. split; [exact H1|]. cbn. intros v H. inversion H.
      + intros _. apply Hset; [reflexivity|eauto].
  Qed.
  Lemma safe_h_call c : safe Inv (h_call E c).
  Proof.
    assert (Hset : forall w, (exists b, w = JBool b) -> safe Inv (hop (HStSet k_closed w))).
    { intros w Hw. apply safe_one. intros d [H1 H2]. split; [exact H1|]. cbn. apply put_other; [reflexivity|assumption]. }
    destruct c as [r|c|size| |]; cbn [h_call].
    - apply safe_bind; [apply safe_handle|intros; constructor].
    - assert (H : safe Inv (x <- hlift (lb_call c) ;; Ret (HRes x))) by (apply safe_bind; [apply srv_lift, safe_call, ok_srv|intros; constructor]).
      destruct c; try exact H. constructor.
    - apply safe_bind; [|intros; constructor]. apply safe_bind; [apply srv_lift, safe_lb_read|intros; apply safe_out].
    - apply safe_bind; [|intros; constructor]. apply safe_with, Hset. eauto.
    - apply safe_bind; [|intros; constructor]. apply safe_with. apply safe_bind; [|intros; apply Hset; eauto].
      apply safe_one. intros d [H1 H2]. split; [exact H1|]. cbn. intros v H. inversion H.
  Qed.
End Always.

Lemma srv_sound_fresh m : srv_sound m (dat (hfresh m)).
Proof.
  split.
  - split; [reflexivity|]. cbn. split; [lia|]. split; constructor.
  - intros v H. apply field_jget in H. vm_compute in H. injection H as <-. eauto.
Qed.
Lemma run_closed_get E t n size d : asks n size -> sclosed (last_line (h_buf d)) = true ->
  run t (handle E (GetMsg n)) (mkst d ∅) = (Fail OSError, mkst d ∅).
Proof.
  intros Hn Hc. rewrite run_handle, (get_run E n size _ Hn). unfold h_read_serialized. sr. rewrite srun_hlift.
  destruct d as [[[q mx] [v pos cl]] sd]. cbn in Hc. subst cl. reflexivity.
Qed.
Lemma srv_sound_usable E m d : 1 <= m -> srv_sound m d -> srv_usable E m d.
Proof.
  intros Hm [(H1 & H2 & H3 & H4) _]. split; [|intros t; rewrite run_handle; destruct d; reflexivity].
  destruct d as [[[q mm] [v pos cl]] sd]. cbn [h_buf storage dmax dq last_line sval sclosed h_state] in *. subst mm. destruct cl.
  - intros t n size Hn. apply (run_closed_get E t n size); [exact Hn|reflexivity].
  - intros t. split.
    + rewrite run_handle. reflexivity.
    + intros n size Hn Hr. rewrite run_handle, (get_run E n size _ Hn). unfold h_read_serialized. sr. rewrite srun_hlift. cbn [h_buf h_state].
      change (mklbuf (mkdeque q m) (mksio v pos false)) with (FlakySpec.holds m q v pos).
      pose proof (p_read m v pos Hm 0 size q H2) as Hp.
      rewrite (srun_of_run (lb_read size) _ _ _ ltac:(apply wlk_read; constructor) Hp). cbn [fst snd].
      set (its := match size with None => _ | Some z => _ end).
      assert (Hits : (forall i, In i its -> In i (q ++ seenp v pos)) /\ length its <= m).
      { assert (Hs : forall n l, forall i : item, In i (last_items n l) -> In i l).
        { intros n0 l i H. unfold last_items in H. rewrite <- (firstn_skipn (length l - n0) l). apply in_or_app. right. exact H. }
        unfold its. destruct size as [z|]; [destruct (0 <? z)%Z|]; (split; [intros i Hi; eauto|rewrite ?last_items_length; try lia]); [destruct Hi|cbn; lia]. }
      exists (map item_json its). rewrite serialize_items_good; [split; [reflexivity|rewrite map_length; apply Hits]|].
      intros i Hi. apply Hits, in_app_or in Hi. destruct Hi as [Hi|Hi]; [apply Hr, Hi|]. unfold seenp in Hi. destruct (0 <? pos); [|destruct Hi].
      destruct Hi as [<-|[]]. intros [w Hw]. discriminate.
Qed.
Lemma c103_always E m fs : 1 <= m -> forall h, let o := srv_hist E h (mkst (dat (hfresh m), fs) ∅) in
  Forall (fun r => r <> Block) (fst o) /\ lks (snd o) = ∅ /\ srv_sound m (fst (dat (snd o))) /\ srv_usable E m (fst (dat (snd o))).
Proof.
  intros Hm h. assert (Hgen : forall h d fs, srv_sound m d -> let o := srv_hist E h (mkst (d, fs) ∅) in
    Forall (fun r => r <> Block) (fst o) /\ lks (snd o) = ∅ /\ srv_sound m (fst (dat (snd o)))).
  { clear h fs. induction h as [|[t c] h IH]; intros d fs Hd; cbn [srv_hist].
    - cbv zeta. split; [constructor|]. split; [reflexivity|exact Hd].
    - destruct (srv_ends t (h_call E c) d fs (uw_server E c)) as [Hb Hk]. pose proof (safe_run _ t _ (safe_flaky_call _ _ (safe_h_call E m c)) (mkst (d, fs) ∅) Hd) as Hs.
      destruct (run t (flaky_call (h_call E c)) (mkst (d, fs) ∅)) as [r [[d1 fs1] k1]]. cbn [fst snd dat lks] in *. subst k1.
      specialize (IH d1 fs1 Hs). destruct (srv_hist E h (mkst (d1, fs1) ∅)) as [rs s2]. cbv zeta in *. cbn [fst snd] in *. destruct IH as (I1 & I2 & I3). auto. }
  destruct (Hgen h (dat (hfresh m)) fs (srv_sound_fresh m)) as (H1 & H2 & H3). split; [exact H1|]. split; [exact H2|]. split; [exact H3|apply srv_sound_usable; assumption].
Qed.
Lemma c103_concurrent E m fs css sch ps' s' : 1 <= m ->
  sched_run sch (fl_pool (map (map (h_call E)) css), mkst (dat (hfresh m), fs) ∅) = Some (ps', s') ->
  srv_sound m (fst (dat s')) /\ srv_usable E m (fst (dat s')).
Proof.
  intros Hm H. assert (Hs : srv_sound m (fst (dat s'))); [|split; [exact Hs|apply srv_sound_usable; assumption]].
  apply (safe_sched (fun w : hdata * faults => srv_sound m (fst w)) sch _ _ _ _) in H; [exact H| |apply srv_sound_fresh].
  unfold fl_pool. apply List.Forall_map, List.Forall_map, List.Forall_forall. intros cs _. apply safe_thread, List.Forall_map, List.Forall_map, List.Forall_forall.
  intros c _. apply safe_flaky_call, safe_h_call.
Qed.
