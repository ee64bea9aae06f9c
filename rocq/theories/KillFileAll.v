(** * KillFileAll: processes that are killed while they use one log: all calls *)
From stdpp Require Import gmap.
From Coq Require Import String.
From Coq Require Import List NArith ZArith Bool Arith Lia.
From Verif Require Import PyStr Prog ProgFacts PyIO Base Spec SpecFacts LineBuf LineBufFacts FileBuf FileFacts FileMore FileSpec FileStmt FileProofs FileConcSpec FileConc CrashSpec Kill KillFacts KillRely KillFileSpec KillFile KillFileOps KillFileCalls.
Import ListNotations.
Local Open Scope prog_scope.
Local Open Scope nat_scope.

Section Calls.
  Variables (n : nat) (name : text) (fl : nat) (bs : nat -> fbuf) (m : nat).
  Variable full : nat -> list text.
  Variable ord : Prop.
  Variable l0 : list text.
  Hypothesis Hsh : sharing n name fl bs.
  Hypothesis Hmax : forall i, i < n -> b_max (bs i) = m.
  Variable t : nat.
  Hypothesis Ht : t < n.

  Notation inv := (inv name m full ord l0).
  Notation R := (R n name fl bs m full ord l0).
  Notation ok := (ok n name fl bs m full ord l0).
  Notation T := (T n name fl bs m full ord l0 t).
  Notation stab := (stab n name fl bs m full ord l0 t).
  Notation own := (own name bs m full ord l0 t).
  Notation idle := (idle name bs m full ord l0 t).
  Notation b := (bs t).

  Local Hint Resolve stab_own stab_idle stab_inx stab_and stab_ex cx_fl : st.
  Notation fl_b := (fl_b n name fl bs Hsh t Ht).
  Notation rn' := (rn' n name fl bs Hsh t Ht).

  Lemma tl_even : Nat.even (b_tl b) = true. Proof. apply (sh_one _ _ _ _ Hsh t Ht). Qed.
  Lemma tl_fl : b_tl b <> fl. Proof. destruct (sh_one _ _ _ _ Hsh t Ht) as (_ & _ & _ & H & _). lia. Qed.

  (** 'with self.__file_tmp_lock' *)
  Lemma T_tl {A} hs mo P (body : prog fcmd A) (Q : outcome A -> fdir -> ghost -> Prop) : cx (b_tl b) hs = 0 -> cs (b_tl b) hs = 0 ->
    stab hs P -> (forall hs' r, stab hs' (Q r)) -> T ((b_tl b, mo) :: hs) P body Q -> T hs P (with_lock (b_tl b) mo body) Q.
  Proof.
    intros H1 H2 HP HQ Hb. apply T_with; auto; [apply tl_even|]. intros E. exfalso. apply tl_fl, E.
  Qed.

  Lemma T_when {A} hs P (c : Prop) (p : prog fcmd A) (Q : outcome A -> fdir -> ghost -> Prop) :
    (c -> T hs P p Q) -> T hs (fun d g => P d g /\ c) p Q.
  Proof. intros H x Hh [H1 H2]. exact (H H2 x Hh H1). Qed.

  (** ** The temporary file *)
  Definition tfile (w : option text) (d : fdir) : Prop := files d !! tmp_name b = w.
  Definition tmpx (D : list text) (v : text) (w : option text) (d : fdir) (g : ghost) : Prop := idle D v d g /\ tfile w d.
  Lemma stab_tmpx hs D v w : stab hs (tmpx D v w).
  Proof.
    intros x x' HR Hh [H1 H2]. split; [exact (stab_idle n name fl bs m full ord l0 Hsh t hs D v Ht x x' HR Hh H1)|].
    destruct (r_own _ _ _ _ _ _ _ _ _ _ _ HR Ht) as [E _]. unfold tfile in *. congruence.
  Qed.
  Local Hint Resolve stab_tmpx : st.

  Lemma own_tmp D v d g v' fs' : own D v d g -> (forall y, y <> tmp_name b -> fs' !! y = files d !! y) ->
    fs' !! tmp_name b = Some v' -> no_break v' -> utf8 v' -> own D v' (mkfdir fs' (fclosed d)) g.
  Proof.
    intros [O1 O2 O3 O4 O5 O6] Hf Hv Hn Hu. split; auto.
    - assert (Hok : ok t [] d g (mkfdir fs' (fclosed d)) g) by (eapply ok_tmp; eauto).
      apply (o_inv _ _ _ _ _ _ _ _ _ _ _ _ _ _ Hok), O1.
    - unfold unfinished. rewrite (tn n name fl bs Hsh t Ht). simpl. rewrite Hv. reflexivity.
  Qed.

  Lemma T_get_last hs D v : cx (b_tl b) hs = 0 -> cs (b_tl b) hs = 0 ->
    T hs (idle D v) (fb_get_last_line b) (fun r d g => idle D v d g /\ r = Good v).
  Proof.
    intros H1 H2. unfold fb_get_last_line. apply T_tl; auto with st.
    eapply T_bind with (Qm := fun r d g => exists w, tmpx D v w d g /\ r = Good (match w with Some _ => true | None => false end)).
    - apply T_look; [auto with st|auto with st|reflexivity|]. intros d g H. exists (files d !! tmp_name b). split; [split; [exact H|reflexivity]|].
      reflexivity.
    - intros [|].
      + apply T_look; [auto with st|auto with st|reflexivity|]. intros d g (w & [H Hw] & E). split; [exact H|].
        destruct w as [s|]; [|discriminate]. cbn [fexec fst]. unfold tfile in Hw. rewrite Hw. destruct H as [[O1 O2 O3 O4 O5 O6] _].
        unfold unfinished in O3. rewrite (tn n name fl bs Hsh t Ht), Hw in O3. subst s. rewrite uni_no_break by exact O4. reflexivity.
      + apply T_ret; [auto with st|]. intros d g (w & [H Hw] & E). split; [exact H|].
        destruct w as [s|]; [discriminate|]. destruct H as [[O1 O2 O3 O4 O5 O6] _]. unfold tfile in Hw.
        unfold unfinished in O3. rewrite (tn n name fl bs Hsh t Ht), Hw in O3. subst v. reflexivity.
    - intros e d g (w & _ & E). discriminate.
  Qed.

  Lemma T_clean D v : T [] (idle D v) (fb_clean_last_line b) (fun r d g => idle D [] d g /\ r = Good tt).
  Proof.
    unfold fb_clean_last_line. apply T_tl; auto with st. apply T_op; [auto with st|auto with st|].
    intros d g [Ho Hf]. exists g. cbn [fexec fst snd].
    assert (Hl : forall y, y <> tmp_name b -> <[tmp_name b := []]> (files d) !! y = files d !! y) by (intros y Hy; apply lookup_insert_ne; auto).
    split; [eapply ok_tmp; eauto|]. split; [|reflexivity]. split; [|exact Hf].
    eapply own_tmp; [exact Ho|exact Hl|apply lookup_insert|constructor|constructor].
  Qed.

  Lemma T_put_tmp D s : forall v hs, no_break s -> utf8 s ->
    T hs (tmpx D v (Some v)) (put_chars (tmp_name b) s) (fun r d g => idle D (v ++ s) d g /\ r = Good tt).
  Proof.
    induction s as [|c s IH]; intros v hs Hn Hu; cbn [put_chars].
    { rewrite app_nil_r. apply T_ret; [auto with st|]. intros d g [H _]. auto. }
    inversion Hn as [|? ? Hn1 Hn2]; inversion Hu as [|? ? Hu1 Hu2]; subst.
    eapply T_bind with (Qm := fun r d g => tmpx D (v ++ [c]) (Some (v ++ [c])) d g /\ r = Good tt).
    - apply T_op; [auto with st|auto with st|]. intros d g [[Ho Hf] Hw]. unfold tfile in Hw. exists g. cbn [fexec fst snd].
      set (fs' := alter _ _ _).
      assert (Hl : forall y, y <> tmp_name b -> fs' !! y = files d !! y) by (intros y Hy; apply lookup_alter_ne; auto).
      assert (Hx : fs' !! tmp_name b = Some (v ++ [c])) by (unfold fs'; rewrite lookup_alter; exact (f_equal (option_map (fun s0 : text => s0 ++ [c])) Hw)).
      split; [eapply ok_tmp; eauto|]. split; [|reflexivity]. split; [split; [|exact Hf]|exact Hx].
      eapply own_tmp; [exact Ho|exact Hl|exact Hx| |].
      + apply no_break_app. split; [apply Ho|]. constructor; [exact Hn1|constructor].
      + apply List.Forall_app. split; [apply Ho|]. constructor; [exact Hu1|constructor].
    - intros []. eapply T_conseq; [apply (IH (v ++ [c]) hs Hn2 Hu2)| |].
      + intros d g [H _]. exact H.
      + intros r d g H. rewrite <- app_assoc in H. exact H.
    - intros e d g [_ E]. discriminate.
  Qed.

  Lemma T_write_last D v s : no_break s -> utf8 s ->
    T [] (idle D v) (fb_write_last_line b s) (fun r d g => idle D (v ++ s) d g /\ exists k, r = Good k).
  Proof.
    intros Hn Hu. unfold fb_write_last_line. apply T_tl; auto with st.
    eapply T_bind with (Qm := fun r d g => tmpx D v (Some v) d g /\ r = Good tt).
    - apply T_op; [auto with st|auto with st|]. intros d g [Ho Hf]. exists g. cbn [fexec fst snd].
      pose proof (ow_last _ _ _ _ _ _ _ _ _ _ _ Ho) as Hl0. unfold unfinished in Hl0. rewrite (tn n name fl bs Hsh t Ht) in Hl0.
      destruct (files d !! tmp_name b) as [w|] eqn:Ew.
      + subst w. split; [apply ok_same|]. split; [|reflexivity]. split; [split; auto|exact Ew].
      + subst v. assert (Hl : forall y, y <> tmp_name b -> <[tmp_name b := []]> (files d) !! y = files d !! y) by (intros y Hy; apply lookup_insert_ne; auto).
        split; [eapply ok_tmp; eauto|]. split; [|reflexivity]. split; [split; [|exact Hf]|apply lookup_insert].
        eapply own_tmp; [exact Ho|exact Hl|apply lookup_insert|constructor|constructor].
    - intros []. unfold file_write. eapply T_bind with (Qm := fun r d g => tmpx D v (Some v) d g /\ r = Good tt).
      + apply T_look; [auto with st|auto with st|reflexivity|]. intros d g [H _]. split; [exact H|].
        cbn [fexec fst]. apply utf8_enc in Hu. unfold enc in Hu. rewrite Hu. reflexivity.
      + intros []. eapply T_bind; [eapply T_conseq; [apply (T_put_tmp D s v _ Hn Hu)| |intros r d g H; exact H]; intros d g [H _]; exact H| |].
        * intros []. apply T_ret; [auto with st|]. intros d g [H _]. eauto.
        * intros e d g [_ E]. discriminate.
      + intros e d g [_ E]. discriminate.
    - intros e d g [_ E]. discriminate.
  Qed.

  (** ** write *)
  Lemma utf8_app s s' : utf8 (s ++ s') <-> utf8 s /\ utf8 s'.
  Proof. apply List.Forall_app. Qed.
  Lemma utf8_seg s : utf8 s -> List.Forall utf8 (fst (seg s)) /\ utf8 (snd (seg s)).
  Proof.
    intros H. apply utf8_enc in H. destruct (enc_seg s H) as [H1 H2]. split; [|apply utf8_enc, H2].
    eapply List.Forall_impl; [|exact H1]. intros x Hx. apply utf8_enc, Hx.
  Qed.

  Definition piece (data : text) (v : text) : list text * text :=
    match seg data with
    | ([], r) => ([], v ++ r)
    | (l :: ls, r) => ((v ++ l) :: ls, r)
    end.

  Lemma T_write_body D v data rest : utf8 data -> utf8 v -> full t = D ++ last_items m (fst (piece data v)) ++ rest ->
    (ord -> length (fst (piece data v)) <= 1) ->
    T [] (idle D v) (fb_write_body b data)
      (fun r d g => idle (D ++ last_items m (fst (piece data v))) (snd (piece data v)) d g /\ exists k, r = Good k).
  Proof.
    intros Hu Hv Hfull Hord. unfold fb_write_body. cbv zeta. rewrite splitlines_single.
    destruct (utf8_seg data Hu) as [Hs1 Hs2]. destruct (seg_no_break data) as [Hn1 Hn2].
    unfold piece in *. destruct (single_break data) eqn:Es.
    - unfold single_break in Es. destruct (seg data) as [[|l ls] r] eqn:E; [discriminate|].
      destruct l; [|discriminate]. destruct ls; [|discriminate]. destruct r; [|discriminate].
      cbn [fst snd] in *. rewrite app_nil_r in *.
      eapply T_bind; [apply T_get_last; reflexivity| |intros e d g [_ E1]; discriminate]. intros l.
      eapply T_bind with (Qm := fun r d g => idle (D ++ last_items m [v]) v d g /\ r = Good tt).
      + apply T_when. intros E1. injection E1 as ->. unfold fb_parse_lines.
        exact (T_update n name fl bs m full ord l0 Hsh Hmax t Ht D v [v] rest ltac:(constructor; [exact Hv|constructor]) Hfull Hord).
      + intros []. eapply T_bind; [eapply T_conseq; [apply T_clean| |intros r d g H; exact H]; intros d g [H _]; exact H| |].
        * intros []. apply T_ret; [auto with st|]. intros d g [H _]. eauto.
        * intros e d g [_ E1]. discriminate.
      + intros e d g [_ E1]. discriminate.
    - rewrite is_end_seg, splitlines_seg. destruct (seg data) as [[|l ls] r] eqn:E; simpl in Hs1, Hs2, Hn1, Hn2; cbn [fst snd] in *.
      + change (last_items m []) with (@nil text) in *. rewrite app_nil_r. destruct r as [|c r].
        * cbn. rewrite app_nil_r. apply T_ret; [auto with st|]. intros d g H. eauto.
        * cbn [fst snd opt_line app length]. apply T_write_last; auto.
      + assert (Hgen : forall x, utf8 x -> no_break x ->
          T [] (idle D v) (match (l :: ls) ++ [x] with
                | [] => Ret 0 | [y] => fb_write_last_line b y
                | y :: rest => l0 <- fb_get_last_line b ;;
                    fb_parse_lines b (removelast ((l0 ++ y) :: rest)) ;;
                    fb_clean_last_line b ;; fb_write_last_line b (last rest []) end)
              (fun r d g => idle (D ++ last_items m ((v ++ l) :: ls)) x d g /\ exists k, r = Good k)).
        { intros x Hx Hnx. cbn [app]. destruct (ls ++ [x]) as [|y ys] eqn:Ey; [destruct ls; discriminate|].
          rewrite <- Ey. clear y ys Ey.
          eapply T_bind; [apply T_get_last; reflexivity| |intros e d g [_ E1]; discriminate]. intros w.
          rewrite removelast_cons_app, last_last.
          eapply T_bind with (Qm := fun r d g => idle (D ++ last_items m ((v ++ l) :: ls)) v d g /\ r = Good tt).
          - apply T_when. intros E1. injection E1 as ->. unfold fb_parse_lines.
            assert (Hls : List.Forall utf8 ((v ++ l) :: ls)).
            { inversion Hs1; subst. constructor; [apply utf8_app; auto|assumption]. }
            exact (T_update n name fl bs m full ord l0 Hsh Hmax t Ht D v ((v ++ l) :: ls) rest Hls Hfull Hord).
          - intros []. eapply T_bind; [eapply T_conseq; [apply T_clean| |intros r1 d g H; exact H]; intros d g [H _]; exact H| |].
            + intros []. eapply T_conseq; [apply (T_write_last (D ++ last_items m ((v ++ l) :: ls)) [] x Hnx Hx)| |intros r1 d g H; exact H].
              intros d g [H _]. exact H.
            + intros e d g [_ E1]. discriminate.
          - intros e d g [_ E1]. discriminate. }
        destruct r as [|c r]; cbn [opt_line].
        * rewrite app_nil_r. apply Hgen; auto.
        * apply Hgen; auto.
  Qed.

  Lemma T_closed hs D v : T hs (idle D v) (fb_closed b) (fun r d g => idle D v d g /\ r = Good false).
  Proof.
    unfold fb_closed. apply T_look; [auto with st|auto with st|reflexivity|]. intros d g H. split; [exact H|].
    cbn [fexec fst]. rewrite (ow_open _ _ _ _ _ _ _ _ _ _ _ (proj1 H)). reflexivity.
  Qed.
  Lemma T_both mo D v : T [] (idle D v) (with_lock (b_tl b) mo (with_lock (b_fl b) mo (c <- fb_closed b ;; Ret (negb c))))
    (fun r d g => idle D v d g /\ r = Good true).
  Proof.
    apply T_tl; auto with st. rewrite fl_b. pose proof tl_fl as Hne. apply Nat.eqb_neq in Hne.
    apply T_with; [apply (sh_fl _ _ _ _ Hsh)|rewrite cx_cons, Hne; reflexivity|rewrite cs_cons, Hne; reflexivity|auto with st|auto with st|auto with st|intros _ _ r d g [[_ H] _]; exact H|].
    eapply T_bind; [apply T_closed| |intros e d g [_ E]; discriminate]. intros c. apply T_ret; [auto with st|].
    intros d g [H E]. injection E as ->. auto.
  Qed.

  Lemma T_write D v data rest : utf8 data -> utf8 v -> full t = D ++ last_items m (fst (piece data v)) ++ rest ->
    (ord -> length (fst (piece data v)) <= 1) ->
    T [] (idle D v) (fb_write b data)
      (fun r d g => idle (D ++ last_items m (fst (piece data v))) (snd (piece data v)) d g /\ exists k, r = Good k).
  Proof.
    intros Hu Hv Hfull Hord. unfold fb_write. eapply T_bind; [apply T_both| |intros e d g [_ E]; discriminate].
    intros w. apply T_when. intros E. injection E as ->. cbn [negb]. exact (T_write_body D v data rest Hu Hv Hfull Hord).
  Qed.

  Lemma T_send_exc D v e rest : utf8 (ex_text e) -> full t = D ++ last_items m [exc_text e] ++ rest ->
    T [] (idle D v) (fb_send_exc b e) (fun r d g => idle (D ++ last_items m [exc_text e]) v d g /\ r = Good tt).
  Proof.
    intros Hu Hfull. unfold fb_send_exc. eapply T_bind; [apply T_closed| |intros e0 d g [_ E]; discriminate].
    intros c. apply T_when. intros E. injection E as ->. rewrite gm_str_exc.
    refine (T_update n name fl bs m full ord l0 Hsh Hmax t Ht D v [exc_text e] rest _ Hfull _).
    - constructor; [apply exc_text_utf8, Hu|constructor].
    - simpl. lia.
  Qed.

  Lemma T_new_line D v rest : utf8 v -> full t = D ++ last_items m (own_line v) ++ rest ->
    T [] (idle D v) (fb_new_line b) (fun r d g => idle (D ++ last_items m (own_line v)) [] d g /\ r = Good tt).
  Proof.
    intros Hv Hfull. unfold fb_new_line. eapply T_bind; [apply T_closed| |intros e0 d g [_ E]; discriminate].
    intros c. apply T_when. intros E. injection E as ->.
    eapply T_bind; [apply T_get_last; reflexivity| |intros e0 d g [_ E]; discriminate].
    intros l. apply T_when. intros E. injection E as ->. destruct v as [|c v].
    - cbn [own_line]. change (last_items m []) with (@nil text). rewrite app_nil_r. apply T_ret; [auto with st|auto].
    - cbn [own_line] in *.
      eapply T_bind; [apply (T_write_body D (c :: v) [LF] rest)| |].
      + repeat constructor; unfold LF; lia.
      + exact Hv.
      + unfold piece. change (seg [LF]) with ([[]] : list text, [] : text). cbn [fst]. rewrite app_nil_r. exact Hfull.
      + intros _. unfold piece. change (seg [LF]) with ([[]] : list text, [] : text). simpl. lia.
      + intros k. apply T_ret; [auto with st|]. intros d g [H _]. split; [|reflexivity].
        unfold piece in H. change (seg [LF]) with ([[]] : list text, [] : text) in H. cbn [fst snd] in H. rewrite app_nil_r in H. exact H.
      + intros e0 d g [_ [k E]]. discriminate.
  Qed.

  (** ** Reading *)
  Definition frozen_hist (g : ghost) : history := firstn (frozen g) (hist g).
  Notation SL := [(fl, Sh)].
  Lemma cs_fl hs : 0 < cs fl ((fl, Sh) :: hs).
  Proof. rewrite cs_cons, Nat.eqb_refl. simpl. lia. Qed.
  Definition iny (D : list text) (v : text) (F : history -> gmap nat nat -> Prop) (d : fdir) (g : ghost) : Prop :=
    idle D v d g /\ length (hist g) <= frozen g /\ F (hist g) (pos g).
  Lemma stab_iny D v F : stab SL (iny D v F).
  Proof.
    intros x x' HR Hh (H1 & H2 & H3). split; [exact (stab_idle n name fl bs m full ord l0 Hsh t SL D v Ht x x' HR Hh H1)|].
    destruct (Hh fl) as [_ E]. pose proof (cs_fl []) as Hc. destruct (r_held _ _ _ _ _ _ _ _ _ _ _ HR) as (_ & A1 & A2 & A3 & A4); [right; lia|].
    destruct (r_mono _ _ _ _ _ _ _ _ _ _ _ HR) as (A5 & _). rewrite A1, A2. split; [lia|exact H3].
  Qed.
  Local Hint Resolve stab_iny : st.

  Lemma T_count_s D v bound :
    T SL (idle D v) (fb_count b bound) (fun r => iny D v (fun _ p => exists c, r = Good c /\ counted bound p c)).
  Proof.
    unfold fb_count.
    eapply T_bind with (Qm := fun r => iny D v (fun _ p => exists l, r = Good l /\ counted bound p (count_true l))).
    - apply T_op; [auto with st|auto with st|]. intros d g Hi. pose proof (ow_inv _ _ _ _ _ _ _ _ _ _ _ (proj1 Hi)) as I.
      exists (mkG (hist g) (pos g) (length (hist g)) (flag g)).
      rewrite (listed_has n name fl bs m full ord l0 Hsh t Ht bound d g I). cbn [fst snd]. pose proof (cs_fl []) as Hc.
      assert (Hok : ok t SL d g d (mkG (hist g) (pos g) (length (hist g)) (flag g))).
      { split; simpl; auto 10.
        - split; [apply I|]. split; [auto|]. intros u _. tauto.
        - intros [I1 I2 I3 I4 I5 I6 I7]. split; simpl; auto. }
      split; [exact Hok|]. destruct Hi as [[O1 O2 O3 O4 O5 O6] Hf]. split; [|split].
      + split; [split; auto|exact Hf]. apply (o_inv _ _ _ _ _ _ _ _ _ _ _ _ _ _ Hok), I.
      + simpl. lia.
      + eexists. split; [reflexivity|]. cbn [pos]; eapply counted_has; eassumption.
    - intros l. apply T_ret; [auto with st|]. intros d g (H1 & H2 & l' & E & H3). injection E as <-.
      split; [exact H1|]. split; [exact H2|]. eauto.
    - intros e d g (_ & _ & l & E & _). discriminate.
  Qed.

  Definition reads (k : nat) (h : history) (p : gmap nat nat) (ts : list text) : Prop :=
    exists ids, Forall2 (fun i e => p !! i = Some e) (rev (seq 0 k)) ids /\ shows h ids ts.
  Lemma T_read_files D v : forall k F,
    T SL (iny D v (fun h p => (forall i, i < k -> p !! i <> None) /\ F h p)) (fb_read_files b k)
      (fun r => iny D v (fun h p => (exists ts, r = Good ts /\ reads k h p ts) /\ F h p)).
  Proof.
    induction k as [|k IH]; intros F; cbn [fb_read_files].
    { apply T_ret; [auto with st|]. intros d g (H1 & H2 & H3 & H4). split; [exact H1|]. split; [exact H2|]. split; [|exact H4].
      exists []. split; [reflexivity|]. exists []. split; constructor. }
    eapply T_bind with (Qm := fun r => iny D v (fun h p => (forall i, i < k -> p !! i <> None) /\
      (exists e o s x, r = Good x /\ p !! k = Some e /\ nth_error h e = Some (o, s) /\ newlines s x) /\ F h p)).
    { apply T_look; [auto with st|auto with st|reflexivity|]. intros d g (H1 & H2 & H3 & H4). split; [exact H1|]. split; [exact H2|].
      split; [intros i Hi; apply H3; lia|]. split; [|exact H4]. destruct (pos g !! k) as [e|] eqn:Ee; [|exfalso; apply (H3 k); [lia|exact Ee]].
      pose proof (ow_inv _ _ _ _ _ _ _ _ _ _ _ (proj1 H1)) as I. pose proof (j_files _ _ _ _ _ _ _ I k) as Hk. rewrite Ee in Hk.
      destruct (j_pos _ _ _ _ _ _ _ I k e Ee) as [_ Hl]. apply nth_error_Some in Hl.
      destruct (nth_error (hist g) e) as [[o s]|] eqn:En; [|contradiction]. simpl in Hk.
      cbn [fexec fst]. rewrite rn', Hk. exists e, o, s, (uni s). repeat split; auto. apply newlines_uni. }
    2: { intros e d g (_ & _ & _ & (? & ? & ? & ? & E & _) & _). discriminate. }
    intros x. eapply T_bind.
    { eapply T_conseq; [apply (IH (fun h p => (exists e o s, p !! k = Some e /\ nth_error h e = Some (o, s) /\ newlines s x) /\ F h p))| |intros r d g H; exact H].
      intros d g (H1 & H2 & H3 & (e & o & s & x' & E & E1 & E2 & E3) & H4). injection E as <-.
      split; [exact H1|]. split; [exact H2|]. split; [exact H3|]. split; [|exact H4]. eauto 6. }
    2: { intros e d g (_ & _ & (? & E & _) & _). discriminate. }
    intros xs. apply T_ret; [auto with st|].
    intros d g (H1 & H2 & (ts & E & ids & I1 & I2) & (e & o & s & E1 & E2 & E3) & H4). injection E as <-.
    split; [exact H1|]. split; [exact H2|]. split; [|exact H4]. eexists. split; [reflexivity|].
    exists (e :: ids). rewrite seq_S, rev_app_distr. split; constructor; eauto.
  Qed.

  Lemma reads_ok d g k ts : inv d g -> reads k (hist g) (pos g) ts ->
    exists ids, List.NoDup ids /\ (ord -> increasing ids) /\ shows (hist g) ids ts /\ length ts = k.
  Proof.
    intros I (ids & H1 & H2). exists ids.
    assert (Hlen : length ts = k).
    { apply Forall2_length in H1, H2. rewrite rev_length, seq_length in H1. lia. }
    split; [|split; [|split; [exact H2|exact Hlen]]].
    - clear H2 Hlen. revert ids H1. induction k as [|k IH]; intros ids H1.
      + inversion H1; subst. constructor.
      + rewrite seq_S, rev_app_distr in H1. simpl in H1. inversion H1 as [|? e ? ids' He Hi]; subst. constructor; [|apply IH, Hi].
        intros Hin. apply elem_of_list_In, elem_of_list_lookup in Hin. destruct Hin as [j Hj].
        destruct (Forall2_lookup_r _ _ _ _ _ Hi Hj) as (i & Hx & Hy). pose proof (j_inj _ _ _ _ _ _ _ I _ _ _ He Hy) as <-.
        apply elem_of_list_lookup_2, elem_of_list_In in Hx. apply in_rev, in_seq in Hx. lia.
    - intros Hord. destruct (j_ord _ _ _ _ _ _ _ I Hord) as (O1 & _). clear H2 Hlen. revert ids H1. induction k as [|k IH]; intros ids H1.
      + inversion H1; subst. constructor.
      + rewrite seq_S, rev_app_distr in H1. simpl in H1. inversion H1 as [|? e ? ids' He Hi]; subst. constructor; [|apply IH, Hi].
        apply List.Forall_forall. intros y Hin. apply elem_of_list_In, elem_of_list_lookup in Hin. destruct Hin as [j Hj].
        destruct (Forall2_lookup_r _ _ _ _ _ Hi Hj) as (i & Hx & Hy). apply (O1 i k); auto.
        apply elem_of_list_lookup_2, elem_of_list_In in Hx. apply in_rev, in_seq in Hx. lia.
  Qed.

  Lemma answered_mono h h' v c r : (forall e x, nth_error h e = Some x -> nth_error h' e = Some x) ->
    answered m ord h v c r -> answered m ord h' v c r.
  Proof.
    intros Hh. destruct c; cbn [answered]; auto. intros [H|(H1 & ids & ts & H2 & H3 & H4 & H5 & H6)]; [auto|]. right. split; [exact H1|].
    exists ids, ts. repeat (split; [assumption|]). split; [|exact H6]. eapply Forall2_impl; [exact H5|]. intros e x (o & s & E & Hn). eauto.
  Qed.
  Lemma frozen_grows u x x' : R u x x' -> forall e y, nth_error (frozen_hist (snd x)) e = Some y -> nth_error (frozen_hist (snd x')) e = Some y.
  Proof.
    intros HR e y. destruct (r_mono _ _ _ _ _ _ _ _ _ _ _ HR) as (A1 & A2 & _). unfold frozen_hist. intros E.
    assert (He : e < frozen (snd x)).
    { assert (nth_error (firstn (frozen (snd x)) (hist (snd x))) e <> None) as H by congruence. apply nth_error_Some in H.
      rewrite firstn_length in H. lia. }
    rewrite <- (firstn_skipn (frozen (snd x')) (hist (snd x'))) in A2.
    rewrite <- (firstn_skipn (frozen (snd x)) (hist (snd x))) in A2. specialize (A2 e He).
    rewrite (nth_error_app1 (firstn (frozen (snd x)) _)) in A2 by (apply nth_error_Some; congruence). rewrite E in A2.
    destruct (Nat.lt_ge_cases e (length (firstn (frozen (snd x')) (hist (snd x'))))) as [Hl|Hl].
    - rewrite nth_error_app1 in A2 by exact Hl. exact A2.
    - rewrite nth_error_app2 in A2 by exact Hl. rewrite firstn_length in Hl. rewrite firstn_length in A2.
      assert (Hz : length (skipn (frozen (snd x')) (hist (snd x'))) = 0) by (rewrite skipn_length; lia).
      apply length_zero_iff_nil in Hz. rewrite Hz in A2. destruct (e - _); discriminate.
  Qed.
  Definition said (D : list text) (v1 v : text) (c : fcall) (r : outcome fres) (d : fdir) (g : ghost) : Prop :=
    idle D v1 d g /\ answered m ord (frozen_hist g) v c r.
  Lemma stab_said hs D v1 v c r : stab hs (said D v1 v c r).
  Proof.
    intros x x' HR Hh [H1 H2]. split; [exact (stab_idle n name fl bs m full ord l0 Hsh t hs D v1 Ht x x' HR Hh H1)|].
    eapply answered_mono; [eapply frozen_grows, HR|exact H2].
  Qed.
  Local Hint Resolve stab_said : st.

  Definition say (size : option Z) (D : list text) (v : text) (r : outcome (list text)) : fdir -> ghost -> Prop :=
    said D v v (XRead size) (match r with Good ts => Good (VTexts ts) | Fail e => Fail e | Block => Block end).
  Lemma stab_say hs size D v r : stab hs (say size D v r).
  Proof. apply stab_said. Qed.
  Local Hint Resolve stab_say : st.

  Lemma own_match v : match v with [] => [] | _ :: _ => [v] end = own_line v.
  Proof. destruct v; reflexivity. Qed.

  Lemma T_read_locked D v size (lim : nat -> nat) : (forall c, lim c <= c) ->
    (forall z, size = Some z -> (0 < z)%Z) ->
    (forall z c, size = Some z -> lim c + length (own_line v) <= Z.to_nat z) ->
    T [] (idle D v) (with_lock fl Sh
      (n_current <- fb_count b (match v with [] => m | _ => m - 1 end) ;;
       res <- fb_read_files b (lim n_current) ;;
       Ret (res ++ match v with [] => [] | _ => [v] end))) (say size D v).
  Proof.
    intros Hl1 Hz Hl2. pose proof (m_pos n name fl bs m Hsh Hmax t Ht) as Hm1.
    apply T_with; [apply (sh_fl _ _ _ _ Hsh)|reflexivity|reflexivity|auto with st|auto with st|auto with st|discriminate|].
    eapply T_bind; [apply T_count_s| |intros e d g (_ & _ & ? & E & _); discriminate]. intros c.
    eapply T_bind.
    { eapply T_conseq; [apply (T_read_files D v (lim c) (fun _ _ => c <= match v with [] => m | _ => m - 1 end))| |intros r d g H; exact H].
      intros d g (H1 & H2 & c' & E & C1 & C2 & C3). injection E as <-. split; [exact H1|]. split; [exact H2|].
      split; [intros i Hi; apply C2; specialize (Hl1 c); lia|exact C1]. }
    2: { intros e d g (_ & _ & (? & E & _) & _). discriminate. }
    intros xs. apply T_ret; [auto with st|]. intros d g (H1 & H2 & (ts & E & Hr) & Hc). injection E as <-.
    destruct (reads_ok d g (lim c) xs (ow_inv _ _ _ _ _ _ _ _ _ _ _ (proj1 H1)) Hr) as (ids & I1 & I2 & I3 & I4).
    split; [exact H1|]. cbn [answered]. right. split; [exact Hz|]. exists ids, xs. rewrite own_match. split; [reflexivity|].
    split; [exact I1|]. split; [exact I2|]. split; [unfold frozen_hist; rewrite firstn_all2 by exact H2; exact I3|].
    rewrite app_length, I4. split; [|intros z Ez; apply Hl2, Ez]. specialize (Hl1 c). destruct v; simpl; lia.
  Qed.

  Lemma T_read D v size : T [] (idle D v) (fb_read b size) (say size D v).
  Proof.
    unfold fb_read. eapply T_bind; [apply (T_both Sh)| |intros e d g [_ E]; discriminate].
    intros w. apply T_when. intros E. injection E as ->. cbn [negb].
    assert (Hgen : forall lim : text -> nat -> nat, (forall z, size = Some z -> (0 < z)%Z) ->
      (forall l c, lim l c <= c) -> (forall z l c, size = Some z -> lim l c + length (own_line l) <= Z.to_nat z) ->
      T [] (idle D v) (last_line <- fb_get_last_line b ;;
          with_lock (b_fl b) Sh
            (n_current <- fb_count b (match last_line with [] => b_max b | _ => b_max b - 1 end) ;;
             res <- fb_read_files b (lim last_line n_current) ;;
             Ret (res ++ match last_line with [] => [] | _ => [last_line] end))) (say size D v)).
    { intros lim Hz Hl1 Hl2. eapply T_bind; [apply T_get_last; reflexivity| |intros e d g [_ E]; discriminate].
      intros l. apply T_when. intros E. injection E as ->. rewrite fl_b, (Hmax t Ht).
      apply (T_read_locked D v size (lim v)); auto. }
    destruct size as [z|].
    - destruct (Z.leb_spec z 0) as [Hz|Hz].
      + apply T_ret; [auto with st|]. intros d g H. split; [exact H|]. left. eauto.
      + refine (Hgen (fun l c => Nat.min (match l with [] => Z.to_nat z | _ => Z.to_nat z - 1 end) c) _ _ _).
        * intros z' E. injection E as <-. exact Hz.
        * intros l c. lia.
        * intros z' l c E. injection E as <-. destruct l; simpl; lia.
    - refine (Hgen (fun l c => c) _ _ _); auto; discriminate.
  Qed.

  (** ** All calls *)
  Lemma T_as {X} (f : X -> fres) hs P (p : prog fcmd X) (Q : outcome fres -> fdir -> ghost -> Prop) :
    T hs P p (fun r => Q (match r with Good x => Good (f x) | Fail e => Fail e | Block => Block end)) ->
    (forall r, stab hs (Q r)) -> T hs P (as_fres f p) Q.
  Proof.
    intros Hp HQ. unfold as_fres. eapply T_bind; [exact Hp| |auto].
    intros a. apply T_ret; auto.
  Qed.

  Lemma adds_piece data v bt v1 : adds (XWrite data) v bt v1 -> utf8 data /\ piece data v = (bt, v1).
  Proof.
    intros H. inversion H as [? ? ? Hu Hs|? ? ? ? ? Hu Hs| | |? ? Hc]; subst; try contradiction; (split; [exact Hu|]);
      apply segments_seg in Hs; unfold piece; rewrite Hs; reflexivity.
  Qed.
  Lemma adds_look c v bt v1 : match c with XWrite _ | XNewLine | XSendExc _ | XClear | XClose _ => False | _ => True end ->
    adds c v bt v1 -> bt = [] /\ v1 = v.
  Proof. intros Hc H. destruct H; try contradiction. auto. Qed.

  Lemma T_call D v c bt v1 rest : utf8 v -> logging c -> adds c v bt v1 -> full t = D ++ last_items m bt ++ rest ->
    (ord -> length bt <= 1) -> T [] (idle D v) (fb_call b c) (said (D ++ last_items m bt) v1 v c).
  Proof.
    intros Hv Hlog Ha Hfull Hord. pose proof (m_pos n name fl bs m Hsh Hmax t Ht) as Hm1.
    assert (Hsimple : forall (p : prog fcmd fres) r0, match c with XWrite _ | XNewLine | XSendExc _ | XClear | XClose _ => False | _ => True end ->
      (forall h, answered m ord h v c r0) ->
      T [] (idle D v) p (fun r d g => idle D v d g /\ r = r0) -> T [] (idle D v) p (said (D ++ last_items m bt) v1 v c)).
    { intros p r0 Hc Hr Hp. destruct (adds_look c v bt v1 Hc Ha) as [-> ->]. eapply T_conseq; [exact Hp|auto|].
      intros r d g [H ->]. change (last_items m []) with (@nil text). rewrite app_nil_r. split; [exact H|apply Hr]. }
    destruct c; cbn [fb_call logging] in *; try contradiction.
    - destruct (adds_piece data v bt v1 Ha) as [Hu Ep]. apply T_as; [|auto with st].
      pose proof (T_write D v data rest Hu Hv) as Hw. rewrite Ep in Hw. eapply T_conseq; [exact (Hw Hfull Hord)|auto|].
      intros r d g [H [k ->]]. split; [exact H|]. cbn [answered]. eauto.
    - destruct (adds_look (XRead size) v bt v1 I Ha) as [-> ->]. change (last_items m []) with (@nil text). rewrite app_nil_r.
      apply T_as; [|auto with st]. eapply T_conseq; [apply (T_read D v size)|auto|]. intros r d g H. exact H.
    - inversion Ha; subst. 2: contradiction. rewrite own_match in *. apply T_as; [|auto with st].
      eapply T_conseq; [apply (T_new_line D v rest Hv Hfull)|auto|]. intros r d g [H ->]. split; [exact H|reflexivity].
    - inversion Ha as [| | |? tx ? Hu He|? ? Hc]; subst. 2: contradiction. apply exc_record_eq in He. subst tx. apply T_as; [|auto with st].
      eapply T_conseq; [apply (T_send_exc D v1 e rest Hlog Hfull)|auto|]. intros r d g [H ->]. split; [exact H|reflexivity].
    - apply (Hsimple _ (Good VUnit) I); [reflexivity|]. apply T_ret; [auto with st|auto].
    - destruct (adds_look XLen v bt v1 I Ha) as [-> ->]. change (last_items m []) with (@nil text). rewrite app_nil_r.
      apply T_as; [|auto with st]. unfold fb_len. rewrite fl_b, (Hmax t Ht).
      eapply T_bind with (Qm := fun r d g => idle D v d g /\ exists c, r = Good c).
      { apply T_with; [apply (sh_fl _ _ _ _ Hsh)|reflexivity|reflexivity|auto with st|auto with st|auto with st|discriminate|].
        eapply T_conseq; [apply (T_count_s D v)|auto|]. intros r d g (H1 & _ & c & -> & _). eauto. }
      2: { intros e d g [_ [c E]]. discriminate. }
      intros c. eapply T_bind; [eapply T_conseq; [apply (T_get_last [] D v); reflexivity| |intros r d g H; exact H]; intros d g [H _]; exact H| |].
      + intros l. apply T_ret; [auto with st|]. intros d g [H E]. split; [exact H|]. cbn [answered]. eexists. split; [reflexivity|]. lia.
      + intros e d g [_ E]. discriminate.
    - apply (Hsimple _ (Good (VBool false)) I); [reflexivity|]. apply T_as; [|auto with st]. eapply T_conseq; [apply (T_closed [] D v)|auto|].
      intros r d g [H ->]. auto.
    - apply (Hsimple _ (Good (VBool true)) I); [reflexivity|]. apply T_as; [|auto with st]. eapply T_conseq; [apply (T_both Sh D v)|auto|].
      intros r d g [H ->]. auto.
    - apply (Hsimple _ (Good (VBool true)) I); [reflexivity|]. apply T_as; [|auto with st]. eapply T_conseq; [apply (T_both Ex D v)|auto|].
      intros r d g [H ->]. auto.
    - apply (Hsimple _ (Good (VNat m)) I); [reflexivity|]. unfold fb_maxlen. rewrite (Hmax t Ht). apply T_ret; [auto with st|auto].
    - apply (Hsimple _ (Fail OSError) I); [reflexivity|]. apply T_raise; [auto with st|auto].
    - apply (Hsimple _ (Fail OSError) I); [reflexivity|]. apply T_raise; [auto with st|auto].
    - apply (Hsimple _ (Good (VBool false)) I); [reflexivity|]. apply T_ret; [auto with st|auto].
    - apply (Hsimple _ (Good (VBool false)) I); [reflexivity|]. apply T_ret; [auto with st|auto].
  Qed.

  (** ** One process *)
  Inductive answered_seq (h : history) : list fcall -> text -> list (outcome fres) -> text -> Prop :=
  | as_nil v : answered_seq h [] v [] v
  | as_snoc cs v rs v1 c bt v2 r : answered_seq h cs v rs v1 -> adds c v1 bt v2 -> answered m ord h v1 c r ->
      answered_seq h (cs ++ [c]) v (rs ++ [r]) v2.
  Lemma seq_mono h h' cs v rs v1 : (forall e x, nth_error h e = Some x -> nth_error h' e = Some x) ->
    answered_seq h cs v rs v1 -> answered_seq h' cs v rs v1.
  Proof. intros Hh. induction 1; [constructor|]. econstructor; eauto. eapply answered_mono; eauto. Qed.
  Lemma seq_all h cs v rs v1 : answered_seq h cs v rs v1 -> forall cs2 rs2, answered_all m ord h cs2 v1 rs2 ->
    answered_all m ord h (cs ++ cs2) v (rs ++ rs2).
  Proof.
    induction 1 as [|cs v rs v1 c bt v2 r H IH Ha Hr]; intros cs2 rs2 H2; [exact H2|].
    rewrite <- !app_assoc. apply IH. econstructor; eauto.
  Qed.

  Definition upto (cs : list fcall) (v0 : text) (rs : list (outcome fres)) (D : list text) (v : text) (d : fdir) (g : ghost) : Prop :=
    idle D v d g /\ answered_seq (frozen_hist g) cs v0 rs v.
  Lemma stab_upto hs cs v0 rs D v : stab hs (upto cs v0 rs D v).
  Proof.
    intros x x' HR Hh [H1 H2]. split; [exact (stab_idle n name fl bs m full ord l0 Hsh t hs D v Ht x x' HR Hh H1)|].
    eapply seq_mono; [eapply frozen_grows, HR|exact H2].
  Qed.
  Local Hint Resolve stab_upto : st.

  (** Facts about the frozen part of the history are not lost. *)
  Lemma wp_frame {A} (p : prog fcmd A) (Q : outcome A -> st fdir * ghost -> Prop) (F : history -> Prop) :
    (forall h h', (forall e x, nth_error h e = Some x -> nth_error h' e = Some x) -> F h -> F h') ->
    forall x, wp R (KillFile.S n name fl bs m full ord l0) t p Q x -> F (frozen_hist (snd x)) ->
    wp R (KillFile.S n name fl bs m full ord l0) t p (fun r x' => Q r x' /\ F (frozen_hist (snd x'))) x.
  Proof.
    intros HF.
    assert (Hr : forall u x x', R u x x' -> F (frozen_hist (snd x)) -> F (frozen_hist (snd x'))).
    { intros u x x' HR. apply HF. eapply frozen_grows, HR. }
    induction p as [a|e|X c k IHk h IHh]; simpl; intros x H Hf x1 H1.
    - split; [auto|eapply Hr; eauto].
    - split; [auto|eapply Hr; eauto].
    - specialize (H x1 H1). destruct (exec t c (fst x1)) as [[a|e|] s2]; [| |exact I];
        (destruct H as (g2 & Hg & Hw); exists g2; split; [exact Hg|]);
        [apply IHk|apply IHh]; auto; (eapply (Hr (Datatypes.S t) x1 (s2, g2)); [apply Hg; lia|eapply Hr; eauto]).
  Qed.
  Lemma T_frame {A} hs P (p : prog fcmd A) (Q : outcome A -> fdir -> ghost -> Prop) (F : history -> Prop) :
    (forall h h', (forall e x, nth_error h e = Some x -> nth_error h' e = Some x) -> F h -> F h') ->
    T hs P p Q -> T hs (fun d g => P d g /\ F (frozen_hist g)) p (fun r d g => Q r d g /\ F (frozen_hist g)).
  Proof.
    intros HF Hp x Hh [H1 H2]. eapply wp_mono; [|apply (wp_frame p _ F HF x (Hp x Hh H1) H2)].
    intros r x' [[A1 A2] A3]. auto.
  Qed.

  Lemma adds_facts c v bt v1 : no_break v -> utf8 v -> adds c v bt v1 -> no_break v1 /\ utf8 v1.
  Proof.
    intros Hn Hu H. destruct H as [data r v Hd Hs|data l ls r v Hd Hs|v|e tx v He Ht'|c v Hc].
    - apply segments_seg in Hs. destruct (utf8_seg data Hd) as [_ A]. destruct (seg_no_break data) as [_ B]. rewrite Hs in *. simpl in *.
      split; [apply no_break_app; auto|apply utf8_app; auto].
    - apply segments_seg in Hs. destruct (utf8_seg data Hd) as [_ A]. destruct (seg_no_break data) as [_ B]. rewrite Hs in *. auto.
    - split; constructor.
    - auto.
    - auto.
  Qed.

  Lemma T_thread : forall cs done v0 rs D v bts v',
    no_break v -> utf8 v -> List.Forall logging cs -> adds_all cs v bts v' -> full t = D ++ concat (map (last_items m) bts) ->
    (ord -> List.Forall (fun bt => length bt <= 1) bts) ->
    T [] (fun d g => upto done v0 (rev rs) D v d g) (thread_from rs (map (fb_call b) cs))
      (fun r d g => idle (full t) v' d g /\ exists rs', r = Good rs' /\ answered_all m ord (frozen_hist g) (done ++ cs) v0 rs').
  Proof.
    induction cs as [|c cs IH]; intros done v0 rs D v bts v' Hn Hu Hlog Ha Hfull Hord; cbn [map thread_from].
    - inversion Ha; subst. simpl in Hfull. rewrite app_nil_r in Hfull. apply T_ret; [auto with st|].
      intros d g [H1 H2]. rewrite Hfull. split; [exact H1|]. eexists. split; [reflexivity|].
      rewrite <- (app_nil_r (rev rs)). eapply seq_all; [exact H2|constructor].
    - inversion Ha as [|? ? ? bt v1 bts' ? Ha1 Ha2]; subst. inversion Hlog as [|? ? Hl1 Hl2]; subst. simpl in Hfull.
      eapply T_bind with (Qm := fun r d g => exists r1, r = Good r1 /\ said (D ++ last_items m bt) v1 v c r1 d g /\
        answered_seq (frozen_hist g) done v0 (rev rs) v).
      + apply T_attempt. eapply T_conseq.
        * apply (T_frame [] (idle D v) _ (said (D ++ last_items m bt) v1 v c) (fun h => answered_seq h done v0 (rev rs) v) (fun h h' Hh => seq_mono h h' _ _ _ _ Hh)).
          apply (T_call D v c bt v1 (concat (map (last_items m) bts'))); auto.
          intros Ho. specialize (Hord Ho). inversion Hord; auto.
        * intros d g [H1 H2]. auto.
        * intros r d g [H1 H2]. exists r. auto.
      + intros r. destruct (adds_facts c v bt v1 Hn Hu Ha1) as [Hn1 Hu1]. eapply T_conseq.
        * apply (IH (done ++ [c]) v0 (r :: rs) (D ++ last_items m bt) v1 bts' v'); auto.
          -- rewrite <- app_assoc. exact Hfull.
          -- intros Ho. specialize (Hord Ho). inversion Hord; auto.
        * intros d g (r1 & E & [H1 H2] & H3). injection E as <-. split; [exact H1|]. cbn [rev]. econstructor; eauto.
        * intros r1 d g H. rewrite <- app_assoc in H. exact H.
      + intros e d g (r1 & E & _). discriminate.
  Qed.
End Calls.
