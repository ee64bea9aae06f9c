(** * FileMore: clear, send_exc, close; the log as a list; lock discipline *)
From stdpp Require Import gmap.
From Coq Require Import String.
From Coq Require Import List NArith ZArith Bool Arith Lia.
From Verif Require Import PyStr Prog ProgFacts PyIO Base Spec SpecFacts LineBuf LineBufFacts Atomic
  FileBuf FileFacts FileSpec.
Import ListNotations.
Local Open Scope prog_scope.
Local Open Scope nat_scope.

(** ** Glob patterns *)
Lemma pat_tokens_lit s : plain s -> forall f r,
  pat_tokens (length s + f) (s ++ r) = map PLit s ++ pat_tokens f r.
Proof.
  induction 1 as [|c s (H1 & H2 & H3) _ IH]; intros f r; [reflexivity|].
  cbn [length Nat.add app pat_tokens map].
  destruct (N.eqb_spec c 42); [congruence|]. destruct (N.eqb_spec c 63); [congruence|].
  destruct (N.eqb_spec c 91); [congruence|]. rewrite IH. reflexivity.
Qed.

Lemma tok_match_lit s ts : forall x,
  tok_match (map PLit s ++ ts) x = true <-> exists y, x = s ++ y /\ tok_match ts y = true.
Proof.
  induction s as [|c s IH]; intros x; cbn [map app tok_match].
  - split; [intros H; exists x; auto|intros (y & -> & H); exact H].
  - destruct x as [|d x].
    + split; [discriminate|]. intros (y & H & _). discriminate.
    + rewrite andb_true_iff, N.eqb_eq, IH. split.
      * intros (-> & y & -> & H). eauto.
      * intros (y & H & Hy). injection H as -> ->. eauto.
Qed.

Lemma some_suffix_spec f s : some_suffix f s = true <-> exists a c, s = a ++ c /\ f c = true.
Proof.
  induction s as [|x s IH]; cbn [some_suffix].
  - rewrite orb_false_r. split; [intros H; exists [], []; auto|].
    intros (a & c & H & Hc). symmetry in H. apply app_eq_nil in H. destruct H as [-> ->]. exact Hc.
  - rewrite orb_true_iff, IH. split.
    + intros [H|(a & c & -> & H)]; [exists [], (x :: s); auto|exists (x :: a), c; auto].
    + intros ([|y a] & c & H & Hc); simpl in H; [subst c; auto|]. injection H as -> ->. right. eauto.
Qed.

Lemma fnmatch_log name x : plain name ->
  fnmatch (name ++ dash ++ txt "*.log") x = true <-> exists mid, x = name ++ dash ++ mid ++ txt ".log".
Proof.
  intros Hp. unfold fnmatch. rewrite app_assoc.
  assert (Hp' : plain (name ++ dash)).
  { apply List.Forall_app. split; [exact Hp|]. constructor; [|constructor]. repeat split; discriminate. }
  rewrite app_length, (pat_tokens_lit _ Hp').
  change (pat_tokens (length (txt "*.log")) (txt "*.log")) with (PStar :: map PLit (txt ".log") ++ []).
  rewrite tok_match_lit. cbn [tok_match]. split.
  - intros (y & -> & H). apply some_suffix_spec in H. destruct H as (a & c & -> & H).
    apply tok_match_lit in H. destruct H as (z & -> & H). destruct z; [|discriminate].
    rewrite app_nil_r. exists a. rewrite <- app_assoc. reflexivity.
  - intros (mid & ->). exists (mid ++ txt ".log"). rewrite <- app_assoc. split; [reflexivity|].
    apply some_suffix_spec. exists mid, (txt ".log"). split; [reflexivity|].
    apply tok_match_lit. exists []. rewrite app_nil_r. auto.
Qed.

Lemma glob_log name x : plain name ->
  glob_match (name ++ dash ++ txt "*.log") x = true <-> exists mid, x = name ++ dash ++ mid ++ txt ".log".
Proof.
  intros Hp. unfold glob_match. rewrite andb_true_iff, fnmatch_log by exact Hp. split; [tauto|].
  intros (mid & ->). split; [|eauto]. destruct name as [|c name]; cbn; destruct (N.eqb c 46) || reflexivity; reflexivity.
Qed.

(** Whatever is in [p]: what a pattern matches ends with the last character of the pattern
    (brackets close before it). *)
Lemma cut_bracket_app p q a r : (forall c, In c q -> c <> 93%N) -> cut_bracket (p ++ q) = Some (a, r) ->
  exists r', r = r' ++ q /\ length r' < length p.
Proof.
  intros Hq. revert a r. induction p as [|c p IH]; intros a r H; cbn [app cut_bracket] in H.
  - exfalso. revert a r H. induction q as [|c q IHq]; intros a r H; [discriminate|]. cbn [cut_bracket] in H.
    destruct (N.eqb_spec c 93) as [E|_]; [exact (Hq c (or_introl eq_refl) E)|].
    destruct (cut_bracket q) as [[a1 r1]|]; [|discriminate].
    eapply IHq; [|reflexivity]. intros x Hx. apply Hq. right. exact Hx.
  - destruct (N.eqb c 93).
    + injection H as <- <-. exists p. split; [reflexivity|]. cbn. lia.
    + destruct (cut_bracket (p ++ q)) as [[a1 r1]|]; [|discriminate]. injection H as <- <-.
      destruct (IH a1 r1 eq_refl) as (r' & -> & Hl). exists r'. split; [reflexivity|]. cbn. lia.
Qed.
Lemma bracket_app p q neg a r : (forall c, In c q -> c <> 93%N /\ c <> 33%N) -> bracket (p ++ q) = Some (neg, a, r) ->
  exists r', r = r' ++ q /\ length r' < length p.
Proof.
  intros Hq. assert (Hq' : forall c, In c q -> c <> 93%N) by (intros c Hc; apply Hq, Hc).
  assert (Hin : forall n p, match p ++ q with
       | [] => None
       | c :: s2 => if (c =? 93)%N
           then match cut_bracket s2 with Some (a0, r0) => Some (n, c :: a0, r0) | None => None end
           else match cut_bracket (p ++ q) with Some (a0, r0) => Some (n, a0, r0) | None => None end end = Some (neg, a, r) ->
     exists r', r = r' ++ q /\ length r' < length p).
  { clear p. intros n [|c p] H.
    - cbn [app] in H. destruct q as [|c q]; [discriminate|]. destruct (N.eqb_spec c 93) as [E|_]; [destruct (Hq' c (or_introl eq_refl) E)|].
      destruct (cut_bracket (c :: q)) as [[a1 r1]|] eqn:E; [|discriminate].
      apply (cut_bracket_app [] (c :: q)) in E; [|exact Hq']. destruct E as (r' & _ & Hl). cbn in Hl. lia.
    - cbn [app] in H. destruct (N.eqb c 93).
      + destruct (cut_bracket (p ++ q)) as [[a1 r1]|] eqn:E; [|discriminate]. injection H as _ _ <-.
        apply cut_bracket_app in E; [|exact Hq']. destruct E as (r' & -> & Hl). exists r'. split; [reflexivity|]. cbn. lia.
      + destruct (cut_bracket (c :: p ++ q)) as [[a1 r1]|] eqn:E; [|discriminate]. injection H as _ _ <-.
        apply (cut_bracket_app (c :: p)) in E; [|exact Hq']. exact E. }
  unfold bracket. destruct p as [|c p].
  - cbn [app]. intros H. apply (Hin false []). cbn [app]. destruct q as [|c q]; [exact H|].
    destruct (N.eqb_spec c 33) as [E|_]; [exfalso; apply (proj2 (Hq c (or_introl eq_refl)) E)|]. exact H.
  - cbn [app]. destruct (N.eqb c 33).
    + intros H. destruct (Hin true p H) as (r' & -> & Hl). exists r'. split; [reflexivity|]. cbn. lia.
    + intros H. apply (Hin false (c :: p)). exact H.
Qed.
Lemma pat_tokens_end f : forall p, length p <= f -> exists ts,
  pat_tokens (f + 6) (p ++ dash ++ txt "*.log") = ts ++ [PLit 103%N].
Proof.
  assert (Hq : forall c, In c (dash ++ txt "*.log") -> c <> 93%N /\ c <> 33%N).
  { intros c Hc. cbn in Hc. repeat (destruct Hc as [<-|Hc]; [split; discriminate|]). destruct Hc. }
  induction f as [|f IH]; intros p Hp.
  - destruct p; [|cbn in Hp; lia]. cbn. exists [PLit 45%N; PStar; PLit 46%N; PLit 108%N; PLit 111%N]. reflexivity.
  - destruct p as [|c p].
    + destruct (IH [] ltac:(cbn; lia)) as [ts IHs]. cbn [app].
      exists (PLit 45%N :: PStar :: PLit 46%N :: PLit 108%N :: [PLit 111%N]).
      replace (S f + 6) with (6 + S f) by lia. cbn. destruct f; reflexivity.
    + cbn [length] in Hp. cbn [Nat.add app pat_tokens].
      assert (Hrec : forall t, exists ts, t :: pat_tokens (f + 6) (p ++ dash ++ txt "*.log") = ts ++ [PLit 103%N]).
      { intros t. destruct (IH p ltac:(lia)) as [ts ->]. exists (t :: ts). reflexivity. }
      destruct (N.eqb c 42); [apply Hrec|]. destruct (N.eqb c 63); [apply Hrec|]. destruct (N.eqb c 91); [|apply Hrec].
      destruct (bracket (p ++ dash ++ txt "*.log")) as [[[neg a] r]|] eqn:E; [|apply Hrec].
      apply bracket_app in E; [|exact Hq]. destruct E as (r' & -> & Hl).
      destruct (IH r' ltac:(lia)) as [ts ->]. exists (PSet neg (set_ranges a) :: ts). reflexivity.
Qed.
Lemma tok_match_end ts a : forall x, tok_match (ts ++ [PLit a]) x = true -> exists y, x = y ++ [a].
Proof.
  induction ts as [|t ts IH]; intros x H; cbn [app tok_match] in H.
  - destruct x as [|c x]; [discriminate|]. apply andb_prop in H. destruct H as [H1 H2]. apply N.eqb_eq in H1. subst c.
    destruct x; [|discriminate]. exists []. reflexivity.
  - destruct t as [| |b|neg rs|]; [|destruct x as [|c x]; [discriminate|]..|discriminate].
    + apply some_suffix_spec in H. destruct H as (y & z & -> & H). destruct (IH z H) as [w ->].
      exists (y ++ w). rewrite app_assoc. reflexivity.
    + destruct (IH x H) as [w ->]. exists (c :: w). reflexivity.
    + apply andb_prop in H. destruct (IH x (proj2 H)) as [w ->]. exists (c :: w). reflexivity.
    + apply andb_prop in H. destruct (IH x (proj2 H)) as [w ->]. exists (c :: w). reflexivity.
Qed.
Lemma glob_not_tmp name b : glob_match (name ++ dash ++ txt "*.log") (tmp_name b) = false.
Proof.
  destruct (glob_match _ _) eqn:E; [|reflexivity]. exfalso. unfold glob_match in E. apply andb_prop in E. destruct E as [_ E].
  unfold fnmatch in E. rewrite app_length in E. change (length (dash ++ txt "*.log")) with 6 in E.
  destruct (pat_tokens_end (length name) name (le_n _)) as [ts Ht]. rewrite Ht in E.
  apply tok_match_end in E. destruct E as [y E]. apply (f_equal (fun s => last s 0%N)) in E.
  unfold tmp_name in E. rewrite !app_assoc in E. rewrite !last_app_ne in E by discriminate. discriminate.
Qed.

Section Clear.
  Variable b : fbuf.
  Notation R := (rec_name b).
  Notation T := (tmp_name b).
  Notation m := (b_max b).
  Notation dr fs cl := (mkfdir fs cl).
  Definition log_pat : text := b_name b ++ dash ++ txt "*.log".

  Definition dels (ns : list text) (fs : directory) : directory := fold_left (fun f n => delete n f) ns fs.
  Lemma dels_lookup ns : forall fs x, dels ns fs !! x = if in_dec text_eq_dec x ns then None else fs !! x.
  Proof.
    induction ns as [|n ns IH]; intros fs x; [reflexivity|]. cbn [dels fold_left].
    change (fold_left _ ns ?f) with (dels ns f). rewrite IH.
    destruct (in_dec text_eq_dec x ns) as [H|H].
    - destruct (in_dec text_eq_dec x (n :: ns)) as [H'|H']; [reflexivity|]. exfalso. apply H'. right. exact H.
    - destruct (in_dec text_eq_dec x (n :: ns)) as [[->|H']|H']; [apply lookup_delete|contradiction|].
      apply lookup_delete_ne. intros ->. apply H'. left. reflexivity.
  Qed.
  Lemma remove_all_run ns : List.NoDup ns -> forall fs cl, (forall x, In x ns -> fs !! x <> None) ->
    srun (fb_remove_all ns) (dr fs cl) = (Good tt, dr (dels ns fs) cl).
  Proof.
    induction 1 as [|n ns Hn _ IH]; intros fs cl H; [reflexivity|]. cbn [fb_remove_all].
    rewrite srun_bind, srun_op. cbn [cexec fsem fexec files fclosed].
    destruct (fs !! n) as [s|] eqn:E; [|exfalso; apply (H n); [left; reflexivity|exact E]].
    rewrite IH; [reflexivity|]. intros x Hx. rewrite lookup_delete_ne; [apply H; right; exact Hx|].
    intros ->. contradiction.
  Qed.

  Definition globbed (fs : directory) : list text :=
    map fst (map_to_list (base.filter (fun kv => glob_match log_pat (fst kv) = true) fs)).
  Lemma globbed_in fs x : In x (globbed fs) <-> fs !! x <> None /\ glob_match log_pat x = true.
  Proof.
    unfold globbed. rewrite in_map_iff. split.
    - intros ([y s] & H1 & H2). simpl in H1. subst y.
      apply elem_of_list_In, elem_of_map_to_list, map_filter_lookup_Some in H2. destruct H2 as [H2 H3].
      rewrite H2. split; [discriminate|exact H3].
    - intros [H1 H2]. destruct (fs !! x) as [s|] eqn:E; [|congruence].
      exists (x, s). split; [reflexivity|]. apply elem_of_list_In, elem_of_map_to_list, map_filter_lookup_Some. auto.
  Qed.
  Lemma globbed_nodup fs : List.NoDup (globbed fs).
  Proof. apply NoDup_ListNoDup. apply NoDup_fst_map_to_list. Qed.

  Definition fclear (fs : directory) : directory := delete T (dels (globbed fs) fs).
  Lemma clear_run fs cl : srun (fb_clear b) (dr fs cl) = (Good tt, dr (fclear fs) cl).
  Proof.
    unfold fb_clear. rewrite srun_bind, srun_with, srun_bind, srun_op. cbn [cexec fsem fexec files].
    fold log_pat. fold (globbed fs). rewrite remove_all_run.
    2: apply globbed_nodup.
    2: { intros x Hx. apply globbed_in in Hx. tauto. }
    rewrite srun_with, srun_bind, srun_op. cbn [cexec fsem fexec files]. unfold present, fclear.
    destruct (dels (globbed fs) fs !! T) as [s|] eqn:E.
    - rewrite srun_op. cbn [cexec fsem fexec files fclosed]. rewrite E. reflexivity.
    - rewrite delete_notin by exact E. reflexivity.
  Qed.
  Lemma fclear_lookup fs x : fclear fs !! x =
    if text_eqb x T then None else if glob_match log_pat x then None else fs !! x.
  Proof.
    unfold fclear. destruct (text_eqb x T) eqn:E.
    - apply text_eqb_eq in E. subst x. apply lookup_delete.
    - apply text_eqb_neq in E. rewrite lookup_delete_ne by auto. rewrite dels_lookup.
      destruct (in_dec text_eq_dec x (globbed fs)) as [H|H].
      + apply globbed_in in H. destruct H as [_ ->]. reflexivity.
      + destruct (glob_match log_pat x) eqn:G; [|reflexivity].
        destruct (fs !! x) eqn:Ef; [|reflexivity]. exfalso. apply H, globbed_in. rewrite Ef. auto.
  Qed.
  Lemma glob_T : plain (b_name b) -> glob_match log_pat T = false.
  Proof.
    intros Hp. destruct (glob_match log_pat T) eqn:E; [|reflexivity]. exfalso.
    apply (glob_log _ _ Hp) in E. destruct E as (mid & E). apply (f_equal (fun s => last s 0%N)) in E.
    unfold tmp_name in E. rewrite !app_assoc in E. rewrite !last_app_ne in E by discriminate. discriminate.
  Qed.
  Lemma fclear_rec fs i : plain (b_name b) -> fclear fs !! R i = None.
  Proof.
    intros Hp. rewrite fclear_lookup. destruct (text_eqb _ _); [reflexivity|].
    replace (glob_match log_pat (R i)) with true; [reflexivity|]. symmetry. apply (glob_log _ _ Hp).
    exists (dec_of_nat i). reflexivity.
  Qed.

  (** ** Exceptions *)
  Definition exc_text (e : excobj) : text := join [LF] (splitlines (ex_text e)).
  Lemma all_strs_map l : all_strs (map JStr l) = Some l.
  Proof. induction l as [|s l IH]; [reflexivity|]. cbn [map all_strs]. rewrite IH. reflexivity. Qed.
  Lemma gm_str_exc e : gm_str (gm_init (GMExc e)) = Good (exc_text e).
  Proof. unfold gm_str, gm_init. cbn [gm_data]. rewrite all_strs_map. reflexivity. Qed.

  Lemma send_exc_run e fs cl : 1 <= m -> enc (exc_text e) -> isclosed b cl = false ->
    srun (fb_send_exc b e) (dr fs cl) = (Good tt, dr (upd b [exc_text e] fs) cl).
  Proof.
    intros Hm He Hc. unfold fb_send_exc. rewrite srun_bind, closed_run. cbn [fclosed]. rewrite Hc, gm_str_exc.
    apply update_run; auto.
  Qed.
  Lemma send_exc_closed e d : isclosed b (fclosed d) = true -> srun (fb_send_exc b e) d = (Good tt, d).
  Proof. intros Hc. unfold fb_send_exc. rewrite srun_bind, closed_run, Hc. reflexivity. Qed.

  Lemma close_run exc fs cl : 1 <= m -> enc (lastl b fs) ->
    (forall e, exc = Some e -> enc (exc_text e)) -> isclosed b cl = false ->
    srun (fb_close b exc) (dr fs cl) =
    (Good tt, dr (match exc with
                  | Some e => upd b [exc_text e] fs
                  | None => match lastl b fs with [] => fs | _ => clean_tmp b (upd b [lastl b fs] fs) end
                  end) (<[b_id b := tt]> cl)).
  Proof.
    intros Hm Hl He Hc. unfold fb_close. rewrite srun_bind. destruct exc as [e|].
    - rewrite send_exc_run by auto. reflexivity.
    - rewrite new_line_run by auto. reflexivity.
  Qed.
  Lemma close_closed exc d : isclosed b (fclosed d) = true -> srun (fb_close b exc) d = (Good tt, d).
  Proof.
    intros Hc. unfold fb_close. rewrite srun_bind.
    assert (E : (if exc as _ return _ then srun (match exc with None => fb_new_line b | Some e => fb_send_exc b e end) d
                 else srun (match exc with None => fb_new_line b | Some e => fb_send_exc b e end) d) = (Good tt, d)).
    { destruct exc; [apply send_exc_closed, Hc|apply new_line_closed, Hc]. }
    destruct exc; rewrite E; rewrite srun_op; cbn [cexec fsem fexec]; destruct d as [fs cl]; cbn [files fclosed] in *;
      f_equal; f_equal; unfold isclosed in Hc; destruct (cl !! b_id b) as [[]|] eqn:E2; try discriminate;
      apply insert_id, E2.
  Qed.

  (** ** Lock discipline of the methods (sequential) *)
  Hypothesis Hlk : b_tl b <> b_fl b.
  Notation LS := [b_tl b; b_fl b].
  Hint Resolve bal_ret bal_raise bal_op : core.

  Lemma bal_put n s : bal LS (put_chars n s).
  Proof. induction s; cbn [put_chars]; [auto|]. apply bal_bind; auto. Qed.
  Lemma bal_file_write n s ls : bal ls (file_write n s).
  Proof.
    unfold file_write. apply bal_bind; [auto|]. intros _. apply bal_bind; [|auto].
    induction s; cbn [put_chars]; [auto|]. apply bal_bind; auto.
  Qed.
  Lemma bal_count n ls : bal ls (fb_count b n).
  Proof. apply bal_bind; auto. Qed.
  Lemma bal_tl {A} mo (p : prog fcmd A) : bal [] p -> bal LS (with_lock (b_tl b) mo p).
  Proof.
    intros H. apply (bal_weaken [b_tl b]); [intros l [->|[]]; left; reflexivity|]. apply bal_with; [exact H|intros []].
  Qed.
  Lemma bal_fl {A} mo (p : prog fcmd A) : bal [] p -> bal LS (with_lock (b_fl b) mo p).
  Proof.
    intros H. apply (bal_weaken [b_fl b]); [intros l [->|[]]; right; left; reflexivity|].
    apply bal_with; [exact H|intros []].
  Qed.
  Lemma bal_both {A} m1 m2 (p : prog fcmd A) :
    bal [] p -> bal LS (with_lock (b_tl b) m1 (with_lock (b_fl b) m2 p)).
  Proof.
    intros H. apply bal_with; [apply bal_with; [exact H|intros []]|]. intros [E|[]]. congruence.
  Qed.
  Lemma bal_get_last : bal LS (fb_get_last_line b).
  Proof. apply bal_tl. apply bal_bind; [auto|]. intros []; auto. Qed.
  Lemma bal_move n : forall k, bal [] (fb_move b k n).
  Proof.
    induction k as [|k IH]; cbn [fb_move]; [auto|]. apply bal_bind; [auto|]. intros e.
    apply bal_bind; [destruct e; auto|]. intros _. apply bal_bind; auto.
  Qed.
  Lemma bal_store ls : bal [] (fb_store b ls).
  Proof.
    induction ls as [|l ls IH]; cbn [fb_store]; [auto|]. apply bal_bind; [auto|]. intros _.
    apply bal_bind; [apply bal_file_write|auto].
  Qed.
  Lemma bal_update lines : bal LS (fb_update_records b lines).
  Proof.
    apply bal_fl. destruct lines; [auto|]. apply bal_bind; [apply bal_count|]. intros n.
    apply bal_bind; [apply bal_move|]. intros _. apply bal_store.
  Qed.
  Lemma bal_clean : bal LS (fb_clean_last_line b).
  Proof. apply bal_tl. auto. Qed.
  Lemma bal_write_last s : bal LS (fb_write_last_line b s).
  Proof. apply bal_tl. apply bal_bind; [auto|]. intros _. apply bal_file_write. Qed.
  Lemma bal_write_body data : bal LS (fb_write_body b data).
  Proof.
    unfold fb_write_body. cbv zeta. destruct (_ && _)%bool.
    - apply bal_bind; [apply bal_get_last|]. intros l. apply bal_bind; [apply bal_update|]. intros _.
      apply bal_bind; [apply bal_clean|auto].
    - destruct (if is_end_line_break data then _ else _) as [|x [|y ys]]; [auto|apply bal_write_last|].
      apply bal_bind; [apply bal_get_last|]. intros l. apply bal_bind; [apply bal_update|]. intros _.
      apply bal_bind; [apply bal_clean|]. intros _. apply bal_write_last.
  Qed.
  Lemma bal_closed ls : bal ls (fb_closed b).
  Proof. apply bal_op. Qed.
  Hint Resolve bal_closed : core.
  Lemma bal_new_line : bal LS (fb_new_line b).
  Proof.
    unfold fb_new_line. apply bal_bind; [auto|]. intros []; [auto|]. apply bal_bind; [apply bal_get_last|].
    intros [|c s]; [auto|]. apply bal_bind; [apply bal_write_body|auto].
  Qed.
  Lemma bal_send_exc e : bal LS (fb_send_exc b e).
  Proof.
    unfold fb_send_exc. apply bal_bind; [auto|]. intros []; [auto|]. rewrite gm_str_exc. apply bal_update.
  Qed.
  Lemma bal_read_files n : bal [] (fb_read_files b n).
  Proof.
    induction n as [|n IH]; cbn [fb_read_files]; [auto|]. apply bal_bind; [auto|]. intros x.
    apply bal_bind; auto.
  Qed.
  Lemma bal_read size : bal LS (fb_read b size).
  Proof.
    unfold fb_read. apply bal_bind; [apply bal_both; apply bal_bind; auto|]. intros r. destruct (negb r); [auto|].
    assert (H : forall f : text -> prog fcmd (list text), (forall l, bal [] (f l)) ->
      bal LS (l <- fb_get_last_line b ;; with_lock (b_fl b) Sh (f l))).
    { intros f Hf. apply bal_bind; [apply bal_get_last|]. intros l. apply bal_fl, Hf. }
    destruct size as [z|]; [destruct (z <=? 0)%Z; [auto|]|]; apply H; intros l;
      (apply bal_bind; [apply bal_count|]; intros n; apply bal_bind; [apply bal_read_files|auto]).
  Qed.
  Lemma bal_clear : bal LS (fb_clear b).
  Proof.
    apply bal_bind.
    - apply bal_fl. apply bal_bind; [auto|]. intros ns.
      induction ns as [|n ns IH]; cbn [fb_remove_all]; [auto|]. apply bal_bind; auto.
    - intros _. apply bal_tl. apply bal_bind; [auto|]. intros []; auto.
  Qed.
  Lemma bal_call c : bal LS (fb_call b c).
  Proof.
    destruct c; cbn [fb_call]; unfold as_fres; apply bal_bind; auto.
    - unfold fb_write. apply bal_bind; [apply bal_both; apply bal_bind; auto|]. intros w. destruct (negb w); [auto|].
      apply bal_write_body.
    - apply bal_read.
    - apply bal_new_line.
    - apply bal_clear.
    - unfold fb_close. apply bal_bind; [destruct exc; [apply bal_send_exc|apply bal_new_line]|auto].
    - apply bal_send_exc.
    - apply bal_ret.
    - unfold fb_len. apply bal_bind; [apply bal_fl, bal_count|]. intros n. apply bal_bind; [apply bal_get_last|auto].
    - apply bal_both. apply bal_bind; auto.
    - apply bal_both. apply bal_bind; auto.
    - apply bal_ret.
    - apply bal_raise.
    - apply bal_raise.
    - apply bal_ret.
    - apply bal_ret.
  Qed.

  Lemma call_run t c d k : k !! b_tl b = None -> k !! b_fl b = None ->
    run t (fb_call b c) (mkst d k) = (fst (srun (fb_call b c) d), mkst (snd (srun (fb_call b c) d)) k).
  Proof.
    intros H1 H2. apply (bal_call c t d k); [|apply fb_nb].
    intros l [<-|[<-|[]]]; assumption.
  Qed.
End Clear.

(** ** The log as a list *)
Lemma nth_error_skipn {A} n (l : list A) i : nth_error (skipn n l) i = nth_error l (n + i).
Proof. revert l. induction n as [|n IH]; intros l; [reflexivity|]. destruct l; [destruct i; reflexivity|apply IH]. Qed.
Lemma nth_error_firstn {A} n (l : list A) i : i < n -> nth_error (firstn n l) i = nth_error l i.
Proof.
  revert l i. induction n as [|n IH]; intros l i H; [lia|]. destruct l as [|x l]; [destruct i; reflexivity|].
  destruct i; [reflexivity|]. cbn. apply IH. lia.
Qed.
Lemma rev_split {A} k (l : list A) : rev l = rev (skipn k l) ++ rev (firstn k l).
Proof. rewrite <- rev_app_distr, firstn_skipn. reflexivity. Qed.
Lemma rev_last_items {A} n (l : list A) : rev (last_items n l) = firstn n (rev l).
Proof.
  unfold last_items. rewrite (rev_split (length l - n) l).
  destruct (le_lt_dec (length l) n) as [H|H].
  - replace (length l - n) with 0 by lia. change (skipn 0 l) with l. change (firstn 0 l) with (@nil A). cbn [rev]. rewrite app_nil_r.
    rewrite firstn_all2 by (rewrite rev_length; lia). reflexivity.
  - assert (Hl : length (rev (skipn (length l - n) l)) = n) by (rewrite rev_length, skipn_length; lia).
    rewrite firstn_app, Hl, Nat.sub_diag, firstn_O, app_nil_r. symmetry. apply firstn_all2. lia.
Qed.
Lemma rev_firstn_skipn {A} n (l : list A) : n <= length l -> rev (firstn (length l - n) l) = skipn n (rev l).
Proof.
  intros H. rewrite (rev_split (length l - n) l).
  assert (Hl : length (rev (skipn (length l - n) l)) = n) by (rewrite rev_length, skipn_length; lia).
  rewrite skipn_app, Hl, Nat.sub_diag. rewrite skipn_all2 by lia. reflexivity.
Qed.
Lemma skipn_cons_nth {A} (l : list A) : forall k x, nth_error l k = Some x -> skipn k l = x :: skipn (S k) l.
Proof.
  induction l as [|y l IH]; intros [|k] x H; try discriminate; cbn in *; [injection H as ->; reflexivity|].
  rewrite (IH k x H). reflexivity.
Qed.
Lemma nth_error_rev {A} (l : list A) n : n < length l -> nth_error (rev l) n = nth_error l (length l - S n).
Proof.
  revert n. induction l as [|y l IH] using rev_ind; intros n Hn; [simpl in Hn; lia|].
  rewrite rev_app_distr. cbn [rev app]. rewrite app_length in *. cbn [length] in *. destruct n as [|n].
  - rewrite nth_error_app2 by lia. replace (length l + 1 - 1 - length l) with 0 by lia. reflexivity.
  - cbn [nth_error]. rewrite IH by lia. rewrite nth_error_app1 by lia. f_equal. lia.
Qed.

Section Log.
  Variable b : fbuf.
  Notation R := (rec_name b).
  Notation m := (b_max b).

  Lemma records_R fs l : records (b_name b) fs l <-> forall i, fs !! R i = nth_error (rev l) i.
  Proof. reflexivity. Qed.

  Lemma records_cnt fs l bound : records (b_name b) fs l -> cnt b fs bound = Nat.min bound (length l).
  Proof.
    intros H. rewrite records_R in H. apply cnt_unique; [lia| |].
    - intros i Hi. rewrite H. apply nth_error_Some. rewrite rev_length. lia.
    - intros Hb. rewrite H. apply nth_error_None. rewrite rev_length. lia.
  Qed.

  Lemma records_upd fs l lines : 1 <= m -> records (b_name b) fs l ->
    records (b_name b) (upd b lines fs) (firstn (length l - m) l ++ last_items m (l ++ lines)).
  Proof.
    intros Hm H. destruct lines as [|x xs].
    - rewrite app_nil_r. unfold last_items. rewrite firstn_skipn. exact H.
    - set (lines := x :: xs). intros i. change (record_file (b_name b) i) with (R i).
      rewrite upd_rec by (auto; discriminate). cbv zeta. rewrite (records_cnt fs l m H).
      rewrite records_R in H. rewrite rev_app_distr, rev_last_items.
      set (n := Nat.min m (length lines)). set (L := length l).
      assert (HB : length (firstn m (rev (l ++ lines))) = n + Nat.min (Nat.min m L) (m - n)).
      { rewrite firstn_length, rev_length, app_length. unfold n, L. lia. }
      destruct (Nat.ltb_spec i n) as [Hi|Hi].
      + rewrite nth_error_app1 by lia. rewrite nth_error_firstn by (unfold n in Hi; lia).
        rewrite rev_app_distr, nth_error_app1 by (rewrite rev_length; unfold n in Hi; lia). reflexivity.
      + destruct (Nat.ltb_spec i (n + Nat.min (Nat.min m L) (m - n))) as [Hi2|Hi2].
        * rewrite nth_error_app1 by lia. rewrite nth_error_firstn by lia.
          assert (n = length lines) as Hn by (unfold n in *; lia).
          rewrite rev_app_distr, nth_error_app2 by (rewrite rev_length; lia).
          rewrite rev_length, <- Hn, H. reflexivity.
        * rewrite nth_error_app2 by lia. rewrite HB, H.
          destruct (le_lt_dec L m) as [HL|HL].
          -- assert (nth_error (rev l) i = None) as -> by (apply nth_error_None; rewrite rev_length; unfold L, n in *; lia).
             symmetry. apply nth_error_None. rewrite rev_length, firstn_length. unfold L in HL. lia.
          -- unfold L at 1. rewrite rev_firstn_skipn by (unfold L in HL; lia).
             rewrite nth_error_skipn. f_equal. unfold L, n in *. lia.
  Qed.

  Lemma records_upd_max fs l lines : 1 <= m -> length l <= m -> records (b_name b) fs l ->
    records (b_name b) (upd b lines fs) (last_items m (l ++ lines)).
  Proof.
    intros Hm Hl H. pose proof (records_upd fs l lines Hm H) as H1.
    replace (length l - m) with 0 in H1 by lia. exact H1.
  Qed.

  Lemma records_ext fs fs' l : records (b_name b) fs l -> (forall i, fs' !! R i = fs !! R i) ->
    records (b_name b) fs' l.
  Proof. intros H E i. rewrite <- H. apply E. Qed.

  Lemma records_recs fs l : records (b_name b) fs l -> List.Forall no_cr l ->
    forall n, n <= length l -> recs b fs n = last_items n l.
  Proof.
    intros H Hc. induction n as [|n IH]; intros Hn.
    - unfold last_items. rewrite Nat.sub_0_r, skipn_all. reflexivity.
    - cbn [recs]. rewrite IH by lia. unfold content. rewrite (H n : fs !! R n = _).
      assert (Hx : exists x, nth_error (rev l) n = Some x).
      { destruct (nth_error (rev l) n) eqn:E; [eauto|]. apply nth_error_None in E. rewrite rev_length in E. lia. }
      destruct Hx as [x Hx]. rewrite Hx. rewrite uni_no_cr.
      2: { rewrite List.Forall_forall in Hc. apply Hc. apply nth_error_In in Hx. apply in_rev, Hx. }
      rewrite nth_error_rev in Hx by lia. unfold last_items. rewrite (skipn_cons_nth _ _ _ Hx).
      replace (S (length l - S n)) with (length l - n) by lia. reflexivity.
  Qed.
End Log.
