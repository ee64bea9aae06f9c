(** * FileCrash: LineFileBuffer interrupted in the middle of a write *)
From stdpp Require Import gmap.
From Coq Require Import String.
From Coq Require Import List NArith ZArith Bool Arith Lia.
From Verif Require Import PyStr Prog ProgFacts PyIO Base Spec SpecFacts LineBuf LineBufFacts Atomic Crash
  FileBuf FileFacts FileMore FileSpec FileStmt FileProofs CrashSpec.
Import ListNotations.
Local Open Scope prog_scope.
Local Open Scope nat_scope.

Ltac cases := repeat match goal with
  | |- context [?a <=? ?c] => destruct (Nat.leb_spec a c)
  | |- context [?a <? ?c] => destruct (Nat.ltb_spec a c)
  | |- context [?a =? ?c] => destruct (Nat.eqb_spec a c)
  end; cbn [andb].

Section Upd.
  Variable b : fbuf.
  Notation R := (rec_name b).
  Notation T := (tmp_name b).
  Notation m := (b_max b).
  Notation dr fs cl := (mkfdir fs cl).
  Variables (fs0 : directory) (cl : gmap nat unit) (l L : list text).
  Notation N := (length L).
  Notation k := (Nat.min (length l) (m - N)).
  Definition old (i : nat) : option text := nth_error (rev l) i.
  Definition rest_same (fs : directory) : Prop := forall y, (forall i, y <> R i) -> fs !! y = fs0 !! y.

  (** After moving the records k-1, ..., n. *)
  Definition mv_at (n x : nat) : option text :=
    if (N + n <=? x) && (x <? N + k) then old (x - N)
    else if (n <=? x) && (x <? k) then None else old x.
  Definition MV n fs := (forall x, fs !! R x = mv_at n x) /\ rest_same fs.
  (** The target of record n is removed. *)
  Definition MD n fs := (forall x, fs !! R x = if x =? N + n then None else mv_at (S n) x) /\ rest_same fs.
  (** [j] lines are stored; if [pre] is [Some p], line [j] is being written. *)
  Definition st_at (j : nat) (pre : option text) (x : nat) : option text :=
    if x <? N then
      if N - j <=? x then nth_error L (N - 1 - x)
      else if (x =? N - 1 - j) && match pre with Some _ => true | None => false end then pre
      else if x <? k then None else old x
    else if x <? N + k then old (x - N) else old x.
  Definition ST j pre fs := (forall x, fs !! R x = st_at j pre x) /\ rest_same fs.

  Definition phase (fs : directory) : Prop :=
    (exists n, n <= k /\ MV n fs) \/ (exists n, n < k /\ MD n fs) \/
    (exists j, j <= N /\ ST j None fs) \/
    (exists j p line, j < N /\ ST j (Some p) fs /\ nth_error L j = Some line /\ prefix_of p line).
  Definition phased (d : fdir) : Prop := phase (files d) /\ fclosed d = cl.

  Hypothesis HN : 1 <= N.
  Hypothesis HNm : N <= m.
  Hypothesis Hlm : length l <= m.
  Hypothesis H0 : records (b_name b) fs0 l.

  Lemma old_some i : i < length l -> old i <> None.
  Proof. intros H. apply nth_error_Some. rewrite rev_length. exact H. Qed.
  Lemma old_none i : length l <= i -> old i = None.
  Proof. intros H. apply nth_error_None. rewrite rev_length. exact H. Qed.

  Lemma MV_start : MV k fs0.
  Proof.
    split; [|intros y _; reflexivity]. intros x. change (R x) with (record_file (b_name b) x). rewrite (H0 x).
    unfold mv_at. fold (old x). cases; try lia; reflexivity.
  Qed.

  Ltac ph := split; [|reflexivity].

  Lemma move_alw t : forall n fs kk, n <= k -> MV n fs ->
    alw phased t (fb_move b n N) (mkst (dr fs cl) kk) /\
    exists fs', srun (fb_move b n N) (dr fs cl) = (Good tt, dr fs' cl) /\ MV 0 fs'.
  Proof.
    induction n as [|n IH]; intros fs kk Hn HMV.
    { split; [|exists fs; split; [reflexivity|exact HMV]]. apply alw_ret. ph. left. exists 0. split; [lia|exact HMV]. }
    assert (Hn0 : phased (dr fs cl)) by (ph; left; exists (S n); split; [lia|exact HMV]).
    destruct HMV as [HM Ho].
    destruct (old n) as [s|] eqn:Es; [|exfalso; apply (old_some n); [lia|exact Es]].
    assert (Hsrc : fs !! R n = Some s).
    { rewrite HM. unfold mv_at. cases; try lia; exact Es. }
    (* after removing the target *)
    set (fs1 := delete (R (n + N)) fs).
    assert (Hd : MD n fs1).
    { split.
      - intros x. unfold fs1. destruct (Nat.eqb_spec x (N + n)) as [->|Hx].
        + rewrite Nat.add_comm. apply lookup_delete.
        + rewrite lookup_delete_ne by (apply R_ne; lia). apply HM.
      - intros y Hy. unfold fs1. rewrite lookup_delete_ne by (intros E; apply (Hy (n + N)); auto). apply Ho, Hy. }
    set (fs2 := <[R (n + N) := s]> (delete (R n) fs)).
    assert (H2 : MV n fs2).
    { split.
      - intros x. unfold fs2. destruct (Nat.eq_dec x (n + N)) as [->|Hx].
        + rewrite lookup_insert. unfold mv_at. replace (n + N - N) with n by lia. rewrite Es.
          cases; try lia; reflexivity.
        + rewrite lookup_insert_ne by (apply R_ne; lia). destruct (Nat.eq_dec x n) as [->|Hx2].
          * rewrite lookup_delete. unfold mv_at. cases; try lia; reflexivity.
          * rewrite lookup_delete_ne by (apply R_ne; lia). rewrite HM. unfold mv_at. cases; try lia; reflexivity.
      - intros y Hy. unfold fs2. rewrite lookup_insert_ne by (intros E; apply (Hy (n + N)); auto).
        rewrite lookup_delete_ne by (intros E; apply (Hy n); auto). apply Ho, Hy. }
    assert (E2 : <[R (n + N) := s]> (delete (R n) fs1) = fs2).
    { unfold fs1, fs2. apply map_eq. intros y. destruct (decide (y = R (n + N))) as [->|Hy];
        [rewrite !lookup_insert; reflexivity|]. rewrite !lookup_insert_ne by auto.
      destruct (decide (y = R n)) as [->|Hy2]; [rewrite !lookup_delete; reflexivity|].
      rewrite !lookup_delete_ne by auto. reflexivity. }
    destruct (IH fs2 kk ltac:(lia) H2) as [IHa (fs' & IHr & IHm)].
    assert (Hrest : forall f, phased (dr f cl) -> f !! R n = Some s -> <[R (n + N) := s]> (delete (R n) f) = fs2 ->
      alw phased t (fop (FRename (R n) (R (n + N))) ;; fb_move b n N) (mkst (dr f cl) kk) /\
      srun (fop (FRename (R n) (R (n + N))) ;; fb_move b n N) (dr f cl) = (Good tt, dr fs' cl)).
    { intros f Hf Hfn Ef.
      assert (Ex : cexec (FRename (R n) (R (n + N))) (dr f cl) = (Good tt, dr fs2 cl)).
      { cbn [cexec fsem fexec files fclosed]. rewrite Hfn, Ef. reflexivity. }
      split.
      - apply alw_bind_nl; [apply nolock_op| |].
        + apply alw_op; [exact Hf|]. rewrite Ex. ph. left. exists n. split; [lia|exact H2].
        + intros a d'. rewrite srun_op, Ex. intros [= <- <-]. exact IHa.
      - rewrite srun_bind, srun_op, Ex. exact IHr. }
    cbn [fb_move].
    assert (Hif : alw phased t ((if present fs (R (n + N)) then fop (FRemove (R (n + N))) else Ret tt) ;;
                   fop (FRename (R n) (R (n + N))) ;; fb_move b n N) (mkst (dr fs cl) kk) /\
                  srun ((if present fs (R (n + N)) then fop (FRemove (R (n + N))) else Ret tt) ;;
                   fop (FRename (R n) (R (n + N))) ;; fb_move b n N) (dr fs cl) = (Good tt, dr fs' cl)).
    { destruct (present fs (R (n + N))) eqn:Ep.
      - unfold present in Ep. destruct (fs !! R (n + N)) as [so|] eqn:Eo; [|discriminate].
        assert (Ex : cexec (FRemove (R (n + N))) (dr fs cl) = (Good tt, dr fs1 cl)).
        { cbn [cexec fsem fexec files fclosed]. rewrite Eo. reflexivity. }
        assert (Hp1 : phased (dr fs1 cl)) by (ph; right; left; exists n; split; [lia|exact Hd]).
        assert (Hs1 : fs1 !! R n = Some s).
        { unfold fs1. rewrite lookup_delete_ne by (apply R_ne; lia). exact Hsrc. }
        destruct (Hrest fs1 Hp1 Hs1 E2) as [Ha Hr]. split.
        + apply alw_bind_nl; [apply nolock_op| |].
          * apply alw_op; [exact Hn0|]. rewrite Ex. exact Hp1.
          * intros a d'. rewrite srun_op, Ex. intros [= <- <-]. exact Ha.
        + rewrite srun_bind, srun_op, Ex. exact Hr.
      - apply Hrest; [exact Hn0|exact Hsrc|reflexivity]. }
    destruct Hif as [Hia Hir]. split.
    - apply alw_bind_nl; [apply nolock_op| |].
      + apply alw_op; exact Hn0.
      + intros a d'. rewrite srun_op. cbn [cexec fsem fexec files]. intros [= <- <-]. exact Hia.
    - exists fs'. split; [|exact IHm]. rewrite srun_bind, srun_op. cbn [cexec fsem fexec files]. exact Hir.
  Qed.

  Lemma MV_ST fs : MV 0 fs -> ST 0 None fs.
  Proof.
    intros [H Ho]. split; [|exact Ho]. intros x. rewrite H. unfold mv_at, st_at.
    rewrite Nat.add_0_r. cases; try lia; try reflexivity; try rewrite andb_false_r; reflexivity.
  Qed.
End Upd.

Lemma put_alw (Q : fdir -> Prop) t n (s : text) : forall fs cl (s0 : text) kk, fs !! n = Some s0 ->
  (forall p, prefix_of p s -> Q (mkfdir (<[n := s0 ++ p]> fs) cl)) ->
  alw Q t (put_chars n s) (mkst (mkfdir fs cl) kk).
Proof.
  induction s as [|c s IH]; intros fs cl s0 kk Hf HQ.
  - apply alw_ret. specialize (HQ [] ltac:(exists []; reflexivity)). rewrite app_nil_r, insert_id in HQ by exact Hf. exact HQ.
  - cbn [put_chars]. assert (Hal : alter (fun s : text => s ++ [c] : text) n fs = <[n := s0 ++ [c]]> fs).
    { apply map_eq. intros y. destruct (decide (y = n)) as [->|Hy].
      - rewrite lookup_alter, lookup_insert, Hf. reflexivity.
      - rewrite lookup_alter_ne, lookup_insert_ne by auto. reflexivity. }
    apply alw_bind_nl; [apply nolock_op| |].
    + apply alw_op.
      * specialize (HQ [] ltac:(exists (c :: s); reflexivity)). rewrite app_nil_r, insert_id in HQ by exact Hf. exact HQ.
      * cbn [cexec fsem fexec files fclosed snd]. rewrite Hal. apply (HQ [c]). exists s. reflexivity.
    + intros a d'. rewrite srun_op. cbn [cexec fsem fexec files fclosed]. rewrite Hal. intros [= <- <-].
      apply (IH _ _ (s0 ++ [c])); [apply lookup_insert|]. intros p [q ->]. rewrite insert_insert, <- app_assoc.
      apply (HQ (c :: p)). exists q. reflexivity.
Qed.

Lemma nolock_put n s : nolock (put_chars n s).
Proof. induction s as [|c s IH]; [constructor|]. apply nolock_bind; [apply nolock_op|]. intros _. exact IH. Qed.
Lemma nolock_fw n s : nolock (file_write n s).
Proof.
  apply nolock_bind; [apply nolock_op|]. intros _. apply nolock_bind; [apply nolock_put|]. intros _. constructor.
Qed.
Lemma nolock_move b : forall k n, nolock (fb_move b k n).
Proof.
  induction k as [|k IH]; intros n; [constructor|]. cbn [fb_move]. apply nolock_bind; [apply nolock_op|]. intros e.
  apply nolock_bind; [destruct e; [apply nolock_op|constructor]|]. intros _.
  apply nolock_bind; [apply nolock_op|]. intros _. apply IH.
Qed.

(** Writing a text into a file that is open. *)
Lemma fw_alw (Q : fdir -> Prop) t n (s : text) fs cl (s0 : text) kk : fs !! n = Some s0 ->
  (forall p, prefix_of p s -> Q (mkfdir (<[n := s0 ++ p]> fs) cl)) ->
  alw Q t (file_write n s) (mkst (mkfdir fs cl) kk).
Proof.
  intros Hf HQ. assert (HQ0 : Q (mkfdir fs cl)).
  { specialize (HQ [] ltac:(exists s; reflexivity)). rewrite app_nil_r, insert_id in HQ by exact Hf. exact HQ. }
  unfold file_write. apply alw_bind_nl; [apply nolock_op|apply alw_op; exact HQ0|].
  intros a d'. rewrite srun_op. cbn [cexec fsem fexec]. destruct (forallb encodable s); [|discriminate].
  intros [= <- <-]. apply alw_bind_nl; [apply nolock_put|apply (put_alw _ _ _ _ _ _ s0); assumption|].
  intros [] d'. rewrite (put_chars_run n s fs cl s0 Hf). intros [= <-]. apply alw_ret. apply HQ. exists []. rewrite app_nil_r. reflexivity.
Qed.

Section Upd2.
  Variable b : fbuf.
  Notation R := (rec_name b).
  Notation T := (tmp_name b).
  Notation m := (b_max b).
  Notation dr fs cl := (mkfdir fs cl).
  Variables (fs0 : directory) (cl : gmap nat unit) (l L : list text).
  Notation N := (length L).
  Notation k := (Nat.min (length l) (m - N)).
  Hypothesis HN : 1 <= N.
  Hypothesis HNm : N <= m.
  Hypothesis Hlm : length l <= m.
  Hypothesis H0 : records (b_name b) fs0 l.
  Notation phased := (phased b fs0 cl l L).
  Notation ST := (ST b fs0 l L).

  Lemma store_alw t L2 : forall L1 fs kk, L = L1 ++ L2 -> List.Forall enc L2 -> ST (length L1) None fs ->
    alw phased t (fb_store b L2) (mkst (dr fs cl) kk) /\
    exists fs', srun (fb_store b L2) (dr fs cl) = (Good tt, dr fs' cl) /\ ST N None fs'.
  Proof.
    induction L2 as [|x L2 IH]; intros L1 fs kk EL He HS.
    - rewrite app_nil_r in EL. subst L1. split; [|exists fs; split; [reflexivity|exact HS]].
      apply alw_ret. split; [|reflexivity]. right. right. left. exists N. split; [lia|exact HS].
    - assert (HNn : N = length L1 + S (length L2)) by (rewrite EL, app_length; reflexivity).
      assert (Hx : nth_error L (length L1) = Some x).
      { rewrite EL, nth_error_app2, Nat.sub_diag by lia. reflexivity. }
      inversion He as [|? ? Hex He']; subst x0 l0. cbn [fb_store].
      assert (Hp0 : phased (dr fs cl)).
      { split; [|reflexivity]. right. right. left. exists (length L1). split; [lia|exact HS]. }
      set (j := length L1) in *. set (r := length L2) in *.
      assert (Hpre : forall p, ST j (Some p) (<[R r := p]> fs)).
      { intros p. destruct HS as [H1 H2]. split.
        - intros y. destruct (Nat.eq_dec y r) as [->|Hy].
          + rewrite lookup_insert. unfold st_at. cases; try lia; reflexivity.
          + rewrite lookup_insert_ne by (apply R_ne; lia). rewrite H1. unfold st_at.
            cases; try lia; try reflexivity; rewrite ?andb_false_r; reflexivity.
        - intros y Hy. rewrite lookup_insert_ne by (intros E; apply (Hy r); auto). apply H2, Hy. }
      assert (Hphp : forall p, prefix_of p x -> phased (dr (<[R r := p]> fs) cl)).
      { intros p Hp. split; [|reflexivity]. right. right. right. exists j, p, x.
        split; [lia|]. split; [apply Hpre|]. split; [exact Hx|exact Hp]. }
      assert (Hnext : ST (length (L1 ++ [x])) None (<[R r := x]> fs)).
      { destruct (Hpre x) as [H1 H2]. split; [|exact H2]. intros y. rewrite H1. unfold st_at.
        rewrite app_length. cbn [length]. fold j. cases; try lia; try reflexivity.
        all: try (replace (N - 1 - y) with j by lia; symmetry; exact Hx). all: rewrite ?andb_false_r; reflexivity. }
      destruct (IH (L1 ++ [x]) (<[R r := x]> fs) kk) as [IHa (fs' & IHr & IHs)];
        [rewrite EL, <- app_assoc; reflexivity|exact He'|exact Hnext|].
      assert (Ew : srun (file_write (R r) x) (dr (<[R r := []]> fs) cl) = (Good (length x), dr (<[R r := x]> fs) cl)).
      { rewrite (file_write_run _ _ _ _ []) by (auto; apply lookup_insert). rewrite insert_insert. reflexivity. }
      split.
      + apply alw_bind_nl; [apply nolock_op| |].
        * apply alw_op; [exact Hp0|]. cbn [cexec fsem fexec files fclosed snd]. apply (Hphp []). exists x. reflexivity.
        * intros a d'. rewrite srun_op. cbn [cexec fsem fexec files fclosed]. intros [= <- <-].
          apply alw_bind_nl; [apply nolock_fw| |].
          -- apply (fw_alw _ _ _ _ _ _ []); [apply lookup_insert|]. intros p Hp. rewrite insert_insert. apply Hphp, Hp.
          -- intros a d'. rewrite Ew. intros [= <- <-]. exact IHa.
      + exists fs'. split; [|exact IHs]. rewrite srun_bind, srun_op. cbn [cexec fsem fexec files fclosed].
        rewrite srun_bind, Ew. exact IHr.
  Qed.

End Upd2.

(** *** What the phases mean *)
Lemma old_pos (l : list text) i : i < length l -> old l i = nth_error l (length l - 1 - i).
Proof. intros H. unfold old. rewrite nth_error_rev by exact H. f_equal. lia. Qed.
Lemma old_inv (l : list text) i s : old l i = Some s -> i < length l /\ nth_error l (length l - 1 - i) = Some s.
Proof.
  intros H. assert (Hi : i < length l) by (rewrite <- (rev_length l); apply nth_error_Some; fold (old l i); congruence).
  split; [exact Hi|]. rewrite <- old_pos by exact Hi. exact H.
Qed.

Section Intact.
  Variable b : fbuf.
  Notation R := (rec_name b).
  Notation m := (b_max b).
  Variables (fs0 : directory) (l lines : list text).
  Notation L := (lastn m lines).
  Notation N := (length L).
  Notation k := (Nat.min (length l) (m - N)).
  Hypothesis Hm : 1 <= m.
  Hypothesis Hlines : lines <> [].
  Hypothesis Hlm : length l <= m.

  Lemma N_len : N = Nat.min m (length lines).
  Proof. apply lastn_length. Qed.
  Lemma lines_pos : 1 <= length lines.
  Proof. destruct lines; [congruence|simpl; lia]. Qed.
  Lemma nth_L j : nth_error L j = nth_error lines (length lines - N + j).
  Proof.
    unfold lastn at 1. rewrite nth_error_skipn. f_equal. rewrite N_len. lia.
  Qed.
  Lemma nth_new j s : nth_error L j = Some s -> nth_error (l ++ lines) (length l + (length lines - N + j)) = Some s.
  Proof. intros H. rewrite nth_error_app2 by lia. rewrite nth_L in H. rewrite <- H. f_equal. lia. Qed.
  Lemma old_new i s : old l i = Some s -> i < length l /\ nth_error (l ++ lines) (length l - 1 - i) = Some s.
  Proof.
    intros H. apply old_inv in H. destruct H as [H1 H2]. split; [exact H1|]. rewrite nth_error_app1 by lia. exact H2.
  Qed.
  Lemma old_ex i : old l i <> None -> i < length l.
  Proof. intros H. rewrite <- (rev_length l). apply nth_error_Some, H. Qed.
  Lemma nth_L_ex j : nth_error L j <> None -> j < N.
  Proof. apply nth_error_Some. Qed.

  (** A description of the numbers by positions gives [intact]; [rel x q]: number [x] holds
      the record with position [q]. *)
  Lemma mk_intact fs (pos : nat -> nat) (w : nat) (src : nat -> option text) (rel : nat -> nat -> Prop) :
    (forall x, fs !! R x = src x) ->
    (forall x s, src x = Some s -> x < m /\ exists line, nth_error (l ++ lines) (pos x) = Some line /\
         (s = line \/ (x = w /\ length l <= pos x /\ prefix_of s line))) ->
    (forall x, src x <> None -> rel x (pos x)) ->
    (forall x y q, rel x q -> rel y q -> x = y) ->
    (length lines <= 1 \/ length l + length lines <= m ->
       forall x y q q', rel x q -> rel y q' -> x < y -> q' < q) ->
    (forall a, a < k -> exists x, src x = old l a /\ pos x = length l - 1 - a) ->
    intact (b_name b) m fs l lines.
  Proof.
    intros Hsrc H1 Hr H2 H3 H4. exists pos, w.
    assert (Hx : forall x, fs !! record_file (b_name b) x = src x) by exact Hsrc.
    split; [|split; [|split]].
    - intros x s. rewrite Hx. apply H1.
    - intros x y. rewrite !Hx. intros Ex Ey E. apply (H2 x y (pos x)); [auto|rewrite E; auto].
    - intros Hc x y. rewrite !Hx. intros Ex Ey. apply (H3 Hc); auto.
    - intros i Hi Hkeep. destruct (H4 (length l - 1 - i)) as (x & Ex & Ep).
      + rewrite N_len. pose proof lines_pos. lia.
      + exists x. rewrite Hx, Ex, Ep. split; [|lia]. rewrite old_pos by lia. f_equal. lia.
  Qed.

  Lemma moved_intact n fs (gone : nat -> bool) : n <= k -> (forall x, gone x = true -> x = N + n - 1) ->
    (forall x, fs !! R x = if gone x then None else mv_at b l L n x) -> (n = 0 -> forall x, gone x = false) ->
    intact (b_name b) m fs l lines.
  Proof.
    intros Hn Hg HM Hg0. pose proof N_len as HN. pose proof lines_pos as HL.
    apply (mk_intact fs (fun x => if (N + n <=? x) && (x <? N + k) then length l - 1 - (x - N) else length l - 1 - x) 0
             (fun x => if gone x then None else mv_at b l L n x)
             (fun x q => (N + n <= x < N + k /\ q = length l - 1 - (x - N)) \/
                         (x < length l /\ (x < n \/ k <= x < N + n) /\ q = length l - 1 - x))).
    - exact HM.
    - intros x s. destruct (gone x); [discriminate|]. unfold mv_at.
      cases; try discriminate; intros HH; apply old_new in HH; (split; [lia|]);
        exists s; (split; [exact (proj2 HH)|left; reflexivity]).
    - intros x. destruct (gone x); [congruence|]. unfold mv_at.
      cases; try congruence; intros HH; try (apply old_ex in HH); lia.
    - clear HM Hg. set (K := k) in *. assert (K <= length l) by (unfold K; lia). clearbody K.
      intros x y q [[? ?]|[? [[?|?] ?]]] [[? ?]|[? [[?|?] ?]]]; lia.
    - clear HM Hg. intros Hc. assert (HK : N = 1 \/ k = length l) by lia.
      set (K := k) in *. assert (K <= length l) by (unfold K; lia). clearbody K.
      intros x y q q' [[? ?]|[? [[?|?] ?]]] [[? ?]|[? [[?|?] ?]]]; lia.
    - intros a Ha. exists (if n <=? a then a + N else a).
      destruct (gone (if n <=? a then a + N else a)) eqn:Eg.
      { exfalso. destruct n; [rewrite Hg0 in Eg by reflexivity; discriminate|].
        apply Hg in Eg. destruct (Nat.leb_spec (S n) a); lia. }
      unfold mv_at. destruct (Nat.leb_spec n a); cases; try lia; split; try reflexivity; try (f_equal; lia); lia.
  Qed.
  Lemma MV_intact n fs : n <= k -> MV b fs0 l L n fs -> intact (b_name b) m fs l lines.
  Proof. intros Hn [HM _]. apply (moved_intact n fs (fun _ => false)); auto. discriminate. Qed.
  Lemma MD_intact n fs : n < k -> MD b fs0 l L n fs -> intact (b_name b) m fs l lines.
  Proof.
    intros Hn [HM _]. apply (moved_intact (S n) fs (fun x => x =? N + n)); auto; [|discriminate].
    intros x H. apply Nat.eqb_eq in H. lia.
  Qed.

  Lemma ST_intact j pre fs line : j <= N ->
    (forall p, pre = Some p -> j < N /\ nth_error L j = Some line /\ prefix_of p line) ->
    ST b fs0 l L j pre fs -> intact (b_name b) m fs l lines.
  Proof.
    intros Hj Hpre [HM _]. pose proof N_len as HN. pose proof lines_pos as HL.
    set (hp := match pre with Some _ => true | None => false end).
    set (j' := if hp then S j else j).
    assert (Hj' : j' <= N).
    { unfold j', hp. destruct pre as [p|]; [|exact Hj]. destruct (Hpre p eq_refl). lia. }
    assert (Hjj : j <= j' <= S j) by (unfold j'; destruct hp; lia).
    apply (mk_intact fs (fun x => if x <? N then
                                    if N - j' <=? x then length l + (length lines - N + (N - 1 - x))
                                    else length l - 1 - x
                                  else if x <? N + k then length l - 1 - (x - N) else length l - 1 - x) (N - 1 - j)
             (st_at b l L j pre)
             (fun x q => (N - j' <= x < N /\ q = length l + (length lines - N + (N - 1 - x))) \/
                         (k <= x < N - j' /\ x < length l /\ q = length l - 1 - x) \/
                         (N <= x < N + k /\ q = length l - 1 - (x - N)))).
    - exact HM.
    - intros x s. unfold st_at. unfold j', hp in *. destruct pre as [p|].
      + destruct (Hpre p eq_refl) as (Hj1 & Hl1 & Hp1).
        destruct (Nat.ltb_spec x N); [destruct (Nat.leb_spec (N - j) x);
          [|destruct (Nat.eqb_spec x (N - 1 - j)); cbn [andb]; [|destruct (Nat.ltb_spec x k)]]|destruct (Nat.ltb_spec x (N + k))];
          try discriminate; intros HH; cases; try lia.
        * apply nth_new in HH. split; [lia|]. exists s. split; [exact HH|left; reflexivity].
        * injection HH as <-. split; [lia|]. exists line. replace (N - 1 - x) with j by lia.
          split; [apply nth_new, Hl1|]. right. split; [lia|]. split; [lia|exact Hp1].
        * apply old_new in HH. split; [lia|]. exists s. split; [exact (proj2 HH)|left; reflexivity].
        * apply old_new in HH. split; [lia|]. exists s. split; [exact (proj2 HH)|left; reflexivity].
        * apply old_new in HH. split; [lia|]. exists s. split; [exact (proj2 HH)|left; reflexivity].
      + rewrite andb_false_r.
        destruct (Nat.ltb_spec x N); [destruct (Nat.leb_spec (N - j) x); [|destruct (Nat.ltb_spec x k)]|destruct (Nat.ltb_spec x (N + k))];
          try discriminate; intros HH.
        * apply nth_new in HH. split; [lia|]. exists s. split; [exact HH|left; reflexivity].
        * apply old_new in HH. split; [lia|]. exists s. split; [exact (proj2 HH)|left; reflexivity].
        * apply old_new in HH. split; [lia|]. exists s. split; [exact (proj2 HH)|left; reflexivity].
        * apply old_new in HH. split; [lia|]. exists s. split; [exact (proj2 HH)|left; reflexivity].
    - intros x. unfold st_at. fold hp.
      assert (HK : k <= length l /\ N + k <= m) by lia. assert (HK3 : k = length l \/ N + k = m) by lia. set (K := k) in *. clearbody K.
      assert (Hjh : hp = false -> j' = j) by (unfold j'; intros ->; reflexivity).
      assert (Hjt : hp = true -> j' = S j) by (unfold j'; intros ->; reflexivity). clearbody j' hp.
      clear HM Hpre HN.
      destruct (Nat.ltb_spec x N).
      + destruct (Nat.leb_spec (N - j) x).
        * intros _. left. destruct (Nat.leb_spec (N - j') x); [|exfalso; lia]. split; [lia|reflexivity].
        * destruct (Nat.eqb_spec x (N - 1 - j)) as [Ex|Ex]; [destruct hp|]; cbn [andb].
          -- intros _. left. specialize (Hjt eq_refl). destruct (Nat.leb_spec (N - j') x); [|exfalso; lia]. split; [lia|reflexivity].
          -- specialize (Hjh eq_refl).
             destruct (Nat.ltb_spec x K); [congruence|]. intros HH. apply old_ex in HH. right. left.
             destruct (Nat.leb_spec (N - j') x); [exfalso; lia|]. split; [lia|]. split; [lia|reflexivity].
          -- destruct (Nat.ltb_spec x K); [congruence|]. intros HH. apply old_ex in HH. right. left.
             assert (x < N - j') by (destruct hp; [specialize (Hjt eq_refl)|specialize (Hjh eq_refl)]; lia).
             destruct (Nat.leb_spec (N - j') x); [exfalso; lia|]. split; [lia|]. split; [lia|reflexivity].
      + intros HH. assert (Hx : x < N + K).
        { destruct (Nat.ltb_spec x (N + K)); [assumption|]. apply old_ex in HH. exfalso. lia. }
        right. right. destruct (Nat.ltb_spec x (N + K)); [|exfalso; lia]. split; [lia|reflexivity].
    - clear HM Hpre. assert (HK : k <= length l /\ N + k <= m) by lia. set (K := k) in *. clearbody K j'. clear HN.
      intros x y q [[? ?]|[[? [? ?]]|[? ?]]] [[? ?]|[[? [? ?]]|[? ?]]]; lia.
    - clear HM Hpre. intros Hc. assert (HK : N = 1 \/ k = length l) by lia.
      assert (HK2 : k <= length l /\ N + k <= m) by lia.
      set (K := k) in *. clearbody K j'. clear HN Hc. intros x y q q' H1 H2 Hxy.
      destruct HK as [HK|HK]; destruct H1 as [[? ?]|[[? [? ?]]|[? ?]]]; destruct H2 as [[? ?]|[[? [? ?]]|[? ?]]]; lia.
    - intros a Ha. exists (a + N). unfold st_at.
      replace (a + N <? N) with false by (symmetry; apply Nat.ltb_ge; lia).
      replace (a + N <? N + k) with true by (symmetry; apply Nat.ltb_lt; lia).
      split; [f_equal; lia|lia].
  Qed.

  Lemma phase_intact fs : phase b fs0 l L fs -> intact (b_name b) m fs l lines.
  Proof.
    intros [(n & Hn & H)|[(n & Hn & H)|[(j & Hj & H)|(j & p & line & Hj & H & H1 & H2)]]].
    - apply (MV_intact n); assumption.
    - apply (MD_intact n); assumption.
    - apply (ST_intact j None _ []); [exact Hj|discriminate|exact H].
    - apply (ST_intact j (Some p) _ line); [lia| |exact H]. intros p' [= <-]. auto.
  Qed.
End Intact.

Lemma intact_ext name m fs fs' l lines : (forall x, fs' !! record_file name x = fs !! record_file name x) ->
  intact name m fs l lines -> intact name m fs' l lines.
Proof.
  intros E (pos & w & H1 & H2 & H3 & H4). exists pos, w. split; [|split; [|split]].
  - intros x s. rewrite E. apply H1.
  - intros x y. rewrite !E. apply H2.
  - intros Hc x y. rewrite !E. apply H3, Hc.
  - intros i Hi Hk. destruct (H4 i Hi Hk) as (x & Ex & Ep). exists x. rewrite E. auto.
Qed.
Lemma intact_same name m fs l lines : length l <= m -> records name fs l -> intact name m fs l lines.
Proof.
  intros Hl H. exists (fun x => length l - 1 - x), 0.
  assert (Hex : forall x, fs !! record_file name x <> None -> x < length l).
  { intros x. rewrite (H x). intros Hx. rewrite <- (rev_length l). apply nth_error_Some, Hx. }
  split; [|split; [|split]].
  - intros x s Hs. assert (Hx : x < length l) by (apply Hex; congruence). split; [lia|]. exists s.
    split; [|left; reflexivity]. rewrite nth_error_app1 by lia. rewrite (H x) in Hs.
    change (old l x = Some s) in Hs. apply old_inv in Hs. tauto.
  - intros x y Hx Hy. apply Hex in Hx, Hy. lia.
  - intros _ x y Hx Hy. apply Hex in Hx, Hy. lia.
  - intros i Hi _. exists (length l - 1 - i). split; [|lia]. rewrite (H _). change (old l (length l - 1 - i) = nth_error l i).
    rewrite old_pos by lia. f_equal. lia.
Qed.

Section Write.
  Variable b : fbuf.
  Notation R := (rec_name b).
  Notation T := (tmp_name b).
  Notation m := (b_max b).
  Notation dr fs cl := (mkfdir fs cl).
  Notation unf := (unfinished (b_name b) (b_tmp b)).
  Variables (fs0 : directory) (cl : gmap nat unit) (l : list text).
  Hypothesis Hwf : wf_fbuf b.
  Hypothesis Hlm : length l <= m.
  Hypothesis H0 : records (b_name b) fs0 l.

  Lemma update_alw t lines kk : lines <> [] -> List.Forall enc lines ->
    alw (phased b fs0 cl l (lastn m lines)) t (fb_update_records b lines) (mkst (dr fs0 cl) kk) /\
    phased b fs0 cl l (lastn m lines) (dr (upd b lines fs0) cl).
  Proof.
    intros Hne He. destruct Hwf as [Hm _]. set (L := lastn m lines).
    assert (HN : 1 <= length L) by (unfold L; rewrite lastn_length; destruct lines; [congruence|simpl; lia]).
    assert (HNm : length L <= m) by (unfold L; rewrite lastn_length; lia).
    assert (Hcnt : cnt b fs0 m = length l) by (rewrite (records_cnt b fs0 l m H0); lia).
    assert (Hs : MV b fs0 l L (Nat.min (length l) (m - length L)) fs0) by (apply MV_start; assumption).
    set (K := Nat.min (length l) (m - length L)) in *.
    assert (Hmv : forall k', alw (phased b fs0 cl l L) t (fb_move b K (length L)) (mkst (dr fs0 cl) k') /\
      exists fs', srun (fb_move b K (length L)) (dr fs0 cl) = (Good tt, dr fs' cl) /\ MV b fs0 l L 0 fs').
    { intros k'. apply move_alw; try assumption. apply le_n. }
    destruct (Hmv kk) as [_ (fs1 & Er1 & Hm1)].
    apply MV_ST in Hm1; try assumption.
    assert (HeL : List.Forall enc L) by (apply Forall_skipn', He).
    assert (Hst : forall k', alw (phased b fs0 cl l L) t (fb_store b L) (mkst (dr fs1 cl) k') /\
              exists fs', srun (fb_store b L) (dr fs1 cl) = (Good tt, dr fs' cl) /\ ST b fs0 l L (length L) None fs').
    { intros k'. apply (store_alw b fs0 cl l L) with (L1 := []); try assumption. reflexivity. }
    split.
    - unfold fb_update_records. apply alw_with. intros k'. destruct lines as [|x xs]; [congruence|].
      cbv zeta. fold L. apply alw_bind_nl.
      + apply nolock_bind; [apply nolock_op|]. intros; constructor.
      + assert (Hp : phased b fs0 cl l L (dr fs0 cl)).
        { split; [|reflexivity]. left. exists K. split; [apply le_n|exact Hs]. }
        unfold fb_count. apply alw_bind_nl; [apply nolock_op|apply alw_op; exact Hp|].
        intros a d'. rewrite srun_op. intros [= <- <-]. apply alw_ret. exact Hp.
      + intros a d'. rewrite count_run. cbn [files]. rewrite Hcnt. intros [= <- <-]. fold L K.
        destruct (Hmv k') as [Ha _].
        apply alw_bind_nl; [apply nolock_move|exact Ha|]. intros [] d'. rewrite Er1. intros [= <-]. apply Hst.
    - assert (E : srun (fb_update_records b lines) (dr fs0 cl) = (Good tt, dr (upd b lines fs0) cl)) by (apply update_run; assumption).
      remember (upd b lines fs0) as U eqn:EU. clear EU. unfold fb_update_records in E. rewrite srun_with in E. destruct lines as [|x xs]; [congruence|].
      cbv zeta in E. fold L in E. rewrite srun_bind, count_run in E. cbn [files] in E. rewrite Hcnt in E. fold L K in E.
      rewrite srun_bind, Er1 in E. destruct (Hst kk) as [_ (fs' & Er2 & Hs2)]. rewrite Er2 in E.
      injection E as E. rewrite <- E. split; [|reflexivity]. right. right. left. exists (length L). split; [lia|exact Hs2].
  Qed.

  (** *** The whole write *)
  Variables (lines : list text) (r : text).
  Notation v := (unf fs0).
  Definition during (d : fdir) : Prop :=
    fclosed d = cl /\
    (forall y, y <> T -> (forall i, y <> R i) -> files d !! y = fs0 !! y) /\
    intact (b_name b) m (files d) l lines /\
    (files d !! T = fs0 !! T \/
     (lines = [] /\ exists p, prefix_of p r /\ unf (files d) = v ++ p) \/
     (records (b_name b) (files d) (last_items m (l ++ lines)) /\ prefix_of (unf (files d)) r)).

  Lemma during_start : during (dr fs0 cl).
  Proof.
    split; [reflexivity|]. split; [auto|]. split; [|left; reflexivity]. apply intact_same; assumption.
  Qed.
  Lemma phased_during d : lines <> [] -> phased b fs0 cl l (lastn m lines) d -> during d.
  Proof.
    intros Hne [Hp Hc]. destruct Hwf as [Hm _]. split; [exact Hc|].
    assert (Hrs : rest_same b fs0 (files d)).
    { destruct Hp as [(n & _ & _ & H)|[(n & _ & _ & H)|[(n & _ & _ & H)|(n & p & x & _ & [_ H] & _)]]]; exact H. }
    split; [intros y _ Hy; apply Hrs, Hy|]. split; [apply (phase_intact b fs0 l lines Hm Hne Hlm), Hp|].
    left. apply Hrs. intros i E. apply (rec_tmp b i b). auto.
  Qed.

  Lemma pure_alw t (p : prog fcmd bool) kk d : during d -> p = fb_writable b -> alw during t p (mkst d kk).
  Proof.
    intros Hd ->. unfold fb_writable. apply alw_with. intros k1. apply alw_with. intros k2. unfold fb_closed.
    apply alw_bind_nl; [apply nolock_op|apply alw_op; exact Hd|].
    intros a d'. rewrite srun_op. intros [= _ <-]. apply alw_ret. exact Hd.
  Qed.
  Lemma get_last_alw t kk d : during d -> alw during t (fb_get_last_line b) (mkst d kk).
  Proof.
    intros Hd. unfold fb_get_last_line. apply alw_with. intros k1.
    apply alw_bind_nl; [apply nolock_op|apply alw_op; exact Hd|].
    intros a d'. rewrite srun_op. intros [= <- <-]. destruct (present _ _); [|apply alw_ret; exact Hd].
    apply alw_op; exact Hd.
  Qed.

  Lemma tmp_during (fs : directory) (s : text) : (forall y, y <> T -> (forall i, y <> R i) -> fs !! y = fs0 !! y) ->
    intact (b_name b) m fs l lines ->
    (lines = [] /\ (exists p, prefix_of p r /\ s = v ++ p) \/
     (records (b_name b) fs (last_items m (l ++ lines)) /\ prefix_of s r)) ->
    during (dr (<[T := s]> fs) cl).
  Proof.
    intros Ho Hi Ht. split; [reflexivity|]. cbn [files]. split; [|split].
    - intros y Hy Hy2. rewrite lookup_insert_ne by auto. apply Ho; assumption.
    - eapply intact_ext; [|exact Hi]. intros x. apply lookup_insert_ne. intros E. apply (rec_tmp b x b). auto.
    - right. rewrite unf_insert. destruct Ht as [[H1 H2]|[H1 H2]]; [left; auto|right]. split; [|exact H2].
      apply records_tmp, H1.
  Qed.
  Lemma write_last_alw (t : nat) (kk : locks) (fs : directory) (s0 s : text) : fs !! T = Some s0 \/ (fs !! T = None /\ s0 = []) ->
    during (dr fs cl) -> (forall p, prefix_of p s -> during (dr (<[T := s0 ++ p]> fs) cl)) ->
    alw during t (fb_write_last_line b s) (mkst (dr fs cl) kk).
  Proof.
    intros Hs0 Hd Hp. unfold fb_write_last_line. apply alw_with. intros k1.
    assert (Ex : exists fs', cexec (FOpenA T) (dr fs cl) = (Good tt, dr fs' cl) /\ fs' !! T = Some s0 /\
              during (dr fs' cl) /\ forall p, <[T := s0 ++ p]> fs' = <[T := s0 ++ p]> fs).
    { destruct Hs0 as [E|[E ->]].
      - exists fs. split; [|auto]. cbn [cexec fsem fexec files fclosed]. rewrite E. reflexivity.
      - exists (<[T := []]> fs). split; [cbn [cexec fsem fexec files fclosed]; rewrite E; reflexivity|]. split; [apply lookup_insert|]. split.
        + apply (Hp []). exists s. reflexivity.
        + intros p. apply insert_insert. }
    destruct Ex as (fs' & Ex & E1 & E2 & E3).
    apply alw_bind_nl; [apply nolock_op|apply alw_op; [exact Hd|]|].
    - rewrite Ex. exact E2.
    - intros a d'. rewrite srun_op, Ex. intros [= <- <-].
      apply (fw_alw _ _ _ _ _ _ s0); [exact E1|]. intros p Hpp. rewrite E3. apply Hp, Hpp.
  Qed.
End Write.

(** The lines completed by [write(data)] when the unfinished line is [v]. *)
Lemma write_alw b fs cl l t k data ls r : wf_fbuf b -> unlocked b k ->
  length l <= b_max b -> records (b_name b) fs l ->
  utf8 data -> utf8 (unfinished (b_name b) (b_tmp b) fs) -> no_cr (unfinished (b_name b) (b_tmp b) fs) ->
  segments data ls r ->
  let lines := match ls with [] => [] | l1 :: ls' => (unfinished (b_name b) (b_tmp b) fs ++ l1) :: ls' end in
  alw (during b fs cl l lines r) t (fb_write b data) (mkst (mkfdir fs cl) k).
Proof.
  intros Hwf Hk Hlm Hr Hu Hv1 Hv2 Hs lines.
  set (v := unfinished (b_name b) (b_tmp b) fs) in *.
  assert (Hd0 : during b fs cl l lines r (mkfdir fs cl)) by (apply during_start; assumption).
  assert (Hl : lastl b fs = v) by (rewrite lastl_unf; apply uni_no_cr, Hv2).
  assert (HkA : forall x, In x [b_tl b; b_fl b] -> k !! x = None) by (apply unlocked_in, Hk).
  pose proof Hwf as [Hm Hlk]. apply utf8_enc in Hu, Hv1.
  unfold fb_write. apply (alw_bind_bal _ t [b_tl b; b_fl b]).
  - apply bal_both; [exact Hlk|]; apply bal_bind; intros; [apply bal_op|apply bal_ret].
  - exact HkA.
  - rewrite writable_run. discriminate.
  - apply (pure_alw b fs cl l); [exact Hd0|reflexivity].
  - intros w d'. rewrite writable_run. cbn [fclosed]. intros [= <- <-].
    destruct (isclosed b cl) eqn:Hc; cbn [negb]; [apply alw_raise; exact Hd0|].
    apply segments_seg in Hs. unfold fb_write_body. cbv zeta. rewrite splitlines_single.
    destruct (enc_seg data Hu) as [He1 He2]. rewrite Hs in He1, He2. cbn [fst snd] in He1, He2.
    (* the common part: record [lines], empty the temporary file, write [r] *)
    assert (Hgen : forall {A} (q : prog fcmd A), lines <> [] ->
      (alw (during b fs cl l lines r) t q (mkst (mkfdir (clean_tmp b (upd b lines fs)) cl) k)) ->
      alw (during b fs cl l lines r) t (fb_parse_lines b lines ;; fb_clean_last_line b ;; q) (mkst (mkfdir fs cl) k)).
    { intros A q Hne Hq.
      assert (Hel : List.Forall enc lines).
      { unfold lines. destruct ls as [|l1 ls']; [constructor|]. inversion He1; subst.
        constructor; [apply enc_app; auto|assumption]. }
      destruct (update_alw b fs cl l Hwf Hlm Hr t lines k Hne Hel) as [Ha He].
      assert (Hda : during b fs cl l lines r (mkfdir (upd b lines fs) cl)) by (apply phased_during; assumption).
      apply (alw_bind_bal _ t [b_tl b; b_fl b]).
      - apply bal_update.
      - exact HkA.
      - unfold fb_parse_lines. rewrite update_run by assumption. discriminate.
      - eapply alw_weaken; [|exact Ha]. intros d. apply phased_during; assumption.
      - intros [] d'. unfold fb_parse_lines. rewrite update_run by assumption. intros [= <-].
        apply (alw_bind_bal _ t [b_tl b; b_fl b]).
        + apply bal_clean.
        + exact HkA.
        + rewrite clean_run. discriminate.
        + unfold fb_clean_last_line. apply alw_with. intros k'. apply alw_op; [exact Hda|].
          cbn [cexec fsem fexec files fclosed snd]. destruct Hda as (_ & D2 & D3 & _). cbn [files] in D2, D3.
          apply tmp_during; [exact D2|exact D3|]. right. split; [apply records_upd_max; assumption|].
          exists r. reflexivity.
        + intros [] d'. rewrite clean_run. intros [= <-]. exact Hq. }
    assert (Hfin : forall x, prefix_of x r -> lines <> [] -> List.Forall enc lines ->
              during b fs cl l lines r (mkfdir (<[tmp_name b := x]> (upd b lines fs)) cl)).
    { intros x Hx Hne Hel. destruct (update_alw b fs cl l Hwf Hlm Hr t lines k Hne Hel) as [_ He].
      apply (phased_during b fs cl l Hwf Hlm lines r) in He; [|exact Hne]. destruct He as (_ & D2 & D3 & _). cbn [files] in D2, D3.
      apply tmp_during; [exact D2|exact D3|]. right. split; [apply records_upd_max; assumption|exact Hx]. }
    assert (Hel : List.Forall enc lines).
    { unfold lines. destruct ls as [|l1 ls']; [constructor|]. inversion He1; subst.
      constructor; [apply enc_app; auto|assumption]. }
    assert (Hget : forall {A} (f : text -> prog fcmd A), alw (during b fs cl l lines r) t (f v) (mkst (mkfdir fs cl) k) ->
      alw (during b fs cl l lines r) t (x <- fb_get_last_line b ;; f x) (mkst (mkfdir fs cl) k)).
    { intros A f Hf. apply (alw_bind_bal _ t [b_tl b; b_fl b]).
      - apply bal_get_last.
      - exact HkA.
      - rewrite get_last_run. discriminate.
      - apply get_last_alw. exact Hd0.
      - intros x d'. rewrite get_last_run. cbn [files]. rewrite Hl. intros [= <- <-]. exact Hf. }
    destruct (single_break data) eqn:Es.
    + unfold single_break in Es. rewrite Hs in Es. destruct ls as [|x ls]; [discriminate|].
      destruct x; [|discriminate]. destruct ls; [|discriminate]. destruct r; [|discriminate].
      assert (E : lines = [v]) by (unfold lines; rewrite app_nil_r; reflexivity). clearbody lines. subst lines.
      apply Hget. apply Hgen; [discriminate|].
      apply alw_ret. unfold clean_tmp. apply Hfin; [exists []; reflexivity|discriminate|exact Hel].
    + rewrite is_end_seg, splitlines_seg, Hs. destruct ls as [|x ls]; cbn [fst snd].
      * destruct r as [|c r]; [apply alw_ret; exact Hd0|]. cbn [opt_line app].
        set (r1 := c :: r) in *.
        apply (write_last_alw b fs cl l lines r1 t k fs v).
        -- unfold v, unfinished. change (temp_file _ _) with (tmp_name b). destruct (fs !! tmp_name b); auto.
        -- exact Hd0.
        -- intros p Hp. apply tmp_during.
           ++ auto.
           ++ apply intact_same; assumption.
           ++ left. split; [reflexivity|]. exists p. auto.
      * assert (Hg : forall z, z = r ->
          alw (during b fs cl l lines r) t
            (match (x :: ls) ++ [z] with
             | [] => Ret 0 | [y] => fb_write_last_line b y
             | y :: rest => l0 <- fb_get_last_line b ;;
                 fb_parse_lines b (removelast ((l0 ++ y) :: rest)) ;;
                 fb_clean_last_line b ;; fb_write_last_line b (last rest []) end) (mkst (mkfdir fs cl) k)).
        { intros z ->. cbn [app]. destruct (ls ++ [r]) as [|y ys] eqn:Ey; [destruct ls; discriminate|].
          rewrite <- Ey. clear y ys Ey. apply Hget. rewrite removelast_cons_app, last_last.
          apply Hgen; [discriminate|]. apply (write_last_alw b fs cl l lines r t k _ []).
          - left. apply lookup_insert.
          - unfold clean_tmp. apply Hfin; [exists r; reflexivity|discriminate|exact Hel].
          - intros p Hp. unfold clean_tmp. rewrite insert_insert. apply Hfin; [exact Hp|discriminate|exact Hel]. }
        destruct r as [|c r]; cbn [opt_line].
        -- rewrite app_nil_r. apply Hg. reflexivity.
        -- apply Hg. reflexivity.
Qed.

Lemma send_exc_alw b fs cl l t k e r : wf_fbuf b -> unlocked b k ->
  length l <= b_max b -> records (b_name b) fs l -> utf8 (ex_text e) -> exc_record e r ->
  alw (fun d => phased b fs cl l [r] d) t (fb_send_exc b e) (mkst (mkfdir fs cl) k).
Proof.
  intros Hwf Hk Hlm Hr Hu He. apply exc_record_eq in He. subst r. pose proof Hwf as [Hm Hlk].
  assert (Hel : List.Forall enc [exc_text e]).
  { constructor; [|constructor]. apply utf8_enc, exc_text_utf8, Hu. }
  assert (EL : lastn (b_max b) [exc_text e] = [exc_text e]).
  { unfold lastn. replace (length [exc_text e] - b_max b) with 0 by (simpl; lia). reflexivity. }
  destruct (update_alw b fs cl l Hwf Hlm Hr t [exc_text e] k ltac:(discriminate) Hel) as [Ha _].
  rewrite EL in Ha. pose proof (alw_start _ _ _ _ Ha) as Hs. cbn [dat] in Hs.
  unfold fb_send_exc, fb_closed. apply alw_bind_nl; [apply nolock_op|apply alw_op; exact Hs|].
  intros a d'. rewrite srun_op. intros [= <- <-].
  match goal with |- alw _ _ (if ?x then _ else _) _ => destruct x end; [apply alw_ret; exact Hs|].
  rewrite gm_str_exc. exact Ha.
Qed.

Lemma c40 b t k fs cl l data ls r : wf_fbuf b -> unlocked b k ->
  length l <= b_max b -> records (b_name b) fs l ->
  utf8 data -> utf8 (unfinished (b_name b) (b_tmp b) fs) -> no_cr (unfinished (b_name b) (b_tmp b) fs) ->
  segments data ls r ->
  let v := unfinished (b_name b) (b_tmp b) fs in
  let lines := match ls with [] => [] | l1 :: ls' => (v ++ l1) :: ls' end in
  forall j, let fs' := files (dat (prefix_run t j (fb_write b data) (mkst (mkfdir fs cl) k))) in
    intact (b_name b) (b_max b) fs' l lines /\
    (forall y, y <> temp_file (b_name b) (b_tmp b) -> (forall i, y <> record_file (b_name b) i) -> fs' !! y = fs !! y) /\
    (fs' !! temp_file (b_name b) (b_tmp b) = fs !! temp_file (b_name b) (b_tmp b) \/
     (lines = [] /\ exists p, prefix_of p r /\ unfinished (b_name b) (b_tmp b) fs' = v ++ p) \/
     (records (b_name b) fs' (last_items (b_max b) (l ++ lines)) /\
      prefix_of (unfinished (b_name b) (b_tmp b) fs') r)).
Proof.
  intros Hwf Hk Hl Hr Hu Hv1 Hv2 Hs v lines j.
  destruct (write_alw b fs cl l t k data ls r Hwf Hk Hl Hr Hu Hv1 Hv2 Hs j) as (_ & H2 & H3 & H4).
  cbv zeta. split; [exact H3|]. split; [exact H2|exact H4].
Qed.
Lemma c40_exc b t k fs cl l e r : wf_fbuf b -> unlocked b k ->
  length l <= b_max b -> records (b_name b) fs l -> utf8 (ex_text e) -> exc_record e r ->
  forall j, let fs' := files (dat (prefix_run t j (fb_send_exc b e) (mkst (mkfdir fs cl) k))) in
    intact (b_name b) (b_max b) fs' l [r] /\
    (forall y, (forall i, y <> record_file (b_name b) i) -> fs' !! y = fs !! y).
Proof.
  intros Hwf Hk Hl Hr Hu He j. pose proof Hwf as [Hm Hlk].
  destruct (send_exc_alw b fs cl l t k e r Hwf Hk Hl Hr Hu He j) as [H _]. cbv zeta.
  assert (EL : lastn (b_max b) [r] = [r]).
  { unfold lastn. replace (length [r] - b_max b) with 0 by (simpl; lia). reflexivity. }
  split.
  - apply (phase_intact b fs l [r] Hm ltac:(discriminate) Hl). rewrite EL. exact H.
  - destruct H as [(n & _ & _ & H)|[(n & _ & _ & H)|[(n & _ & _ & H)|(n & p & x & _ & [_ H] & _)]]]; exact H.
Qed.
