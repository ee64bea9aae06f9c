(** * LineBufFacts: exact sequential behaviour of every method of [_LineBuffer] *)
From stdpp Require Import gmap.
From Coq Require Import List NArith ZArith Bool Arith Lia.
From Verif Require Import PyStr Prog ProgFacts PyIO Base Spec SpecFacts LineBuf.
Import ListNotations.
Local Open Scope nat_scope.

(** ** Containers *)
Lemma dq_append_spec {A} (x : A) q m : length q <= m -> 1 <= m ->
  dq_append x (mkdeque q m) = mkdeque (last_items m (q ++ [x])) m.
Proof.
  intros Hq Hm. unfold dq_append, trim_left. simpl. f_equal. rewrite app_length. simpl.
  destruct (Nat.ltb_spec m (length q + 1)).
  - unfold last_items. rewrite app_length. simpl.
    replace (length q + 1 - m) with 1 by lia. destruct (q ++ [x]); reflexivity.
  - rewrite last_items_all; [reflexivity|]. rewrite app_length. simpl. lia.
Qed.

Lemma dq_extend_spec {A} (xs : list A) m : 1 <= m -> forall q, length q <= m ->
  dq_extend xs (mkdeque q m) = mkdeque (last_items m (q ++ xs)) m.
Proof.
  intros Hm. induction xs as [|x xs IH]; intros q Hq.
  - unfold dq_extend. simpl. rewrite app_nil_r, last_items_all by assumption. reflexivity.
  - unfold dq_extend in *. simpl fold_left. rewrite dq_append_spec by assumption. rewrite IH.
    + rewrite last_items_app_idem, <- app_assoc. reflexivity.
    + rewrite last_items_length. lia.
Qed.

Lemma dq_appendleft_spec {A} (x : A) q m : length q < m ->
  dq_appendleft x (mkdeque q m) = mkdeque (x :: q) m.
Proof.
  intros H. unfold dq_appendleft, trim_right. simpl.
  destruct (Nat.ltb_spec m (S (length q))); [lia|reflexivity].
Qed.

Lemma dq_rotate_spec {A} (q : list A) n m : 1 <= n -> n <= length q ->
  dq_rotate n (mkdeque q m) =
  mkdeque (skipn (length q - n) q ++ firstn (length q - n) q) m.
Proof.
  intros H1 H2. unfold dq_rotate. destruct q as [|x q]; [simpl in *; lia|].
  change (dq (mkdeque (x :: q) m)) with (x :: q). set (l := x :: q) in *.
  unfold dmax. cbv beta iota.
  destruct (Nat.eq_dec n (length l)) as [->|Hne].
  - rewrite Nat.mod_same by (unfold l; simpl; lia).
    rewrite Nat.sub_0_r, Nat.sub_diag, skipn_all, firstn_all. simpl.
    rewrite app_nil_r. reflexivity.
  - rewrite Nat.mod_small by lia. reflexivity.
Qed.

(** ** A buffer whose StringIO position is at the end of its value. *)
Definition fl (v : text) (c : bool) : sio := mksio v (length v) c.
Definition bd (m : nat) (q : list item) (v : text) (c : bool) : lbuf :=
  mklbuf (mkdeque q m) (fl v c).

Lemma sio_write_end s v : sio_write s (fl v false) = (Good (length s), fl (v ++ s) false).
Proof.
  unfold sio_write, fl, sio_guard. simpl. destruct s as [|c s].
  - rewrite app_nil_r. reflexivity.
  - f_equal. rewrite Nat.sub_diag. simpl repeat. rewrite app_nil_r.
    rewrite firstn_all. rewrite skipn_all2 by (simpl; lia). rewrite app_nil_r.
    rewrite app_length. reflexivity.
Qed.

(** Single commands on such a buffer. *)
Lemma drun_op {X} (c : bcmd X) d : drun (op c) d = bexec c d.
Proof. simpl. destruct (bexec c d) as [[x|e|] d']; reflexivity. Qed.

Lemma be_tell m q v : bexec FTell (bd m q v false) = (Good (length v), bd m q v false).
Proof. reflexivity. Qed.
Lemma be_getvalue m q v : bexec FGetvalue (bd m q v false) = (Good v, bd m q v false).
Proof. reflexivity. Qed.
Lemma be_write m q v s :
  bexec (FWrite s) (bd m q v false) = (Good (length s), bd m q (v ++ s) false).
Proof. cbn [bexec]. unfold on_file. cbn [last_line bd]. rewrite sio_write_end. reflexivity. Qed.
Lemma be_maxlen m q v c : bexec DMaxlen (bd m q v c) = (Good m, bd m q v c).
Proof. reflexivity. Qed.
Lemma be_len m q v c : bexec DLen (bd m q v c) = (Good (length q), bd m q v c).
Proof. reflexivity. Qed.
Lemma be_items m q v c : bexec DItems (bd m q v c) = (Good q, bd m q v c).
Proof. reflexivity. Qed.
Lemma be_popleft m x q v c : bexec DPopleft (bd m (x :: q) v c) = (Good x, bd m q v c).
Proof. reflexivity. Qed.
Lemma be_append m x q v c : length q < m ->
  bexec (DAppend x) (bd m q v c) = (Good tt, bd m (q ++ [x]) v c).
Proof.
  intros H. cbn [bexec]. unfold on_dq. cbn [storage bd]. rewrite dq_append_spec by lia.
  rewrite last_items_all by (rewrite app_length; simpl; lia). reflexivity.
Qed.
Lemma be_appendleft m x q v c : length q < m ->
  bexec (DAppendleft x) (bd m q v c) = (Good tt, bd m (x :: q) v c).
Proof.
  intros H. cbn [bexec]. unfold on_dq. cbn [storage bd].
  rewrite dq_appendleft_spec by lia. reflexivity.
Qed.
Lemma be_extend m l q v c : length q <= m -> 1 <= m ->
  bexec (DExtend l) (bd m q v c) = (Good tt, bd m (last_items m (q ++ l)) v c).
Proof.
  intros H H1. cbn [bexec]. unfold on_dq. cbn [storage bd].
  rewrite dq_extend_spec by lia. reflexivity.
Qed.
Lemma be_rotate m n q v c : 1 <= n -> n <= length q ->
  bexec (DRotate n) (bd m q v c) =
  (Good tt, bd m (skipn (length q - n) q ++ firstn (length q - n) q) v c).
Proof.
  intros H H1. cbn [bexec]. unfold on_dq. cbn [storage bd].
  rewrite dq_rotate_spec by lia. reflexivity.
Qed.
Lemma be_reset {A} m q v (k : prog bcmd A) :
  drun (bind (bop FSeek0) (fun _ => bind (bop FTruncate0) (fun _ => k))) (bd m q v false) =
  drun k (bd m q [] false).
Proof. reflexivity. Qed.

Ltac dstep :=
  rewrite ?drun_bind, ?drun_op;
  first [ rewrite be_tell | rewrite be_getvalue | rewrite be_write | rewrite be_maxlen
        | rewrite be_len | rewrite be_items | rewrite be_popleft | rewrite be_append by (simpl; lia)
        | rewrite be_appendleft by (simpl; lia) | rewrite be_extend by (simpl; lia)
        | rewrite be_rotate by (simpl; lia) ];
  cbv beta iota zeta.

Definition opt_item (v : text) : list item := match v with [] => [] | _ => [IStr v] end.

(** What one write does. *)
Definition single_break (data : text) : bool :=
  match seg data with ([[]], []) => true | _ => false end.
Definition wres (data : text) : nat :=
  if single_break data then 1 else length (snd (seg data)).
Definition wlines (v : text) (data : text) : list item :=
  match seg data with
  | ([], _) => []
  | (l :: ls, _) => IStr (v ++ l) :: map IStr ls
  end.
Definition wtail (v : text) (data : text) : text :=
  match seg data with
  | ([], r) => v ++ r
  | (_ :: _, r) => r
  end.

(** Generic form: any [parse] program that does not touch the StringIO. *)
Definition keeps_file (parse : list item -> prog bcmd unit) : Prop :=
  forall lines, nolock (parse lines) /\
    forall d, last_line (snd (drun (parse lines) d)) = last_line d.

Lemma tl_app_cons {A} (l : A) ls x : tl ((l :: ls) ++ x) = ls ++ x.
Proof. reflexivity. Qed.

(** ** __write *)
Lemma removelast_cons_app {A} (x : A) l y : removelast (x :: l ++ [y]) = x :: l.
Proof. change (x :: l ++ [y]) with ((x :: l) ++ [y]). apply removelast_last. Qed.
Lemma last_cons_app {A} (x : A) l y d : last (x :: l ++ [y]) d = y.
Proof. change (x :: l ++ [y]) with ((x :: l) ++ [y]). apply last_last. Qed.

(** The program [__write] behaves like this simpler one (for every parse). *)
Definition write_simple (parse : list item -> prog bcmd unit) (data : text)
  : prog bcmd nat :=
  match seg data with
  | ([], []) => Ret 0
  | ([], r) => bop (FWrite r)
  | (l :: ls, r) =>
      if single_break data then
        bind (bop FGetvalue) (fun v => bind (parse [IStr v]) (fun _ =>
        bind (bop FSeek0) (fun _ => bind (bop FTruncate0) (fun _ => Ret 1))))
      else
        bind (bop FGetvalue) (fun v =>
        bind (parse (IStr (v ++ l) :: map IStr ls)) (fun _ =>
        bind (bop FSeek0) (fun _ => bind (bop FTruncate0) (fun _ => bop (FWrite r)))))
  end.

Lemma splitlines_single data :
  ((length (splitlines data) =? 1) && text_eqb (hd [] (splitlines data)) [])%bool =
  single_break data.
Proof.
  rewrite splitlines_seg. unfold single_break.
  destruct (seg data) as [[|l ls] r] eqn:E; simpl.
  - destruct r; reflexivity.
  - destruct l as [|c l].
    + destruct ls; simpl; destruct r; try reflexivity; rewrite ?app_length; simpl;
        rewrite ?Nat.add_0_r; destruct (length ls); simpl; try rewrite Nat.add_comm; reflexivity.
    + rewrite andb_false_r. reflexivity.
Qed.

Lemma is_end_seg data : is_end_line_break data =
  match seg data with ([], []) => false | (_, []) => true | _ => false end.
Proof.
  destruct (is_end_line_break data) eqn:E.
  - apply seg_end_break in E. destruct E as [Hn Hr].
    destruct (seg data) as [ls r] eqn:Es. simpl in Hr. subst r.
    destruct ls; [|reflexivity]. apply seg_nil_nil in Es. congruence.
  - destruct (seg data) as [ls r] eqn:Es.
    destruct ls as [|l ls]; [destruct r; reflexivity|]. destruct r; [|reflexivity].
    exfalso. assert (is_end_line_break data = true); [|congruence].
    apply seg_end_break. rewrite Es. split; [|reflexivity]. intros ->. discriminate.
Qed.

Lemma write_body_simple parse data d :
  drun (lb_write_body parse data) d = drun (write_simple parse data) d.
Proof.
  unfold lb_write_body, lb_write_body_gen. cbv zeta beta. rewrite splitlines_single. unfold write_simple.
  destruct (single_break data) eqn:Es.
  - unfold single_break in Es. destruct (seg data) as [[|l ls] r] eqn:E; [discriminate|].
    reflexivity.
  - rewrite is_end_seg, splitlines_seg. destruct (seg data) as [[|l ls] r] eqn:E.
    + simpl. destruct r as [|c r]; [reflexivity|]. reflexivity.
    + assert (Hgen : forall x,
        drun (bind (bop FGetvalue) (fun v => bind (parse (map IStr
               (removelast ((v ++ hd [] ((l :: ls) ++ [x])) :: tl ((l :: ls) ++ [x])))))
             (fun _ => bind (bop FSeek0) (fun _ => bind (bop FTruncate0) (fun _ =>
               bop (FWrite (last ((v ++ hd [] ((l :: ls) ++ [x])) :: tl ((l :: ls) ++ [x])) []))))))) d
        = drun (bind (bop FGetvalue) (fun v => bind (parse (IStr (v ++ l) :: map IStr ls))
             (fun _ => bind (bop FSeek0) (fun _ => bind (bop FTruncate0) (fun _ =>
               bop (FWrite x)))))) d).
      { intros x. rewrite !drun_bind. destruct (drun (bop FGetvalue) d) as [[v|e|] d']; auto.
        change (hd [] ((l :: ls) ++ [x])) with l. change (tl ((l :: ls) ++ [x])) with (ls ++ [x]).
        rewrite removelast_cons_app, last_cons_app. reflexivity. }
      destruct r as [|c r].
      * simpl opt_line. rewrite app_nil_r. simpl fst.
        replace (1 <? length (l :: ls) + 1) with true
          by (symmetry; apply Nat.ltb_lt; simpl; lia).
        apply Hgen.
      * simpl opt_line. simpl fst.
        match goal with |- context [1 <? ?n] => replace (1 <? n) with true end.
        2: { symmetry; apply Nat.ltb_lt. rewrite app_length. simpl. lia. }
        apply Hgen.
Qed.

Lemma nolock_write_body parse data : (forall l, nolock (parse l)) ->
  nolock (lb_write_body parse data).
Proof.
  intros Hp. unfold lb_write_body, lb_write_body_gen. cbv zeta beta.
  destruct (_ && _)%bool; [|destruct (is_end_line_break data);
    (destruct (1 <? _); [|destruct (_ =? 1)])];
    repeat first [apply nolock_bind; [|intros ?] | apply nolock_op | apply Hp | constructor].
Qed.

Lemma write_body_run data m q v : 1 <= m -> length q <= m ->
  drun (lb_write_body lb_parse_lines data) (bd m q v false) =
  (Good (wres data), bd m (last_items m (q ++ wlines v data)) (wtail v data) false).
Proof.
  intros Hm Hq. rewrite write_body_simple. unfold write_simple, wres, wlines, wtail.
  destruct (seg data) as [[|l ls] r] eqn:E.
  - assert (Hs : single_break data = false) by (unfold single_break; rewrite E; reflexivity).
    rewrite Hs. simpl snd. rewrite (app_nil_r q), last_items_all by assumption.
    destruct r as [|c r].
    + simpl. rewrite app_nil_r. reflexivity.
    + dstep. reflexivity.
  - destruct (single_break data) eqn:Es.
    + unfold single_break in Es. rewrite E in Es.
      destruct l; [|discriminate]. destruct ls; [|discriminate]. destruct r; [|discriminate].
      unfold lb_parse_lines. rewrite drun_bind. dstep. rewrite drun_bind. dstep.
      rewrite be_reset. simpl. rewrite app_nil_r. reflexivity.
    + unfold lb_parse_lines. rewrite drun_bind. dstep. rewrite drun_bind. dstep.
      rewrite be_reset. dstep. reflexivity.
Qed.

(** ** read *)
Lemma last_items_drop1 {A} (x : A) q y m : S (length q) = m ->
  last_items m ((x :: q) ++ [y]) = q ++ [y].
Proof.
  intros H. unfold last_items. rewrite app_length. simpl.
  replace (S (length q + 1) - m) with 1 by lia. reflexivity.
Qed.

Lemma read_all_run m q v : 1 <= m -> length q <= m ->
  drun lb_read_all (bd m q v false) =
  (Good (last_items m (q ++ opt_item v)), bd m q v false).
Proof.
  intros Hm Hq. unfold lb_read_all. rewrite drun_bind. dstep. rewrite drun_bind. dstep.
  destruct v as [|c v].
  - simpl opt_item. rewrite app_nil_r, last_items_all by assumption. reflexivity.
  - simpl opt_item. set (vv := c :: v) in *.
    replace (0 <? length vv) with true by reflexivity. cbv iota.
    rewrite drun_bind. dstep.
    replace (m =? 0) with false by (symmetry; apply Nat.eqb_neq; lia). simpl negb. simpl andb.
    destruct (Nat.eqb_spec (length q) m) as [Hf|Hf].
    + destruct q as [|x q]; [simpl in Hf; lia|]. simpl in Hf.
      rewrite drun_bind. dstep. rewrite drun_bind. dstep. rewrite drun_bind. dstep.
      rewrite drun_bind. dstep. rewrite last_items_drop1 by assumption. reflexivity.
    + rewrite last_items_all by (rewrite app_length; simpl; lia).
      destruct (Nat.ltb_spec 0 (length q)) as [H0|H0].
      * reflexivity.
      * destruct q; [|simpl in H0; lia]. reflexivity.
Qed.

Lemma read_loop_run m v : forall n acc a b c,
  length a = n -> length (a ++ b) <= m ->
  drun (lb_read_loop n acc) (bd m (a ++ b) v c) = (Good (acc ++ a), bd m (b ++ a) v c).
Proof.
  induction n as [|n IH]; intros acc a b c Ha Hm.
  - destruct a; [|discriminate]. simpl. rewrite !app_nil_r. reflexivity.
  - destruct a as [|x a]; [discriminate|]. cbn [lb_read_loop]. simpl in Ha, Hm.
    injection Ha as Ha. rewrite drun_bind. simpl app. dstep. rewrite drun_bind. dstep.
    rewrite <- app_assoc.
    rewrite IH by (rewrite ?app_length in *; simpl; lia).
    rewrite <- !app_assoc. reflexivity.
Qed.

Lemma nolock_read_loop n : forall acc, nolock (lb_read_loop n acc).
Proof.
  induction n; intros acc; simpl; [constructor|].
  constructor; intros; [|constructor]. simpl. constructor; intros; [|constructor]. apply IHn.
Qed.

(** The middle part of read_n: rotate then loop. *)
Lemma rotate_loop_run m q v c n : n <= length q -> length q <= m ->
  drun (bind (if 0 <? n then bop (DRotate n) else Ret tt) (fun _ => lb_read_loop n []))
       (bd m q v c) = (Good (last_items n q), bd m q v c).
Proof.
  intros Hn Hm. destruct (Nat.ltb_spec 0 n) as [H0|H0].
  - rewrite drun_bind. dstep. rewrite read_loop_run.
    + simpl. rewrite firstn_skipn. reflexivity.
    + rewrite skipn_length. lia.
    + rewrite app_length, skipn_length, firstn_length. lia.
  - replace n with 0 by lia. simpl. rewrite last_items_0. reflexivity.
Qed.

Lemma rotate_loop_run' {A} m q v c n (k : list item -> prog bcmd A) :
  n <= length q -> length q <= m ->
  drun (bind (if 0 <? n then bop (DRotate n) else Ret tt)
             (fun _ => bind (lb_read_loop n []) k)) (bd m q v c) =
  drun (k (last_items n q)) (bd m q v c).
Proof.
  intros Hn Hm. pose proof (rotate_loop_run m q v c n Hn Hm) as HR.
  rewrite drun_bind in HR. rewrite drun_bind.
  destruct (drun (if 0 <? n then bop (DRotate n) else Ret tt) (bd m q v c))
    as [[u|e|] d1]; try discriminate.
  rewrite drun_bind, HR. reflexivity.
Qed.

Lemma last_items_min {A} n (l : list A) : last_items (Nat.min n (length l)) l = last_items n l.
Proof.
  destruct (le_lt_dec n (length l)).
  - rewrite Nat.min_l by assumption. reflexivity.
  - rewrite Nat.min_r by lia. rewrite !last_items_all by lia. reflexivity.
Qed.

Lemma read_n_run m q v n : 1 <= m -> length q <= m -> 1 <= n ->
  drun (lb_read_n n) (bd m q v false) =
  (Good (last_items n (last_items m (q ++ opt_item v))), bd m q v false).
Proof.
  intros Hm Hq Hn. unfold lb_read_n.
  rewrite drun_bind. dstep. rewrite drun_bind. dstep. rewrite drun_bind. dstep.
  replace (m =? 0) with false by (symmetry; apply Nat.eqb_neq; lia).
  destruct v as [|c v].
  - simpl opt_item. rewrite app_nil_r, (last_items_all m) by assumption.
    replace (0 <? length (@nil N)) with false by reflexivity. simpl andb. 
    rewrite drun_bind. simpl drun at 1. cbv beta iota zeta.
    rewrite rotate_loop_run' by lia. simpl. rewrite last_items_min. reflexivity.
  - simpl opt_item. set (vv := c :: v) in *.
    replace (0 <? length vv) with true by reflexivity.
    cbv iota. simpl andb. 
    destruct (Nat.eqb_spec (length q) m) as [Hf|Hf].
    + destruct q as [|x q]; [simpl in Hf; lia|]. simpl in Hf.
      rewrite drun_bind, drun_bind. dstep. simpl drun at 1. cbv beta iota zeta.
      replace (length (x :: q) - 1) with (length q) by (simpl; lia).
      rewrite rotate_loop_run' by lia.
      rewrite drun_bind. dstep. rewrite drun_bind. dstep. simpl drun. 
      rewrite last_items_drop1 by assumption. rewrite last_items_min.
      rewrite last_items_app_ge by (simpl; lia). reflexivity.
    + rewrite drun_bind. simpl drun at 1. cbv beta iota zeta.
      rewrite rotate_loop_run' by lia.
      rewrite drun_bind. dstep. simpl. 
      rewrite (last_items_all m) by (rewrite app_length; simpl; lia).
      rewrite last_items_app_ge by (simpl; lia).
      rewrite last_items_min. reflexivity.
Qed.

Ltac nolock_tac :=
  repeat first
    [ apply nolock_bind; [|intros ?] | apply nolock_op | apply nolock_read_loop
    | progress cbv zeta
    | match goal with
      | |- nolock (if ?b then _ else _) => destruct b
      | |- nolock (match ?b with _ => _ end) => destruct b
      end
    | constructor; fail | constructor; intros ? ].

Lemma nolock_read_all : nolock lb_read_all.
Proof. unfold lb_read_all. nolock_tac. Qed.
Lemma nolock_read_n n : nolock (lb_read_n n).
Proof. unfold lb_read_n. nolock_tac. Qed.
Lemma nolock_parse l : nolock (lb_parse_lines l).
Proof. apply nolock_op. Qed.

(** ** The whole sequential machine *)
Record abuf := mkabuf { aq : list item; av : text; acl : bool }.

Definition cst (m : nat) (a : abuf) (k : locks) : st lbuf :=
  mkst (bd m (aq a) (av a) (acl a)) k.

Definition aok (m : nat) (a : abuf) : Prop :=
  1 <= m /\ length (aq a) <= m /\ (acl a = true -> aq a = [] /\ av a = []).

Definition aread (m : nat) (size : option Z) (a : abuf) : list item :=
  match size with
  | None => last_items m (aq a ++ opt_item (av a))
  | Some z => if (0 <? z)%Z then
                last_items (Z.to_nat z) (last_items m (aq a ++ opt_item (av a)))
              else []
  end.

Definition astep (m : nat) (c : call) (a : abuf) : outcome res * abuf :=
  let '(mkabuf q v cl) := a in
  match c with
  | Write data =>
      if cl then (Fail OSError, a)
      else (Good (RNat (wres data)),
            mkabuf (last_items m (q ++ wlines v data)) (wtail v data) false)
  | Read size => if cl then (Fail OSError, a) else (Good (RItems (aread m size a)), a)
  | NewLine =>
      if cl then (Fail ValueError, a)
      else match v with
           | [] => (Good RUnit, a)
           | _ => (Good RUnit, mkabuf (last_items m (q ++ [IStr v])) [] false)
           end
  | Clear => if cl then (Fail ValueError, a) else (Good RUnit, mkabuf [] [] false)
  | Close => (Good RUnit, if cl then a else mkabuf [] [] true)
  | Flush => (Good RUnit, a)
  | Len => (Good (RNat (Nat.min m (length q + 1))), a)
  | Closed => (Good (RBool cl), a)
  | Readable | Writable => (Good (RBool (negb cl)), a)
  | Maxlen => (Good (RNat m), a)
  | Fileno | Seek => (Fail OSError, a)
  | Isatty | Seekable => (Good (RBool false), a)
  end.

Lemma with_LL_run {A} t (body : prog bcmd A) d k r d' :
  k !! LL = None -> nolock body -> drun body d = (r, d') -> r <> Block ->
  run t (with_lock LL Ex body) (mkst d k) = (r, mkst d' k).
Proof.
  intros Hk Hn Hr Hb. rewrite run_with_lock; simpl; rewrite ?Hr; auto.
  unfold nonblock. rewrite Hr. exact Hb.
Qed.

Lemma run_ret_as {X} t (f : X -> res) (p : prog bcmd X) s r s' :
  run t p s = (r, s') ->
  run t (ret_as f p) s =
  (match r with Good x => Good (f x) | Fail e => Fail e | Block => Block end, s').
Proof. intros H. unfold ret_as. rewrite run_bind, H. destruct r; reflexivity. Qed.

Lemma nolock_new_line_body parse : (forall l, nolock (parse l)) ->
  nolock (bind (bop FTell) (fun n =>
     if 0 <? n then bind (lb_write_body parse [LF]) (fun _ => Ret tt) else Ret tt)).
Proof.
  intros H. apply nolock_bind; [apply nolock_op|]. intros n. destruct (_ <? _); [|constructor].
  apply nolock_bind; [apply nolock_write_body, H|constructor].
Qed.

Section Methods.
  Variables (m t : nat) (k : locks).
  Hypothesis (Hm : 1 <= m) (Hk : k !! LL = None).
  Notation S q v c := (mkst (bd m q v c) k).

  Lemma run_closed q v c : run t lb_closed (S q v c) = (Good c, S q v c).
  Proof. eapply with_LL_run; [assumption|nolock_tac|reflexivity|discriminate]. Qed.
  Lemma run_readable q v c : run t lb_readable (S q v c) = (Good (negb c), S q v c).
  Proof. eapply with_LL_run; [assumption|nolock_tac|reflexivity|discriminate]. Qed.
  Lemma run_writable q v c : run t lb_writable (S q v c) = (Good (negb c), S q v c).
  Proof. eapply with_LL_run; [assumption|nolock_tac|reflexivity|discriminate]. Qed.
  Lemma run_flush q v c : run t lb_flush (S q v c) = (Good tt, S q v c).
  Proof. eapply with_LL_run; [assumption|nolock_tac|reflexivity|discriminate]. Qed.
  Lemma run_clear_open q v : run t lb_clear (S q v false) = (Good tt, S [] [] false).
  Proof.
    unfold lb_clear. rewrite run_bind.
    erewrite with_LL_run; [|assumption|nolock_tac|reflexivity|discriminate]. reflexivity.
  Qed.
  Lemma run_clear_closed q v : run t lb_clear (S q v true) = (Fail ValueError, S q v true).
  Proof.
    unfold lb_clear. rewrite run_bind.
    erewrite with_LL_run; [|assumption|nolock_tac|reflexivity|discriminate]. reflexivity.
  Qed.
  Lemma run_close_open q v : run t lb_close (S q v false) = (Good tt, S [] [] true).
  Proof.
    unfold lb_close. change (with_lock LL Ex (bop FClosed)) with lb_closed.
    rewrite run_bind, run_closed. cbv beta iota. rewrite run_bind, run_clear_open.
    erewrite with_LL_run; [|assumption|nolock_tac|reflexivity|discriminate]. reflexivity.
  Qed.
  Lemma run_close_closed q v : run t lb_close (S q v true) = (Good tt, S q v true).
  Proof.
    unfold lb_close. rewrite run_bind.
    erewrite with_LL_run; [|assumption|nolock_tac|reflexivity|discriminate]. reflexivity.
  Qed.
  Lemma run_len q v c : run t lb_len (S q v c) = (Good (Nat.min m (length q + 1)), S q v c).
  Proof.
    unfold lb_len, lb_maxlen. rewrite run_bind, run_op. cbn -[with_lock]. 
    change (mkst _ _) with (S q v c). rewrite run_bind.
    erewrite with_LL_run; [|assumption|nolock_tac|reflexivity|discriminate]. simpl.
    replace (m =? 0) with false by (symmetry; apply Nat.eqb_neq; lia). reflexivity.
  Qed.
  Lemma run_write_open data q v : length q <= m ->
    run t (lb_write data) (S q v false) =
    (Good (wres data), S (last_items m (q ++ wlines v data)) (wtail v data) false).
  Proof.
    intros Hq. unfold lb_write, lb_write_with, lb_write_gen. fold lb_writable.
    rewrite run_bind, run_writable. cbv beta iota.
    eapply with_LL_run;
      [assumption|apply nolock_write_body, nolock_parse|apply write_body_run; assumption|discriminate].
  Qed.
  Lemma run_write_closed data q v : run t (lb_write data) (S q v true) = (Fail OSError, S q v true).
  Proof. unfold lb_write, lb_write_with, lb_write_gen. fold lb_writable.
    rewrite run_bind, run_writable. reflexivity. Qed.
  Lemma run_read_open size q v : length q <= m ->
    run t (lb_read size) (S q v false) =
    (Good (aread m size (mkabuf q v false)), S q v false).
  Proof.
    intros Hq. unfold lb_read. rewrite run_bind, run_readable. cbv beta iota.
    unfold aread. destruct size as [z|].
    - destruct (Z.ltb_spec 0 z).
      + eapply with_LL_run; [assumption|apply nolock_read_n| |discriminate].
        apply read_n_run; auto. lia.
      + eapply with_LL_run; [assumption|constructor|reflexivity|discriminate].
    - eapply with_LL_run; [assumption|apply nolock_read_all| |discriminate].
      apply read_all_run; auto.
  Qed.
  Lemma run_read_closed size q v : run t (lb_read size) (S q v true) = (Fail OSError, S q v true).
  Proof. unfold lb_read. rewrite run_bind, run_readable. reflexivity. Qed.

  Lemma seg_LF : seg [LF] = ([[]], []).
  Proof. reflexivity. Qed.

  Lemma run_new_line_open q v : length q <= m ->
    run t lb_new_line (S q v false) =
    (Good tt, match v with [] => S q v false
                         | _ => S (last_items m (q ++ [IStr v])) [] false end).
  Proof.
    intros Hq. unfold lb_new_line, lb_new_line_with, lb_new_line_gen.
    destruct v as [|c v].
    - eapply with_LL_run; [assumption| |reflexivity|discriminate]. 
      apply nolock_new_line_body, nolock_parse.
    - eapply with_LL_run; [assumption| | |discriminate].
      + apply nolock_new_line_body, nolock_parse.
      + rewrite drun_bind, drun_op. cbn [bexec]. unfold on_file.
        change (sio_tell (last_line (bd m q (c :: v) false)))
          with (@Good nat (length (c :: v)), fl (c :: v) false).
        cbv beta iota. replace (0 <? length (c :: v)) with true by reflexivity.
        change (mklbuf (storage (bd m q (c :: v) false)) (fl (c :: v) false))
          with (bd m q (c :: v) false).
        rewrite drun_bind, write_body_run by assumption.
        unfold wlines, wtail. rewrite seg_LF. simpl. rewrite app_nil_r. reflexivity.
  Qed.
  Lemma run_new_line_closed q v : run t lb_new_line (S q v true) = (Fail ValueError, S q v true).
  Proof.
    unfold lb_new_line, lb_new_line_with, lb_new_line_gen. eapply with_LL_run; [assumption| |reflexivity|discriminate].
    apply nolock_new_line_body, nolock_parse.
  Qed.
End Methods.

(** Also true when items were appended after closing (as LineProcBuffer.receive can do). *)
Theorem lb_call_run_weak m t k c a : k !! LL = None -> 1 <= m -> length (aq a) <= m ->
  run t (lb_call c) (cst m a k) = (fst (astep m c a), cst m (snd (astep m c a)) k).
Proof.
  intros Hk Hm Hq. destruct a as [q v cl]. unfold cst in *. cbn [aq av acl] in *.
  destruct c; cbn [lb_call]; cbn [astep].
  - destruct cl; (erewrite run_ret_as; [|first [apply run_write_open|apply run_write_closed]; auto]); reflexivity.
  - destruct cl; (erewrite run_ret_as; [|first [apply run_read_open|apply run_read_closed]; auto]); reflexivity.
  - destruct cl; [erewrite run_ret_as; [|apply run_new_line_closed; auto]; reflexivity|].
    erewrite run_ret_as; [|apply run_new_line_open; auto]. destruct v; reflexivity.
  - destruct cl; (erewrite run_ret_as; [|first [apply run_clear_open|apply run_clear_closed]; auto]); reflexivity.
  - destruct cl; (erewrite run_ret_as; [|first [apply run_close_open|apply run_close_closed]; auto]); reflexivity.
  - erewrite run_ret_as; [|apply run_flush; auto]; reflexivity.
  - erewrite run_ret_as; [|apply run_len; auto]; reflexivity.
  - erewrite run_ret_as; [|apply run_closed; auto]; reflexivity.
  - erewrite run_ret_as; [|apply run_readable; auto]; reflexivity.
  - erewrite run_ret_as; [|apply run_writable; auto]; reflexivity.
  - reflexivity.
  - reflexivity.
  - reflexivity.
  - reflexivity.
  - reflexivity.
Qed.

Theorem lb_call_run m t k c a : k !! LL = None -> aok m a ->
  run t (lb_call c) (cst m a k) = (fst (astep m c a), cst m (snd (astep m c a)) k).
Proof. intros Hk (Hm & Hq & Hc). apply lb_call_run_weak; assumption. Qed.

Lemma astep_len m c a : 1 <= m -> length (aq a) <= m -> length (aq (snd (astep m c a))) <= m.
Proof.
  intros Hm Hq. destruct a as [q v cl]. destruct c; cbn [astep snd aq]; destruct cl; try destruct v;
    cbn [snd aq] in *; rewrite ?last_items_length; simpl; lia.
Qed.

Lemma astep_ok m c a : aok m a -> aok m (snd (astep m c a)).
Proof.
  intros (Hm & Hq & Hc). destruct a as [q v cl]. cbn [aq av acl] in *. unfold aok.
  destruct cl; [destruct (Hc eq_refl); subst|];
    destruct c; cbn [astep snd aq av acl]; try destruct v; cbn [snd aq av acl];
    rewrite ?last_items_length; repeat split; auto; try lia; try congruence; simpl; lia.
Qed.

Fixpoint ahist (m : nat) (h : hist) (a : abuf) : list (outcome res) * abuf :=
  match h with
  | [] => ([], a)
  | (t, c) :: h' => let '(r, a1) := astep m c a in
                    let '(rs, a2) := ahist m h' a1 in (r :: rs, a2)
  end.

Lemma run_hist_ahist m k h : k !! LL = None -> forall a, aok m a ->
  run_hist h (cst m a k) = (fst (ahist m h a), cst m (snd (ahist m h a)) k).
Proof.
  intros Hk. induction h as [|[t c] h IH]; intros a Ha; [reflexivity|].
  cbn [run_hist ahist]. rewrite lb_call_run by assumption.
  pose proof (astep_ok m c a Ha) as Ha'. destruct (astep m c a) as [r a1]. cbn [fst snd] in *.
  rewrite IH by assumption. destruct (ahist m h a1) as [rs a2]. reflexivity.
Qed.

Lemma ahist_ok m h : forall a, aok m a -> aok m (snd (ahist m h a)).
Proof.
  induction h as [|[t c] h IH]; intros a Ha; [exact Ha|]. cbn [ahist].
  pose proof (astep_ok m c a Ha) as Ha'. destruct (astep m c a) as [r a1]. cbn [snd] in Ha'.
  specialize (IH a1 Ha'). destruct (ahist m h a1) as [rs a2]. exact IH.
Qed.

Definition a0 : abuf := mkabuf [] [] false.
Lemma fresh_cst m : fresh m = cst m a0 stdpp.base.empty.
Proof. reflexivity. Qed.
Lemma a0_ok m : 1 <= m -> aok m a0.
Proof. intros H. repeat split; auto. simpl. lia. Qed.

Lemma reachable_inv m s : 1 <= m -> reachable m s ->
  exists a, s = cst m a stdpp.base.empty /\ aok m a.
Proof.
  intros Hm [h ->]. rewrite fresh_cst, run_hist_ahist; [|apply lookup_empty|apply a0_ok; auto].
  eexists; split; [reflexivity|]. apply ahist_ok, a0_ok, Hm.
Qed.
