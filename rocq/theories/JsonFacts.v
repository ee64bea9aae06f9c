(** * JsonFacts: json.loads (json.dumps v) = wire v *)
From Coq Require Import String.
From Coq Require Import List NArith ZArith Bool Arith Lia.
From Verif Require Import PyStr Prog Base Spec SpecFacts Host Json JsonText JsonSpec FileFacts.
Import ListNotations.
Local Open Scope N_scope.
Local Open Scope bool_scope.
Ltac Zify.zify_post_hook ::= Z.div_mod_to_equations.

Lemma hex_val_digit n : n < 16 -> hex_val (hex_digit n) = Some n.
Proof.
  intros H. unfold hex_digit, hex_val. destruct (n <? 10) eqn:E.
  - apply N.ltb_lt in E. replace (48 <=? 48 + n) with true by (symmetry; apply N.leb_le; lia).
    replace (48 + n <=? 57) with true by (symmetry; apply N.leb_le; lia). cbn [andb]. f_equal. lia.
  - apply N.ltb_ge in E. replace (87 + n <=? 57) with false by (symmetry; apply N.leb_gt; lia).
    rewrite andb_false_r. replace (97 <=? 87 + n) with true by (symmetry; apply N.leb_le; lia).
    replace (87 + n <=? 102) with true by (symmetry; apply N.leb_le; lia). cbn [andb]. f_equal. lia.
Qed.
Lemma hex4_u c : c < 65536 ->
  hex4 (hex_digit (c / 4096)) (hex_digit (c / 256 mod 16)) (hex_digit (c / 16 mod 16)) (hex_digit (c mod 16)) = Some c.
Proof.
  intros H. unfold hex4. rewrite (hex_val_digit (c / 4096)) by lia. rewrite (hex_val_digit (c / 256 mod 16)) by (apply N.mod_lt; discriminate).
  rewrite (hex_val_digit (c / 16 mod 16)) by (apply N.mod_lt; discriminate). rewrite (hex_val_digit (c mod 16)) by (apply N.mod_lt; discriminate). f_equal.
  pose proof (N.div_mod c 16 ltac:(lia)) as H1. pose proof (N.div_mod (c / 16) 16 ltac:(lia)) as H2.
  pose proof (N.div_mod (c / 256) 16 ltac:(lia)) as H3.
  rewrite N.div_div in H2, H3 by lia. change (16 * 16) with 256 in H2. change (256 * 16) with 4096 in H3.
  set (q1 := c / 16) in *. set (q2 := c / 256) in *. set (q3 := c / 4096) in *.
  set (r1 := c mod 16) in *. set (r2 := q1 mod 16) in *. set (r3 := q2 mod 16) in *.
  clearbody q1 q2 q3 r1 r2 r3. lia.
Qed.

Definition puts_c (c : N) (r : option (text * text)) : option (text * text) :=
  match r with Some (t, r') => Some (c :: t, r') | None => None end.

Lemma scan_u_plain u rest : u < 65536 -> hi_unit u = false ->
  scan_string (escape_u u ++ rest) = puts_c u (scan_string rest).
Proof.
  intros H Hu. unfold escape_u. cbn [app scan_string]. change (92 =? 34) with false. change (92 <? 32) with false.
  change (negb (92 =? 92)) with false. change (negb (117 =? 117)) with false. cbv iota.
  rewrite hex4_u by exact H. rewrite Hu. reflexivity.
Qed.
Lemma scan_u_pair u u2 rest : u < 65536 -> u2 < 65536 -> hi_unit u = true -> lo_unit u2 = true ->
  scan_string (escape_u u ++ escape_u u2 ++ rest) =
  puts_c (65536 + ((u - 55296) * 1024 + (u2 - 56320))) (scan_string rest).
Proof.
  intros H H2 Hu Hu2. unfold escape_u. cbn [app scan_string]. change (92 =? 34) with false. change (92 <? 32) with false.
  change (negb (92 =? 92)) with false. change (negb (117 =? 117)) with false. cbv iota.
  rewrite hex4_u by exact H. rewrite Hu. cbn [negb]. change (92 =? 92) with true. change (117 =? 117) with true.
  cbn [andb]. cbv iota. rewrite hex4_u by exact H2. rewrite Hu2. reflexivity.
Qed.
Definition not_lo (rest : text) : Prop :=
  forall g1 g2 g3 g4 s4, rest = 92 :: 117 :: g1 :: g2 :: g3 :: g4 :: s4 ->
    exists u2, hex4 g1 g2 g3 g4 = Some u2 /\ lo_unit u2 = false.
Lemma scan_u_hi u rest : u < 65536 -> hi_unit u = true -> not_lo rest ->
  scan_string (escape_u u ++ rest) = puts_c u (scan_string rest).
Proof.
  intros H Hu Hn. unfold escape_u. cbn [app].
  change (scan_string (92 :: 117 :: hex_digit (u / 4096) :: hex_digit (u / 256 mod 16) :: hex_digit (u / 16 mod 16) :: hex_digit (u mod 16) :: rest))
    with (match hex4 (hex_digit (u / 4096)) (hex_digit (u / 256 mod 16)) (hex_digit (u / 16 mod 16)) (hex_digit (u mod 16)) with
          | None => None
          | Some u =>
            if negb (hi_unit u) then puts_c u (scan_string rest)
            else match rest with
                | b :: e' :: g1 :: g2 :: g3 :: g4 :: s4 =>
                  if (b =? 92) && (e' =? 117) then
                    match hex4 g1 g2 g3 g4 with
                    | None => None
                    | Some u2 =>
                      if lo_unit u2 then puts_c (65536 + ((u - 55296) * 1024 + (u2 - 56320))) (scan_string s4)
                      else puts_c u (scan_string rest)
                    end
                  else puts_c u (scan_string rest)
                | _ => puts_c u (scan_string rest)
                end
          end).
  rewrite hex4_u by exact H. rewrite Hu. cbn [negb].
  destruct rest as [|b [|e' [|g1 [|g2 [|g3 [|g4 s4]]]]]]; try reflexivity.
  destruct ((b =? 92) && (e' =? 117)) eqn:Hb; [|reflexivity].
  apply andb_prop in Hb. destruct Hb as [Hb1 Hb2]. apply N.eqb_eq in Hb1, Hb2.
  destruct (Hn g1 g2 g3 g4 s4) as (u2 & H1 & H2); [congruence|]. rewrite H1, H2. reflexivity.
Qed.

(** The code points for which [escape] writes something else than \u. *)
Definition short (c : N) : bool :=
  (c =? 34) || (c =? 92) || (c =? 10) || (c =? 13) || (c =? 9) || (c =? 12) || (c =? 8) || ((32 <=? c) && (c <=? 126)).
Lemma short_spec c : short c = true ->
  c = 34 \/ c = 92 \/ c = 10 \/ c = 13 \/ c = 9 \/ c = 12 \/ c = 8 \/ (32 <= c <= 126).
Proof. unfold short. rewrite !orb_true_iff, !N.eqb_eq, andb_true_iff, !N.leb_le. tauto. Qed.
Lemma short_scan c rest : short c = true -> scan_string (escape c ++ rest) = puts_c c (scan_string rest).
Proof.
  intros H. apply short_spec in H. unfold escape.
  repeat match goal with |- context [if c =? ?n then _ else _] =>
    destruct (N.eqb_spec c n) as [->|]; [reflexivity|] end.
  assert (H' : 32 <= c <= 126) by lia.
  replace ((32 <=? c) && (c <=? 126)) with true by (symmetry; apply andb_true_iff; rewrite !N.leb_le; lia).
  cbn [app scan_string].
  replace (c =? 34) with false by (symmetry; apply N.eqb_neq; lia).
  replace (c <? 32) with false by (symmetry; apply N.ltb_ge; lia).
  replace (c =? 92) with false by (symmetry; apply N.eqb_neq; lia). reflexivity.
Qed.
Lemma short_not_lo c rest : short c = true -> not_lo (escape c ++ rest).
Proof.
  intros H g1 g2 g3 g4 s4 E. exfalso. apply short_spec in H. unfold escape in E.
  repeat match type of E with context [if c =? ?n then _ else _] =>
    destruct (N.eqb_spec c n) as [->|]; [discriminate|] end.
  replace ((32 <=? c) && (c <=? 126)) with true in E by (symmetry; apply andb_true_iff; rewrite !N.leb_le; lia).
  injection E as E _. lia.
Qed.
Lemma long_escape c : short c = false ->
  escape c = if c <? 65536 then escape_u c
             else escape_u (55296 + (c - 65536) / 1024) ++ escape_u (56320 + (c - 65536) mod 1024).
Proof.
  intros H. unfold short in H. repeat (apply orb_false_elim in H; destruct H as [H ?]). unfold escape.
  repeat match goal with H : _ = false |- _ => rewrite H; clear H end. reflexivity.
Qed.
Lemma u_lo u rest : u < 65536 -> lo_unit u = false -> not_lo (escape_u u ++ rest).
Proof.
  intros H Hu g1 g2 g3 g4 s4 E. unfold escape_u in E. cbn [app] in E. injection E as <- <- <- <- _.
  exists u. rewrite hex4_u by exact H. auto.
Qed.

Lemma is_hi_unit c : is_hi c = hi_unit c. Proof. reflexivity. Qed.
Lemma is_lo_unit c : is_lo c = lo_unit c. Proof. reflexivity. Qed.
Lemma wire_text_cons c s : is_hi c = false -> wire_text (c :: s) = c :: wire_text s.
Proof. intros H. destruct s as [|d r]; [reflexivity|]. cbn [wire_text]. rewrite H. reflexivity. Qed.
Lemma wire_text_cons2 c d s : is_lo d = false -> wire_text (c :: d :: s) = c :: wire_text (d :: s).
Proof. intros H. cbn [wire_text]. rewrite H, andb_false_r. reflexivity. Qed.
Lemma wire_text_pair c d s : is_hi c = true -> is_lo d = true -> wire_text (c :: d :: s) = join_pair c d :: wire_text s.
Proof. intros H1 H2. cbn [wire_text]. rewrite H1, H2. reflexivity. Qed.

Ltac bools := repeat match goal with
  | H : (_ && _)%bool = true |- _ => apply andb_prop in H; destruct H
  | H : (_ <=? _) = true |- _ => apply N.leb_le in H
  | H : (_ <=? _) = false |- _ => apply N.leb_gt in H
  | H : (_ <? _) = true |- _ => apply N.ltb_lt in H
  | H : (_ <? _) = false |- _ => apply N.ltb_ge in H
  end.
Lemma hi_true u : hi_unit u = true <-> 55296 <= u <= 56319.
Proof. unfold hi_unit. rewrite andb_true_iff, !N.leb_le. tauto. Qed.
Lemma lo_true u : lo_unit u = true <-> 56320 <= u <= 57343.
Proof. unfold lo_unit. rewrite andb_true_iff, !N.leb_le. tauto. Qed.
Lemma hi_false u : hi_unit u = false <-> ~ (55296 <= u <= 56319).
Proof. rewrite <- hi_true. destruct (hi_unit u); intuition discriminate. Qed.
Lemma lo_false u : lo_unit u = false <-> ~ (56320 <= u <= 57343).
Proof. rewrite <- lo_true. destruct (lo_unit u); intuition discriminate. Qed.
Lemma short_lt c : short c = true -> c <= 126.
Proof. intros H. apply short_spec in H. lia. Qed.

(** [py_scanstring] undoes [escape], up to pairs of surrogates. *)
Lemma scan_quoted s r : vtext s -> scan_string (flat_map escape s ++ 34 :: r) = Some (wire_text s, r).
Proof.
  remember (length s) as n eqn:Hn. assert (Hl : (length s <= n)%nat) by lia. clear Hn. revert s Hl.
  induction n as [|n IH]; intros [|c s] Hl Hv; cbn [length] in Hl; try lia; try reflexivity.
  inversion Hv as [|? ? Hc Hv']; subst. cbn [flat_map]. rewrite <- app_assoc.
  assert (IHs : scan_string (flat_map escape s ++ 34 :: r) = Some (wire_text s, r)) by (apply IH; [lia|exact Hv']).
  destruct (short c) eqn:Hsh.
  { rewrite short_scan by exact Hsh. rewrite IHs. cbn [puts_c]. rewrite wire_text_cons; [reflexivity|].
    apply hi_false. apply short_lt in Hsh. lia. }
  rewrite (long_escape c Hsh). destruct (c <? 65536) eqn:Hb; bools.
  - destruct (hi_unit c) eqn:Hhi.
    + destruct s as [|d s'].
      * rewrite scan_u_hi by (auto; intros g1 g2 g3 g4 s4 E; discriminate). reflexivity.
      * inversion Hv' as [|? ? Hd Hv'']; subst. cbn [flat_map] in *. rewrite <- app_assoc in *.
        destruct (lo_unit d) eqn:Hlo.
        -- assert (Hds : short d = false).
           { destruct (short d) eqn:Q; [|reflexivity]. apply short_lt in Q. apply lo_true in Hlo. lia. }
           assert (Hd2 : d < 65536) by (apply lo_true in Hlo; lia).
           rewrite (long_escape d Hds). replace (d <? 65536) with true by (symmetry; apply N.ltb_lt; exact Hd2).
           rewrite scan_u_pair by auto. rewrite IH by (cbn [length] in *; auto; lia). cbn [puts_c].
           rewrite wire_text_pair by auto. do 3 f_equal. unfold join_pair. lia.
        -- rewrite scan_u_hi; auto.
           ++ rewrite IHs. cbn [puts_c]. rewrite wire_text_cons2 by auto. reflexivity.
           ++ destruct (short d) eqn:Hds; [apply short_not_lo, Hds|]. rewrite (long_escape d Hds).
              destruct (d <? 65536) eqn:Hd2; bools; [apply u_lo; auto|]. rewrite <- app_assoc.
              assert (Hq : (d - 65536) / 1024 < 1024) by (apply N.div_lt_upper_bound; lia).
              apply u_lo; [lia|apply lo_false; lia].
    + rewrite scan_u_plain by auto. rewrite IHs. cbn [puts_c]. rewrite wire_text_cons by auto. reflexivity.
  - assert (Hx : exists x, c = 65536 + x /\ x < 1048576) by (exists (c - 65536); lia). destruct Hx as (x & -> & Hx).
    replace (65536 + x - 65536) with x by lia.
    pose proof (N.div_mod x 1024 ltac:(lia)) as Hdm. pose proof (N.mod_lt x 1024 ltac:(lia)) as Hm.
    assert (Hq : x / 1024 < 1024) by (apply N.div_lt_upper_bound; lia).
    set (q := x / 1024) in *. set (y := x mod 1024) in *. clearbody q y.
    rewrite <- app_assoc, scan_u_pair; [|lia|lia|apply hi_true; lia|apply lo_true; lia].
    rewrite IHs. cbn [puts_c]. rewrite wire_text_cons by (apply hi_false; lia). do 3 f_equal. lia.
Qed.

(** ** Numbers *)
Lemma dec_head f : forall n acc, n < 2 ^ N.of_nat (S f) -> n <> 0 ->
  exists c r, dec_digits (S f) n acc = c :: r /\ c <> 48.
Proof.
  induction f as [|f IH]; intros n acc Hn H0.
  - assert (Hn' : n < 2) by exact Hn. cbn [dec_digits].
    replace (n / 10 =? 0) with true by (symmetry; apply N.eqb_eq, N.div_small; lia).
    rewrite N.mod_small by lia. eexists _, _. split; [reflexivity|lia].
  - change (dec_digits (S (S f)) n acc) with
      (if (n / 10 =? 0) then (48 + n mod 10) :: acc
       else dec_digits (S f) (n / 10) ((48 + n mod 10) :: acc)).
    pose proof (N.div_mod n 10 ltac:(lia)) as Hd.
    destruct (N.eqb_spec (n / 10) 0) as [E|E].
    + eexists _, _. split; [reflexivity|]. rewrite E in Hd. lia.
    + apply IH; [|exact E]. apply N.div_lt_upper_bound; [lia|].
      rewrite (Nat2N.inj_succ (S f)), N.pow_succ_r' in Hn. lia.
Qed.
Lemma dec_of_N_head n : n <> 0 -> exists c r, dec_of_N n = c :: r /\ c <> 48.
Proof.
  intros H. unfold dec_of_N. apply dec_head; [|exact H].
  rewrite Nat2N.inj_succ, N2Nat.id. apply N.log2_spec. lia.
Qed.
Lemma dec_of_N_range n : Forall (fun c => 48 <= c <= 57) (dec_of_N n).
Proof. apply dec_digits_range. constructor. Qed.
Lemma dec_of_N_cons n : exists c r, dec_of_N n = c :: r.
Proof.
  destruct (N.eq_dec n 0) as [->|H]; [exists 48, []; reflexivity|].
  destruct (dec_of_N_head n H) as (c & r & E & _). eauto.
Qed.

(** What may follow a value. *)
Definition ends_value (rest : text) : Prop :=
  match rest with [] => True | c :: _ => is_digit c = false /\ after_int rest = true end.

Lemma digit_iff c : is_digit c = true <-> 48 <= c <= 57.
Proof. unfold is_digit. rewrite andb_true_iff, !N.leb_le. tauto. Qed.
Lemma scan_digits_all ds rest : Forall (fun c => 48 <= c <= 57) ds -> ends_value rest ->
  forall a, scan_digits (Z.of_N a) (ds ++ rest) = (Z.of_N (dec_val ds a), rest).
Proof.
  intros H Hr. induction H as [|c ds Hc _ IH]; intros a; cbn [app].
  - unfold dec_val. cbn [fold_left]. destruct rest as [|c r]; [reflexivity|]. destruct Hr as [Hr _].
    cbn [scan_digits]. rewrite Hr. reflexivity.
  - cbn [scan_digits]. rewrite (proj2 (digit_iff c) Hc). unfold dec_val in *. cbn [fold_left]. rewrite <- IH. f_equal. lia.
Qed.
Lemma scan_nat_dec n rest : ends_value rest -> scan_nat (dec_of_N n ++ rest) = Some (Z.of_N n, rest).
Proof.
  intros Hr. assert (Ha : after_int rest = true) by (destruct rest; [reflexivity|exact (proj2 Hr)]).
  destruct (N.eq_dec n 0) as [->|H].
  - change (dec_of_N 0) with [48]. cbn [app]. unfold scan_nat. change (negb (is_digit 48)) with false. cbv iota.
    rewrite N.eqb_refl. rewrite Ha. reflexivity.
  - destruct (dec_of_N_head n H) as (c & r & E & Hc). pose proof (dec_of_N_range n) as Hd.
    rewrite E in *. cbn [app]. unfold scan_nat.
    rewrite (proj2 (digit_iff c) (Forall_inv Hd)). cbn [negb]. cbv iota.
    replace (c =? 48) with false by (symmetry; apply N.eqb_neq; exact Hc).
    change (c :: r ++ rest) with ((c :: r) ++ rest). change 0%Z with (Z.of_N 0).
    rewrite scan_digits_all by assumption. rewrite <- E, dec_of_N_val. rewrite Ha. reflexivity.
Qed.
Lemma scan_number_dec z rest : ends_value rest -> scan_number (dec_of_Z z ++ rest) = Some (z, rest).
Proof.
  intros Hr. unfold dec_of_Z. destruct (Z.ltb_spec z 0) as [Hz|Hz].
  - cbn [app]. unfold scan_number. rewrite N.eqb_refl. rewrite scan_nat_dec by exact Hr. do 2 f_equal. lia.
  - pose proof (scan_nat_dec (Z.to_N z) rest Hr) as Hs. pose proof (dec_of_N_range (Z.to_N z)) as Hd.
    destruct (dec_of_N_cons (Z.to_N z)) as (c & r & E). rewrite E in *. cbn [app] in *. unfold scan_number.
    replace (c =? 45) with false by (symmetry; apply N.eqb_neq; apply Forall_inv in Hd; lia).
    rewrite Hs. do 2 f_equal. lia.
Qed.

(** ** Values *)
Section JsonInd.
  Variable P : json -> Prop.
  Hypothesis Hnull : P JNull.
  Hypothesis Hbool : forall b, P (JBool b).
  Hypothesis Hnum : forall z, P (JNum z).
  Hypothesis Hstr : forall s, P (JStr s).
  Hypothesis Harr : forall l, Forall P l -> P (JArr l).
  Hypothesis Hobj : forall fs, Forall (fun kv => P (snd kv)) fs -> P (JObj fs).
  Fixpoint json_ind2 (v : json) : P v :=
    match v with
    | JNull => Hnull
    | JBool b => Hbool b
    | JNum z => Hnum z
    | JStr s => Hstr s
    | JArr l => Harr l ((fix go l := match l return Forall P l with
                                     | [] => @Forall_nil _ _
                                     | x :: l' => @Forall_cons _ _ x _ (json_ind2 x) (go l')
                                     end) l)
    | JObj fs => Hobj fs ((fix go (fs : list (text * json)) := match fs return Forall (fun kv => P (snd kv)) fs with
                                     | [] => @Forall_nil _ _
                                     | x :: l' => @Forall_cons _ _ x _ (json_ind2 (snd x)) (go l')
                                     end) fs)
    end.
End JsonInd.

Lemma vjson_arr l : vjson (JArr l) <-> Forall vjson l.
Proof.
  cbn [vjson]. induction l as [|x l IH]; [split; constructor|]. rewrite Forall_cons_iff, IH. tauto.
Qed.
Lemma vjson_obj fs : vjson (JObj fs) <->
  Forall (fun kv => vtext (fst kv) /\ vjson (snd kv)) fs /\ NoDup (map (fun kv => wire_text (fst kv)) fs).
Proof.
  cbn [vjson].
  match goal with |- ?A /\ _ <-> ?B /\ _ => enough (A <-> B) by tauto end.
  induction fs as [|x l IH]; [split; constructor|]. rewrite Forall_cons_iff, IH. tauto.
Qed.

Lemma skip_blanks w s : blanks w -> skip_space (w ++ s) = skip_space s.
Proof. intros H. unfold skip_space. induction H as [|c w Hc _ IH]; [reflexivity|]. cbn [app lstrip_by]. rewrite Hc. exact IH. Qed.
Lemma skip_none c s : json_space c = false -> skip_space (c :: s) = c :: s.
Proof. intros H. unfold skip_space. cbn [lstrip_by]. rewrite H. reflexivity. Qed.

(** The first character of a value. *)
Definition starts_value (c : N) : Prop := json_space c = false /\ c <> 93 /\ c <> 125.
Lemma quote_head s : exists r, quote s = 34 :: r.
Proof. eexists. reflexivity. Qed.
Lemma dumps_head w1 w2 v : exists c r, dumps w1 w2 v = c :: r /\ starts_value c.
Proof.
  assert (Hs : forall c, existsb (N.eqb c) [110; 116; 102; 34; 91; 123; 45] = true -> starts_value c).
  { intros c H. apply existsb_exists in H. destruct H as (x & Hx & Hc). apply N.eqb_eq in Hc. subst x.
    repeat (destruct Hx as [<-|Hx]; [split; [reflexivity|split; discriminate]|]). destruct Hx. }
  destruct v as [|[]|z|s|l|fs]; try (eexists _, _; split; [reflexivity|]; apply Hs; reflexivity).
  cbn [dumps]. unfold dec_of_Z. destruct (z <? 0)%Z; [eexists _, _; split; [reflexivity|]; apply Hs; reflexivity|].
  destruct (dec_of_N_cons (Z.to_N z)) as (c & r & E). rewrite E. exists c, r. split; [reflexivity|].
  pose proof (dec_of_N_range (Z.to_N z)) as Hd. rewrite E in Hd. apply Forall_inv in Hd.
  split; [|lia]. unfold json_space. rewrite !orb_false_iff, !N.eqb_neq. lia.
Qed.

Lemma starts_app w r : starts w (w ++ r) = Some r.
Proof. induction w as [|c w IH]; [reflexivity|]. cbn [app starts]. rewrite N.eqb_refl. exact IH. Qed.
Lemma starts_ne c w d r : c <> d -> starts (c :: w) (d :: r) = None.
Proof. intros H. cbn [starts]. apply N.eqb_neq in H. rewrite H. reflexivity. Qed.

Lemma dict_set_new k v fs : ~ In k (map fst fs) -> dict_set k v fs = fs ++ [(k, v)].
Proof.
  induction fs as [|[k' v'] fs IH]; intros H; [reflexivity|]. cbn [dict_set map fst] in *.
  destruct (text_eqb k k') eqn:E.
  - exfalso. apply H. left. symmetry. apply text_eqb_eq. exact E.
  - cbn [app]. f_equal. apply IH. intros Hi. apply H. right. exact Hi.
Qed.
Lemma dict_of_nodup fs : NoDup (map fst fs) -> dict_of fs = fs.
Proof.
  unfold dict_of. enough (H : forall acc, NoDup (map fst (acc ++ fs)) ->
    fold_left (fun fs kv => dict_set (fst kv) (snd kv) fs) fs acc = acc ++ fs) by (intros Hn; apply (H []); exact Hn).
  induction fs as [|[k v] fs IH]; intros acc H; [rewrite app_nil_r; reflexivity|]. cbn [fold_left fst snd].
  rewrite dict_set_new.
  - rewrite IH; rewrite <- app_assoc; [reflexivity|exact H].
  - rewrite map_app in H. apply NoDup_remove_2 in H. intros Hi. apply H. apply in_or_app. left. exact Hi.
Qed.

Section RoundTrip.
  Variables w1 w2 : text.
  Hypothesis Hw1 : blanks w1.
  Hypothesis Hw2 : blanks w2.
  Notation dump := (dumps w1 w2).
  Notation field kv := (quote (fst kv) ++ 58 :: w2 ++ dump (snd kv)).

  Definition rt (v : json) : Prop := vjson v -> forall n rest, (length (dump v) <= n)%nat -> ends_value rest ->
    scan n (dump v ++ rest) = Some (wire v, rest).

  Lemma ends_comma r : ends_value (44 :: r). Proof. split; reflexivity. Qed.
  Lemma ends_93 r : ends_value (93 :: r). Proof. split; reflexivity. Qed.
  Lemma ends_125 r : ends_value (125 :: r). Proof. split; reflexivity. Qed.
  Lemma skip_dump v r : skip_space (dump v ++ r) = dump v ++ r.
  Proof.
    destruct (dumps_head w1 w2 v) as (c & t & E & H & _). rewrite E. cbn [app]. apply skip_none, H.
  Qed.

  Lemma rt_elements l : Forall rt l -> Forall vjson l -> l <> [] -> forall n rest,
    (length (joined w1 (map dump l)) < n)%nat ->
    elements n (joined w1 (map dump l) ++ 93 :: rest) = Some (map wire l, rest).
  Proof.
    induction 1 as [|v l Hv _ IH]; intros Hj Hne n rest Hn; [congruence|].
    inversion Hj as [|? ? Hjv Hjl]; subst. destruct n as [|n]; [lia|]. cbn [elements].
    destruct l as [|v' l].
    - cbn [map joined] in *. rewrite (Hv Hjv) by (lia || apply ends_93). rewrite skip_none by reflexivity. reflexivity.
    - cbn [map] in *. change (joined w1 (dump v :: dump v' :: map dump l)) with
        (dump v ++ 44 :: w1 ++ joined w1 (dump v' :: map dump l)) in *.
      set (j := joined w1 (dump v' :: map dump l)) in *.
      repeat (rewrite ?app_length in Hn; cbn [length] in Hn).
      rewrite <- app_assoc. cbn [app]. rewrite (Hv Hjv) by (lia || apply ends_comma).
      rewrite skip_none by reflexivity. change (44 =? 93) with false. rewrite N.eqb_refl. cbv iota.
      rewrite <- app_assoc, skip_blanks by exact Hw1.
      assert (Hsk : skip_space (j ++ 93 :: rest) = j ++ 93 :: rest).
      { subst j. destruct l as [|v2 l]; cbn [map joined]; rewrite <- ?app_assoc; apply skip_dump. }
      rewrite Hsk. rewrite IH by (auto; discriminate || lia). reflexivity.
  Qed.

  Lemma scan_quote k r : vtext k -> scan_string (flat_map escape k ++ 34 :: r) = Some (wire_text k, r).
  Proof. apply scan_quoted. Qed.
  Lemma quote_app k r : quote k ++ r = 34 :: flat_map escape k ++ 34 :: r.
  Proof. unfold quote. cbn [app]. rewrite <- app_assoc. reflexivity. Qed.

  Lemma rt_members fs : Forall (fun kv => rt (snd kv)) fs -> Forall (fun kv => vtext (fst kv) /\ vjson (snd kv)) fs ->
    fs <> [] -> forall n rest, (length (joined w1 (map (fun kv => field kv) fs)) < n)%nat ->
    members n (joined w1 (map (fun kv => field kv) fs) ++ 125 :: rest) =
      Some (map (fun kv => (wire_text (fst kv), wire (snd kv))) fs, rest).
  Proof.
    induction 1 as [|kv fs Hv _ IH]; intros Hj Hne n rest Hn; [congruence|].
    inversion Hj as [|? ? [Hk Hjv] Hjl]; subst. destruct n as [|n]; [lia|].
    assert (Hone : forall r, ends_value r -> (length (dump (snd kv)) <= n)%nat ->
      members (S n) (field kv ++ r) =
      match skip_space r with
      | d :: r2 =>
        if d =? 125 then Some ([(wire_text (fst kv), wire (snd kv))], r2)
        else if d =? 44 then
          match members n (skip_space r2) with
          | Some (l, r3) => Some ((wire_text (fst kv), wire (snd kv)) :: l, r3) | None => None end
        else None
      | [] => None
      end).
    { intros r Hr Hlen. rewrite <- app_assoc, quote_app. cbn [members]. rewrite N.eqb_refl. cbn [negb].
      rewrite scan_quote by exact Hk. cbn [app]. rewrite skip_none by reflexivity. rewrite N.eqb_refl. cbn [negb]. cbv iota.
      rewrite <- app_assoc, skip_blanks by exact Hw2. rewrite skip_dump. rewrite (Hv Hjv) by assumption. reflexivity. }
    destruct fs as [|kv' fs].
    - cbn [map joined] in *. repeat (rewrite ?app_length in Hn; cbn [length] in Hn).
      rewrite Hone by (lia || apply ends_125). rewrite skip_none by reflexivity. reflexivity.
    - cbn [map] in *.
      change (joined w1 (field kv :: field kv' :: map (fun kv => field kv) fs)) with
        (field kv ++ 44 :: w1 ++ joined w1 (field kv' :: map (fun kv => field kv) fs)) in *.
      set (j := joined w1 (field kv' :: map (fun kv => field kv) fs)) in *.
      repeat (rewrite ?app_length in Hn; cbn [length] in Hn).
      rewrite <- (app_assoc (field kv)). cbn [app]. rewrite Hone by (lia || apply ends_comma).
      rewrite skip_none by reflexivity. change (44 =? 125) with false. rewrite N.eqb_refl. cbv iota.
      rewrite <- app_assoc, skip_blanks by exact Hw1.
      assert (Hsk : skip_space (j ++ 125 :: rest) = j ++ 125 :: rest).
      { subst j. destruct fs as [|kv2 fs]; cbn [map joined]; rewrite <- ?app_assoc, quote_app; apply skip_none; reflexivity. }
      rewrite Hsk. rewrite IH by (auto; discriminate || lia). reflexivity.
  Qed.

  Lemma joined_head {X} (f : X -> text) x l r : exists t, joined w1 (map f (x :: l)) ++ r = f x ++ t.
  Proof.
    destruct l as [|y l]; cbn [map joined]; [exists r; reflexivity|]. rewrite <- app_assoc. eexists. reflexivity.
  Qed.

  Theorem round_trip v : rt v.
  Proof.
    induction v as [|b|z|s|l IH|fs IH] using json_ind2; intros Hv n rest Hn Hr.
    - destruct n; [cbn in Hn; lia|]. reflexivity.
    - destruct n; [destruct b; cbn in Hn; lia|]. destruct b; reflexivity.
    - cbn [dumps wire] in *. pose proof (scan_number_dec z rest Hr) as Hs.
      destruct (dumps_head w1 w2 (JNum z)) as (c & t & E & _). cbn [dumps] in E.
      assert (Hc : 48 <= c <= 57 \/ c = 45).
      { unfold dec_of_Z in E. destruct (z <? 0)%Z; [injection E as <- _; right; reflexivity|].
        pose proof (dec_of_N_range (Z.to_N z)) as Hd. rewrite E in Hd. left. exact (Forall_inv Hd). }
      rewrite E in *. destruct n; [cbn in Hn; lia|]. cbn [app] in *. cbn [scan].
      replace (c =? 34) with false by (symmetry; apply N.eqb_neq; lia).
      replace (c =? 123) with false by (symmetry; apply N.eqb_neq; lia).
      replace (c =? 91) with false by (symmetry; apply N.eqb_neq; lia).
      change (txt "null") with [110; 117; 108; 108]. change (txt "true") with [116; 114; 117; 101].
      change (txt "false") with [102; 97; 108; 115; 101].
      rewrite !starts_ne by lia. rewrite Hs. reflexivity.
    - destruct n; [cbn in Hn; lia|]. cbn [dumps wire]. rewrite quote_app. cbn [scan]. rewrite N.eqb_refl.
      rewrite scan_quote by exact Hv. reflexivity.
    - apply vjson_arr in Hv. destruct n; [cbn in Hn; lia|]. cbn [dumps wire length] in *. rewrite app_length in Hn. cbn [length] in Hn.
      cbn [app]. rewrite <- app_assoc. cbn [app]. cbn [scan]. change (91 =? 34) with false. change (91 =? 123) with false.
      change (91 =? 91) with true. cbv iota. destruct l as [|x l]; [reflexivity|].
      pose proof (rt_elements (x :: l) IH Hv ltac:(discriminate) n rest ltac:(lia)) as He.
      destruct (joined_head (dump) x l (93 :: rest)) as (t & Ht). rewrite Ht in *. rewrite skip_dump.
      destruct (dumps_head w1 w2 x) as (c & t' & E & _ & Hc & _). rewrite E in *. cbn [app] in *.
      replace (c =? 93) with false by (symmetry; apply N.eqb_neq; exact Hc). rewrite He. reflexivity.
    - apply vjson_obj in Hv. destruct Hv as [Hv Hnd]. destruct n; [cbn in Hn; lia|]. cbn [dumps wire length] in *.
      rewrite app_length in Hn. cbn [length] in Hn.
      cbn [app]. rewrite <- app_assoc. cbn [app]. cbn [scan]. change (123 =? 34) with false. change (123 =? 123) with true.
      cbv iota. destruct fs as [|x fs]; [reflexivity|].
      pose proof (rt_members (x :: fs) IH Hv ltac:(discriminate) n rest ltac:(lia)) as He.
      destruct (joined_head (fun kv => field kv) x fs (125 :: rest)) as (t & Ht). cbv beta in Ht.
      match goal with |- context [skip_space ?j] => replace j with (field x ++ t) by (symmetry; exact Ht) end.
      match type of He with members _ ?j = _ => replace j with (field x ++ t) in He by (symmetry; exact Ht) end.
      rewrite <- app_assoc, quote_app in He |- *. rewrite skip_none by reflexivity. change (34 =? 125) with false. cbv iota.
      rewrite He. rewrite dict_of_nodup; [reflexivity|]. rewrite map_map. exact Hnd.
  Qed.

  Theorem loads_dumps v w3 w4 : blanks w3 -> blanks w4 -> vjson v -> loads (w3 ++ dump v ++ w4) = Some (wire v).
  Proof.
    intros H3 H4 Hv. unfold loads. rewrite skip_blanks by exact H3. rewrite skip_dump.
    rewrite (round_trip v Hv); [|rewrite !app_length; lia|].
    - rewrite <- (app_nil_r w4), skip_blanks by exact H4. reflexivity.
    - destruct H4 as [|c w4 Hc _]; [exact I|]. unfold json_space in Hc.
      apply orb_prop in Hc. destruct Hc as [Hc|Hc]; [|apply N.eqb_eq in Hc; subst; split; reflexivity].
      apply orb_prop in Hc. destruct Hc as [Hc|Hc]; [|apply N.eqb_eq in Hc; subst; split; reflexivity].
      apply orb_prop in Hc. destruct Hc as [Hc|Hc]; apply N.eqb_eq in Hc; subst; split; reflexivity.
  Qed.
End RoundTrip.

(** ** When the trip changes nothing *)
Lemma no_pair_tl c s : no_pair (c :: s) -> no_pair s.
Proof. intros H a x y b E. apply (H (c :: a) x y b). rewrite E. reflexivity. Qed.
Lemma join_pair_big c d : is_hi c && is_lo d = true -> 65536 <= join_pair c d.
Proof. intros H. unfold join_pair. lia. Qed.
Lemma wire_text_length s : (length (wire_text s) <= length s)%nat.
Proof.
  remember (length s) as n eqn:Hn. assert (Hl : (length s <= n)%nat) by lia. rewrite Hn. clear Hn. revert s Hl.
  induction n as [|n IH]; intros [|c [|d s]] Hl; cbn [length] in Hl; try lia; try (cbn; lia).
  change (wire_text (c :: d :: s)) with (if is_hi c && is_lo d then join_pair c d :: wire_text s else c :: wire_text (d :: s)).
  destruct (is_hi c && is_lo d).
  - cbn [length]. specialize (IH s ltac:(lia)). lia.
  - cbn [length]. specialize (IH (d :: s) ltac:(cbn [length]; lia)). change (length (d :: s)) with (S (length s)) in IH. lia.
Qed.
Lemma wire_text_id s : wire_text s = s <-> no_pair s.
Proof.
  induction s as [|c s IH].
  - split; [intros _ a c d b E; destruct a; discriminate|reflexivity].
  - destruct s as [|d s]; [split; [intros _ a x y b E; destruct a as [|? [|]]; discriminate|reflexivity]|].
    change (wire_text (c :: d :: s)) with (if is_hi c && is_lo d then join_pair c d :: wire_text s else c :: wire_text (d :: s)).
    destruct (is_hi c && is_lo d) eqn:E.
    + split.
      * intros H. apply (f_equal (@length N)) in H. cbn [length] in H. pose proof (wire_text_length s). lia.
      * intros H. specialize (H [] c d s eq_refl). congruence.
    + split.
      * intros H. injection H as H. apply IH in H. intros [|x a] y z b Eq; cbn [app] in Eq.
        -- injection Eq as <- <- _. exact E.
        -- injection Eq as _ Eq. apply (H a y z b Eq).
      * intros H. f_equal. apply IH. apply no_pair_tl in H. exact H.
Qed.
Lemma plain_no_pair s : plain s -> no_pair s.
Proof.
  intros H a c d b ->. apply Forall_app in H. destruct H as [_ H]. apply Forall_inv in H.
  destruct (is_hi c) eqn:E; [|reflexivity]. apply hi_true in E. lia.
Qed.
Lemma wire_plain s : plain s -> wire_text s = s.
Proof. intros H. apply wire_text_id, plain_no_pair, H. Qed.
Lemma plain_app a b : plain (a ++ b) <-> plain a /\ plain b.
Proof. apply Forall_app. Qed.

Lemma wire_clean v : jclean v -> wire v = v.
Proof.
  induction v as [|b|z|s|l IH|fs IH] using json_ind2; intros H; try reflexivity; cbn [wire].
  - f_equal. apply wire_text_id, H.
  - f_equal. cbn [jclean] in H. induction IH as [|x l Hx _ IHl]; [reflexivity|]. destruct H as [H1 H2].
    cbn [map]. f_equal; [apply Hx, H1|apply IHl, H2].
  - f_equal. cbn [jclean] in H. induction IH as [|[k x] l Hx _ IHl]; [reflexivity|]. destruct H as (H1 & H2 & H3).
    cbn [map fst snd] in *. f_equal; [f_equal; [apply wire_text_id, H1|apply Hx, H2]|apply IHl, H3].
Qed.
