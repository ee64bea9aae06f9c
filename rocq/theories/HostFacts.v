(** * HostFacts: how the methods of the host service act on a server state *)
From stdpp Require Import gmap.
From Coq Require Import String.
From Coq Require Import List NArith ZArith Bool Arith Lia.
From Verif Require Import PyStr Prog ProgFacts PyIO Base Spec SpecFacts LineBuf LineBufFacts LineBufSpec LineBufProofs
  LineBufConcProofs Locks Atomic Serial Json Host.
Import ListNotations.
Local Open Scope prog_scope.
Local Open Scope nat_scope.

Lemma hexec_nb : forall X (c : hcmd X) (d : hdata), fst (cexec c d) <> Block.
Proof.
  intros X c d. destruct c as [X c|name|name v|]; simpl; try discriminate.
  pose proof (bexec_nb X c (h_buf d)) as H. simpl in H. destruct (bexec c (h_buf d)) as [[]]; simpl in *; congruence.
Qed.

(** ** Lifted programs *)
Lemma srun_hlift {A} (p : prog bcmd A) d :
  srun (hlift p) d = (fst (srun p (h_buf d)), mkhdata (snd (srun p (h_buf d))) (h_state d)).
Proof.
  revert d. induction p as [a|e|X c k IHk h IHh]; intros d; simpl.
  - destruct d; reflexivity.
  - destruct d; reflexivity.
  - destruct c as [l m|l|X c]; simpl; auto.
    destruct (bexec c (h_buf d)) as [[x|e|] b]; simpl; [rewrite IHk|rewrite IHh|]; reflexivity.
Qed.

Lemma wlk_hlift {A} b hs (p : prog bcmd A) : wlk b hs p -> wlk b hs (hlift p).
Proof. induction 1; simpl; constructor; auto. Qed.

(** ** Lock order of the buffer methods inside other locks *)
Section Order.
  Variable b : list nat.
  Hypothesis Hb : Forall (fun x => LL < x) b.
  Lemma wlk_withLL_in {A} (p : prog bcmd A) : nolock p -> wlk b b (with_lock LL Ex p).
  Proof.
    intros H. apply wlk_with; [|apply wlk_nolock, H]. split; [discriminate|]. left. exact Hb.
  Qed.
  Lemma wlk_clear : wlk b b lb_clear.
  Proof. apply wlk_bind; [apply wlk_withLL_in; nolock_tac|]. intros _. apply wlk_nolock; nolock_tac. Qed.
  Lemma wlk_write data : wlk b b (lb_write data).
  Proof.
    apply wlk_bind; [apply wlk_withLL_in; nolock_tac|]. intros [|]; simpl; [|constructor].
    apply wlk_withLL_in, nolock_write_body, nolock_parse.
  Qed.
  Lemma wlk_new_line : wlk b b lb_new_line.
  Proof. apply wlk_withLL_in, nolock_new_line_body, nolock_parse. Qed.
  Lemma wlk_read size : wlk b b (lb_read size).
  Proof.
    apply wlk_bind; [apply wlk_withLL_in; nolock_tac|]. intros [|]; simpl; [|constructor].
    apply wlk_withLL_in. destruct size as [z|]; [|apply nolock_read_all].
    destruct (0 <? z)%Z; [apply nolock_read_n|constructor].
  Qed.
  Lemma wlk_len : wlk b b lb_len.
  Proof.
    apply wlk_bind; [apply wlk_nolock; nolock_tac|]. intros n.
    apply wlk_bind; [apply wlk_nolock; nolock_tac|]. intros n'.
    apply wlk_bind; [apply wlk_withLL_in; nolock_tac|]. intros x. constructor.
  Qed.
End Order.

Lemma wlk_ret_in {A} b (a : A) : wlk b b (Ret a : prog hcmd A).
Proof. constructor. Qed.
Lemma wlk_raise_in {A} b e : wlk b b (Raise e : prog hcmd A).
Proof. constructor. Qed.
Lemma wlk_of_out {A} b (o : outcome A) : wlk b b (of_out o).
Proof. destruct o; constructor. Qed.
Lemma wlk_hop {X} b (c : hcmd X) : wlk b b (hop c).
Proof. apply wlk_nolock, nolock_op. Qed.

Lemma wlk_CL {A} (p : prog hcmd A) : wlk [CL] [CL] p -> wlk [] [] (with_lock CL Ex p).
Proof. intros H. apply wlk_with; [|exact H]. split; [discriminate|]. left. constructor. Qed.
Lemma wlk_SL {A} b (p : prog hcmd A) : Forall (fun x => SL < x) b -> wlk (SL :: b) (SL :: b) p -> wlk b b (with_lock SL Ex p).
Proof. intros Hb H. apply wlk_with; [|exact H]. split; [discriminate|]. left. exact Hb. Qed.
Lemma CL_LL : Forall (fun x => LL < x) [CL].
Proof. repeat constructor. Qed.
Lemma CL_SL : Forall (fun x => SL < x) [CL].
Proof. repeat constructor. Qed.

Lemma wlk_handle E r : wlk [] [] (handle E r).
Proof.
  destruct r as [b|n| |name|b|]; cbn [handle].
  - destruct b as [| |v]; [constructor..|]. destruct v as [|bb|z|s|l|args]; try solve [constructor].
    unfold h_post. cbv beta iota zeta. apply wlk_CL. apply wlk_bind; [|intros; constructor].
    destruct (text_eqb _ s_str); [|destruct (text_eqb _ s_error || text_eqb _ s_warning); [|destruct (text_eqb _ s_close)]].
    + destruct (jget k_data args) as [[| | | | |data]|]; try solve [constructor].
      destruct (jget k_value data) as [[]|]; try solve [constructor];
        (apply wlk_bind; [apply wlk_hlift, wlk_write, CL_LL|intros; constructor]).
    + destruct (jget k_data args) as [[| | | | |data]|]; try solve [constructor].
      apply wlk_bind; [apply wlk_hlift, wlk_new_line, CL_LL|]. intros _.
      apply wlk_bind; [apply wlk_of_out|]. intros i. apply wlk_hop.
    + apply wlk_hlift, wlk_new_line, CL_LL.
    + constructor.
  - unfold h_get.
    assert (H : forall size, wlk [] [] (data <- with_lock CL Ex (h_read_serialized size) ;;
        Ret (200, JObj [(k_message, JStr s_success); (k_data, JArr data)]))).
    { intros size. apply wlk_bind; [|intros; constructor]. apply wlk_CL.
      apply wlk_bind; [apply wlk_hlift, wlk_read, CL_LL|intros; apply wlk_of_out]. }
    destruct n as [s|]; [destruct (py_int s)|]; try apply H. constructor.
  - unfold h_delete. apply wlk_bind; [|intros; constructor]. apply wlk_CL, wlk_hlift, wlk_clear, CL_LL.
  - unfold s_get. destruct (strip _) as [|c l]; [constructor|]. apply wlk_bind; [|intros; constructor]. apply wlk_CL.
    destruct (text_eqb _ _).
    + apply wlk_bind; [apply wlk_hlift, wlk_len, CL_LL|intros; constructor].
    + apply wlk_SL; [apply CL_SL|apply wlk_hop].
  - destruct b as [| |v]; [constructor..|]. destruct v as [|bb|z|s|l|args]; try solve [constructor].
    unfold s_post. cbv beta iota zeta. destruct (strip _) as [|c l]; [constructor|].
    apply wlk_bind; [|intros; constructor]. apply wlk_CL, wlk_SL; [apply CL_SL|].
    destruct (text_eqb _ _); [apply wlk_hop|constructor].
  - unfold s_delete, h_reset_states. apply wlk_bind; [|intros; constructor].
    apply wlk_SL; [constructor|]. apply wlk_bind; [apply wlk_hop|intros; apply wlk_hop].
Qed.

Lemma wlk_h_call E c : wlk [] [] (h_call E c).
Proof.
  destruct c as [r|c|size| |]; cbn [h_call].
  - apply wlk_bind; [apply wlk_handle|intros; constructor].
  - assert (H : wlk [] [] (x <- hlift (lb_call c) ;; Ret (HRes x))).
    { apply wlk_bind; [apply wlk_hlift, wlk_call|intros; constructor]. }
    destruct c; try exact H. constructor.
  - apply wlk_bind; [|intros; constructor].
    apply wlk_bind; [apply wlk_hlift, wlk_read; constructor|intros; apply wlk_of_out].
  - apply wlk_bind; [|intros; constructor]. apply wlk_SL; [constructor|apply wlk_hop].
  - apply wlk_bind; [|intros; constructor]. apply wlk_SL; [constructor|].
    apply wlk_bind; [apply wlk_hop|intros; apply wlk_hop].
Qed.

Lemma run_handle t E r d :
  run t (handle E r) (mkst d ∅) = (fst (srun (handle E r) d), mkst (snd (srun (handle E r) d)) ∅).
Proof. apply wlk_srun; [apply hexec_nb|apply wlk_handle]. Qed.
Lemma run_h_call t E c d :
  run t (h_call E c) (mkst d ∅) = (fst (srun (h_call E c) d), mkst (snd (srun (h_call E c) d)) ∅).
Proof. apply wlk_srun; [apply hexec_nb|apply wlk_h_call]. Qed.

(** ** The buffer methods as functions of the abstract buffer *)
Definition hsd (m : nat) (a : abuf) (sd : list (text * json)) : hdata :=
  mkhdata (bd m (aq a) (av a) (acl a)) sd.

Lemma srun_of_run {A} (p : prog bcmd A) d r d' :
  wlk [] [] p -> run 0 p (mkst d ∅) = (r, mkst d' ∅) -> srun p d = (r, d').
Proof.
  intros H Hr. rewrite (@wlk_srun bcmd lbuf bsem bexec_nb A 0 p d H) in Hr. destruct (srun p d). simpl in Hr. congruence.
Qed.

Section Methods.
  Variables (m : nat) (a : abuf) (sd : list (text * json)).
  Hypothesis Ha : aok m a.
  Let Hm : 1 <= m := proj1 Ha.
  Let Hq : length (aq a) <= m := proj1 (proj2 Ha).

  Lemma sr_write data : srun (hlift (lb_write data)) (hsd m a sd) =
    (if acl a then Fail OSError else Good (wres data), hsd m (snd (astep m (Write data) a)) sd).
  Proof.
    rewrite srun_hlift. unfold hsd. cbn [h_buf h_state].
    destruct a as [q v cl] eqn:Ea; cbn [aq av acl astep] in *. destruct cl.
    - erewrite (srun_of_run (lb_write data)); [|apply wlk_write; constructor|apply run_write_closed; apply lookup_empty]. reflexivity.
    - erewrite (srun_of_run (lb_write data)); [|apply wlk_write; constructor|apply run_write_open; [assumption|apply lookup_empty|assumption]]. reflexivity.
  Qed.
  Lemma sr_new_line : srun (hlift lb_new_line) (hsd m a sd) =
    (if acl a then Fail ValueError else Good tt, hsd m (snd (astep m NewLine a)) sd).
  Proof.
    rewrite srun_hlift. unfold hsd. cbn [h_buf h_state].
    destruct a as [q v cl] eqn:Ea; cbn [aq av acl astep] in *. destruct cl.
    - erewrite (srun_of_run lb_new_line); [|apply wlk_new_line; constructor|apply run_new_line_closed; apply lookup_empty]. reflexivity.
    - pose proof (run_new_line_open m 0 ∅ Hm (lookup_empty _) q v Hq) as H.
      destruct v; (erewrite (srun_of_run lb_new_line); [|apply wlk_new_line; constructor|exact H]); reflexivity.
  Qed.
  Lemma sr_clear : srun (hlift lb_clear) (hsd m a sd) =
    (if acl a then Fail ValueError else Good tt, hsd m (snd (astep m Clear a)) sd).
  Proof.
    rewrite srun_hlift. unfold hsd. cbn [h_buf h_state].
    destruct a as [q v cl] eqn:Ea; cbn [aq av acl astep] in *. destruct cl.
    - erewrite (srun_of_run lb_clear); [|apply wlk_clear; constructor|apply run_clear_closed; apply lookup_empty]. reflexivity.
    - erewrite (srun_of_run lb_clear); [|apply wlk_clear; constructor|apply run_clear_open; apply lookup_empty]. reflexivity.
  Qed.
  Lemma sr_len : srun (hlift lb_len) (hsd m a sd) = (Good (Nat.min m (length (aq a) + 1)), hsd m a sd).
  Proof.
    rewrite srun_hlift. unfold hsd. cbn [h_buf h_state].
    erewrite (srun_of_run lb_len); [|apply wlk_len; constructor|apply run_len; [assumption|apply lookup_empty]]. reflexivity.
  Qed.
  Lemma sr_read size : srun (hlift (lb_read size)) (hsd m a sd) =
    (if acl a then Fail OSError else Good (aread m size a), hsd m a sd).
  Proof.
    rewrite srun_hlift. unfold hsd. cbn [h_buf h_state].
    destruct a as [q v cl] eqn:Ea; cbn [aq av acl] in *. destruct cl.
    - erewrite (srun_of_run (lb_read size)); [|apply wlk_read; constructor|apply run_read_closed; apply lookup_empty]. reflexivity.
    - erewrite (srun_of_run (lb_read size)); [|apply wlk_read; constructor|apply run_read_open; [assumption|apply lookup_empty|assumption]]. reflexivity.
  Qed.
  Lemma sr_call c : srun (hlift (lb_call c)) (hsd m a sd) = (fst (astep m c a), hsd m (snd (astep m c a)) sd).
  Proof.
    rewrite srun_hlift. unfold hsd. cbn [h_buf h_state].
    erewrite (srun_of_run (lb_call c)); [|apply wlk_call|apply (lb_call_run m 0 ∅ c a (lookup_empty _) Ha)]. reflexivity.
  Qed.
  Definition aappend (i : item) : abuf := mkabuf (last_items m (aq a ++ [i])) (av a) (acl a).
  Lemma sr_append i : srun (hop (HB (DAppend i))) (hsd m a sd) = (Good tt, hsd m (aappend i) sd).
  Proof.
    rewrite srun_op. cbn [cexec hsem hexec bexec]. unfold on_dq, hsd. cbn [h_buf h_state storage bd].
    rewrite dq_append_spec by lia. reflexivity.
  Qed.
End Methods.
Lemma aappend_ok m a i : aok m a -> acl a = false -> aok m (aappend m a i).
Proof.
  intros (Hm & Hq & _) Hc. unfold aok, aappend. cbn [aq av acl]. rewrite Hc. split; [exact Hm|]. split; [|discriminate].
  rewrite last_items_length. lia.
Qed.
Lemma astep_open m c a : acl a = false -> c <> Close -> acl (snd (astep m c a)) = false.
Proof.
  intros H Hc. destruct a as [q v cl]. cbn [acl] in H. subst cl.
  destruct c; cbn [astep snd acl]; try reflexivity; try congruence. destruct v; reflexivity.
Qed.

(** ** Every call keeps the server state well formed *)
Definition good_srv (m : nat) (d : hdata) : Prop := exists a sd, d = hsd m a sd /\ aok m a.

Ltac sr := repeat first [ rewrite srun_bind | rewrite srun_with ].
Ltac gs := eexists; eexists; split; [reflexivity|].

Lemma good_handle E m r d : good_srv m d -> good_srv m (snd (srun (handle E r) d)).
Proof.
  intros (a & sd & -> & Ha).
  assert (Hs : good_srv m (hsd m a sd)) by (gs; exact Ha).
  destruct r as [b|n| |name|b|]; cbn [handle].
  - destruct b as [| |v]; [exact Hs..|]. destruct v as [|bb|z|s|l|args]; try exact Hs.
    unfold h_post. cbv beta iota zeta. sr.
    destruct (text_eqb _ s_str); [|destruct (text_eqb _ s_error || text_eqb _ s_warning); [|destruct (text_eqb _ s_close)]].
    + destruct (jget k_data args) as [[| | | | |data]|]; try exact Hs.
      destruct (jget k_value data) as [[]|]; try exact Hs;
        rewrite srun_bind, sr_write by exact Ha; destruct (acl a); cbn [snd srun]; gs; apply astep_ok, Ha.
    + destruct (jget k_data args) as [[| | | | |data]|]; try exact Hs.
      rewrite srun_bind, sr_new_line by exact Ha. destruct (acl a) eqn:Hc.
      * cbn [snd]. gs. apply astep_ok, Ha.
      * rewrite srun_bind.
        assert (Ha1 : aok m (snd (astep m NewLine a))) by apply astep_ok, Ha.
        destruct (deserialize (JObj data)) as [i|e|]; cbn [of_out srun snd]; [|gs; exact Ha1..].
        rewrite sr_append by exact Ha1. cbn [srun snd]. gs. apply aappend_ok; [exact Ha1|].
        apply astep_open; [exact Hc|discriminate].
    + rewrite sr_new_line by exact Ha. destruct (acl a); cbn [snd srun]; gs; apply astep_ok, Ha.
    + exact Hs.
  - unfold h_get.
    assert (H : forall size, good_srv m (snd (srun (data <- with_lock CL Ex (h_read_serialized size) ;;
        Ret (200, JObj [(k_message, JStr s_success); (k_data, JArr data)])) (hsd m a sd)))).
    { intros size. unfold h_read_serialized. sr. rewrite sr_read by exact Ha. destruct (acl a); [exact Hs|].
      destruct (serialize_items _) as [x|e|]; exact Hs. }
    destruct n as [s|]; [destruct (py_int s)|]; try apply H. exact Hs.
  - unfold h_delete. sr. rewrite sr_clear by exact Ha. destruct (acl a); cbn [snd srun]; gs; apply astep_ok, Ha.
  - unfold s_get. destruct (strip _) as [|c l]; [exact Hs|]. sr. destruct (text_eqb _ _).
    + sr. rewrite sr_len by exact Ha. exact Hs.
    + sr. rewrite srun_op. exact Hs.
  - destruct b as [| |v]; [exact Hs..|]. destruct v as [|bb|z|s|l|args]; try exact Hs.
    unfold s_post. cbv beta iota zeta. destruct (strip _) as [|c l]; [exact Hs|]. sr.
    destruct (text_eqb _ _); [rewrite srun_op; cbn [snd srun cexec hsem hexec]; gs; exact Ha|exact Hs].
  - unfold s_delete, h_reset_states. sr. rewrite srun_op. cbn [cexec hsem hexec]. rewrite srun_op. cbn [cexec hsem hexec snd srun].
    gs. exact Ha.
Qed.

Lemma good_call E m c d : good_srv m d -> good_srv m (snd (srun (h_call E c) d)).
Proof.
  intros Hd. pose proof Hd as (a & sd & -> & Ha).
  destruct c as [r|c|size| |]; cbn [h_call]; sr.
  - pose proof (good_handle E m r _ Hd) as H. destruct (srun (handle E r) (hsd m a sd)) as [[]]; exact H.
  - assert (H : good_srv m (snd (srun (x <- hlift (lb_call c) ;; Ret (HRes x)) (hsd m a sd)))).
    { rewrite srun_bind, sr_call by exact Ha.
      destruct (fst (astep m c a)); cbn [snd srun]; gs; apply astep_ok, Ha. }
    destruct c; try exact H. exact Hd.
  - unfold h_read_serialized. sr. rewrite sr_read by exact Ha. destruct (acl a); [exact Hd|].
    destruct (serialize_items _); exact Hd.
  - unfold h_stop_all. sr. rewrite srun_op. cbn [snd srun cexec hsem hexec]. gs. exact Ha.
  - unfold h_reset_states. sr. rewrite srun_op. cbn [cexec hsem hexec]. rewrite srun_op. cbn [cexec hsem hexec snd srun]. gs. exact Ha.
Qed.

Lemma good_fresh m : 1 <= m -> good_srv m (dat (hfresh m)).
Proof. intros H. exists a0. eexists. split; [reflexivity|apply a0_ok, H]. Qed.

Lemma good_hist E m h : forall s, lks s = ∅ -> good_srv m (dat s) ->
  lks (snd (h_hist E h s)) = ∅ /\ good_srv m (dat (snd (h_hist E h s))).
Proof.
  induction h as [|[t c] h IH]; intros [d k] Hk Hd; [auto|]. simpl in Hk. subst k. cbn [h_hist].
  rewrite run_h_call.
  specialize (IH (mkst (snd (srun (h_call E c) d)) ∅) eq_refl (good_call E m c d Hd)).
  destruct (h_hist E h _) as [rs s2]. exact IH.
Qed.
