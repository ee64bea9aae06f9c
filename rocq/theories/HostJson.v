(** * HostJson: what the service of LineHostBuffer answers can be written as JSON (C64)

    Every command of the views keeps the data of the server made of values that exist in
    Python ([vjson]) if its arguments are; so do all threads that run views and methods. *)
From stdpp Require Import gmap.
From Coq Require Import String.
From Coq Require Import List NArith ZArith Bool Arith Lia.
From Verif Require Import PyStr Prog ProgFacts PyIO Base Spec SpecFacts LineBuf Json JsonText HostCli JsonSpec JsonFacts JsonProofs Host Okp.
From Verif Require HostConc.
Import ListNotations.
Local Open Scope prog_scope.
Local Open Scope nat_scope.

(** ** The data of the server *)
Definition vitem (i : item) : Prop :=
  match i with IStr s => vtext s | IMsg m => vjson (gm_type m) /\ Forall vjson (gm_data m) | IRaw v => vjson v end.
Definition vdata (d : hdata) : Prop :=
  Forall vitem (dq (storage (h_buf d))) /\ vtext (sval (last_line (h_buf d))) /\ Forall (fun kv => vjson (snd kv)) (h_state d).
Definition barg (X : Type) (c : bcmd X) : Prop :=
  match c with FWrite s => vtext s | DAppend i | DAppendleft i => vitem i | DExtend l => Forall vitem l | _ => True end.
Definition bres (X : Type) (c : bcmd X) : X -> Prop :=
  match c in bcmd X return X -> Prop with
  | FGetvalue => vtext | DItems => Forall vitem | DPopleft => vitem | _ => fun _ => True
  end.
Definition harg (X : Type) (c : hcmd X) : Prop :=
  match c with HB c => barg _ c | HStSet _ v => vjson v | _ => True end.
Definition hres' (X : Type) (c : hcmd X) : X -> Prop :=
  match c in hcmd X return X -> Prop with HB c => bres _ c | HStGet _ => vjson | _ => fun _ => True end.

Lemma vtext_app a b : vtext a -> vtext b -> vtext (a ++ b).
Proof. intros. apply List.Forall_app; auto. Qed.
Section Lists.
  Context {A : Type} (P : A -> Prop).
  Lemma all_trim_left n l : Forall P l -> Forall P (trim_left n l).
  Proof. intros H. unfold trim_left. destruct (n <? length l); [|exact H]. destruct H; [constructor|assumption]. Qed.
  Lemma all_removelast l : Forall P l -> Forall P (removelast l).
  Proof. induction 1 as [|x l Hx Hl IH]; [constructor|]. cbn [removelast]. destruct l; [constructor|constructor; auto]. Qed.
  Lemma all_trim_right n l : Forall P l -> Forall P (trim_right n l).
  Proof. intros H. unfold trim_right. destruct (n <? length l); [apply all_removelast, H|exact H]. Qed.
  Lemma all_extend l : forall q, Forall P l -> Forall P (dq q) -> Forall P (dq (dq_extend l q)).
  Proof.
    unfold dq_extend. induction l as [|x l IH]; intros q Hl Hq; cbn [fold_left]; [exact Hq|]. inversion Hl; subst. apply IH; [assumption|].
    cbn [dq dq_append]. apply all_trim_left, List.Forall_app. auto.
  Qed.
  Lemma all_rotate n (q : deque A) : Forall P (dq q) -> Forall P (dq (dq_rotate n q)).
  Proof.
    intros H. unfold dq_rotate. destruct (dq q) eqn:E; [rewrite E; constructor|]. rewrite <- E in *. cbn [dq].
    apply List.Forall_app. split; [apply Forall_drop, H|apply Forall_take, H].
  Qed.
  Lemma all_last l d : Forall P l -> P d -> P (last l d).
  Proof. intros H Hd. induction H as [|x l Hx Hl IH]; [exact Hd|]. cbn [last]. destruct l; assumption. Qed.
  Lemma all_hd l d : Forall P l -> P d -> P (hd d l).
  Proof. intros H Hd. destruct H; assumption. Qed.
  Lemma all_tl l : Forall P l -> Forall P (tl l).
  Proof. intros H. destruct H; [constructor|assumption]. Qed.
End Lists.

Lemma sio_write_val s f : vtext s -> vtext (sval f) -> vtext (sval (snd (sio_write s f))).
Proof.
  intros Hs Hf. unfold sio_write, sio_guard. destruct (sclosed f); [exact Hf|]. cbn [snd]. destruct s as [|c s]; [exact Hf|]. cbn [sval].
  apply vtext_app; [|apply vtext_app; [exact Hs|apply Forall_drop, Hf]]. apply Forall_take, vtext_app; [exact Hf|].
  apply List.Forall_forall. intros x Hx. apply repeat_spec in Hx. subst. reflexivity.
Qed.
Lemma bcmd_ok X (c : bcmd X) b r b' : barg X c -> Forall vitem (dq (storage b)) -> vtext (sval (last_line b)) -> bexec c b = (r, b') ->
  Forall vitem (dq (storage b')) /\ vtext (sval (last_line b')) /\ forall x, r = Good x -> bres X c x.
Proof.
  intros Ha H1 H2 E. destruct b as [q f]. cbn [storage last_line] in *.
  destruct c; cbn [bexec on_file on_dq barg bres storage last_line sio_closed sio_close sio_flush sio_truth sval] in *;
    try (injection E as <- <-; cbn [storage last_line dq dq_clear dq_append dq_appendleft]; repeat split; try assumption; try constructor; intros x [= <-]; (exact I || assumption)); unfold on_file, on_dq in E; cbn [storage last_line] in E.
  - unfold sio_tell, sio_guard in E. destruct (sclosed f); injection E as <- <-; auto.
  - unfold sio_getvalue, sio_guard in E. destruct (sclosed f); injection E as <- <-; cbn; repeat split; auto; intros x [= <-]; exact H2.
  - pose proof (sio_write_val s f Ha H2) as H3. destruct (sio_write s f) as [r1 f1]. injection E as <- <-. auto.
  - unfold sio_seek0, sio_guard in E. destruct (sclosed f); injection E as <- <-; auto.
  - unfold sio_truncate0, sio_guard in E. destruct (sclosed f); injection E as <- <-; cbn; repeat split; auto. constructor.
  - unfold dq_popleft in E. destruct (dq q) as [|x l] eqn:Eq; injection E as <- <-; cbn [storage last_line dq].
    + rewrite Eq. repeat split; auto. discriminate.
    + inversion H1; subst. repeat split; auto. intros y [= <-]. assumption.
  - injection E as <- <-. cbn. repeat split; auto. apply all_trim_left, List.Forall_app. auto.
  - injection E as <- <-. cbn [storage last_line]. repeat split; auto. cbn [dq dq_appendleft]. apply all_trim_right. constructor; auto.
  - injection E as <- <-. cbn [storage last_line]. repeat split; auto. apply all_extend; auto.
  - injection E as <- <-. cbn [storage last_line]. repeat split; auto. apply all_rotate; auto.
Qed.
Lemma jput_ok (P : json -> Prop) key (v : json) fs : P v -> Forall (fun kv : text * json => P (snd kv)) fs -> Forall (fun kv => P (snd kv)) (jput key v fs).
Proof.
  intros Hv H. induction H as [|[k w] fs Hw Hfs IH]; cbn [jput]; [constructor; auto|].
  destruct (text_eqb k key); constructor; auto.
Qed.
Lemma jget_ok (P : json -> Prop) key fs v : Forall (fun kv : text * json => P (snd kv)) fs -> jget key fs = Some v -> P v.
Proof.
  induction 1 as [|[k w] fs Hw Hfs IH]; cbn [jget]; [discriminate|]. destruct (text_eqb k key); [intros [= <-]; exact Hw|exact IH].
Qed.
Lemma hcmd_ok X (c : hcmd X) d r d' : harg X c -> vdata d -> cexec c d = (r, d') -> vdata d' /\ forall x, r = Good x -> hres' X c x.
Proof.
  intros Ha (H1 & H2 & H3) E. cbn in E. destruct c as [X c|name|name v|]; cbn [hexec harg hres'] in *.
  - destruct (bexec c (h_buf d)) as [r1 b1] eqn:Eb. injection E as <- <-. destruct (bcmd_ok X c _ _ _ Ha H1 H2 Eb) as (G1 & G2 & G3).
    split; [split; [exact G1|split; [exact G2|exact H3]]|exact G3].
  - injection E as <- <-. split; [split; auto|]. intros x [= <-]. destruct (jget name (h_state d)) as [v|] eqn:Ev; [|exact I].
    eapply (jget_ok vjson); eauto.
  - injection E as <- <-. split; [split; [exact H1|split; [exact H2|]]|auto]. cbn. apply (jput_ok vjson); assumption.
  - injection E as <- <-. split; [split; [exact H1|split; [exact H2|constructor]]|auto].
Qed.

(** ** The methods *)
Notation okb := (okp barg bres).
Notation okh := (okp harg hres').
Lemma ok_lift {A} (R : A -> Prop) (p : prog bcmd A) : okb R p -> okh R (hlift p).
Proof. induction 1; cbn [lift lift_cmd]; constructor; auto. Qed.
Lemma splitlines_vtext s : vtext s -> Forall vtext (splitlines s).
Proof.
  intros H. rewrite splitlines_seg.
  assert (Hs : forall s ls r, segments s ls r -> vtext s -> Forall vtext ls /\ vtext r).
  { clear. intros s ls r Hs. induction Hs as [r Hr|l b s ls r Hl Hb Hs IH]; intros H; [auto|].
    unfold vtext in H. apply List.Forall_app in H. destruct H as [H1 H]. apply List.Forall_app in H. destruct H as [_ H].
    destruct (IH H). auto. }
  destruct (Hs s _ _ (seg_segments s) H) as [H1 H2]. apply List.Forall_app. split; [exact H1|].
  unfold opt_line. destruct (snd (seg s)); [constructor|constructor; auto].
Qed.
Ltac okc := match goal with |- okp barg bres _ (op ?c) => apply (ok_cmd barg bres c) end.
Ltac okn := eapply ok_bind; [okc; exact I|].
Lemma okb_write_body data : vtext data -> okb (fun _ => True) (lb_write_body lb_parse_lines data).
Proof.
  intros Hd. pose proof (splitlines_vtext data Hd) as Hl. unfold lb_write_body, lb_write_body_gen, lb_parse_lines. cbv zeta.
  destruct ((length (splitlines data) =? 1) && text_eqb (hd [] (splitlines data)) []).
  - okn. intros v Hv. eapply ok_bind; [okc; constructor; [exact Hv|constructor]|]. intros _ _. okn. intros _ _. okn. intros _ _. constructor. exact I.
  - assert (Hm : Forall vtext (fst (if is_end_line_break data then (splitlines data ++ [[]], length (splitlines data) + 1) else (splitlines data, length (splitlines data))))).
    { destruct (is_end_line_break data); [|exact Hl]. apply List.Forall_app. split; [exact Hl|]. constructor; constructor. }
    destruct (if is_end_line_break data then _ else _) as [ml n]. cbn [fst] in Hm. destruct (1 <? n); [|destruct (n =? 1)].
    + okn. intros v Hv. assert (Hml : Forall vtext ((v ++ hd [] ml) :: tl ml)).
      { constructor; [apply vtext_app; [exact Hv|apply all_hd; [exact Hm|constructor]]|apply all_tl, Hm]. }
      eapply ok_bind; [okc; apply List.Forall_map, all_removelast, Hml|]. intros _ _. okn. intros _ _. okn. intros _ _.
      eapply ok_more; [okc; apply (all_last vtext); [exact Hml|constructor]|auto].
    + eapply ok_more; [okc; apply (all_hd vtext); [exact Hm|constructor]|auto].
    + constructor. exact I.
Qed.
Lemma okb_write data : vtext data -> okb (fun _ => True) (lb_write data).
Proof.
  intros Hd. unfold lb_write, lb_write_with, lb_write_gen. eapply (ok_bind _ _ (fun _ => True)).
  - apply ok_with. okn. intros c _. constructor. exact I.
  - intros w _. destruct (negb w); [constructor|]. apply ok_with, okb_write_body, Hd.
Qed.
Lemma okb_new_line : okb (fun _ => True) lb_new_line.
Proof.
  unfold lb_new_line, lb_new_line_with, lb_new_line_gen. apply ok_with. okn. intros n _. destruct (0 <? n); [|constructor; exact I].
  eapply ok_bind; [apply okb_write_body; repeat constructor|]. intros; constructor; exact I.
Qed.
Lemma okb_read size : okb (Forall vitem) (lb_read size).
Proof.
  assert (Hloop : forall n rs, Forall vitem rs -> okb (Forall vitem) (lb_read_loop n rs)).
  { induction n as [|n IH]; intros rs Hr; cbn [lb_read_loop]; [constructor; exact Hr|]. okn. intros v Hv.
    eapply ok_bind; [okc; exact Hv|]. intros _ _. apply IH, List.Forall_app. auto. }
  assert (Hsnoc : forall l v, Forall vitem l -> vtext v -> Forall vitem (l ++ [IStr v])).
  { intros l v Hl Hv. apply List.Forall_app. split; [exact Hl|]. constructor; [exact Hv|constructor]. }
  unfold lb_read, lb_readable. eapply (ok_bind _ _ (fun _ => True)).
  - apply ok_with. okn. intros c _. constructor. exact I.
  - intros r _. destruct (negb r); [constructor|]. apply ok_with. destruct size as [z|].
    + destruct (0 <? z)%Z; [|constructor; constructor]. unfold lb_read_n. okn. intros pos _. cbv zeta. okn. intros n _. okn. intros m _.
      eapply (ok_bind _ _ (fun o => forall x, o = Some x -> vitem x)).
      * destruct ((0 <? pos) && negb (m =? 0) && (n =? m)); [|constructor; discriminate]. okn. intros v Hv. constructor. intros x [= <-]. exact Hv.
      * intros o Ho. eapply (ok_bind _ _ (fun _ => True)).
        { match goal with |- okp _ _ _ (if ?b then _ else _) => destruct b end; [|constructor; exact I]. eapply ok_more; [okc; exact I|auto]. }
        intros _ _. eapply ok_bind; [apply Hloop; constructor|]. intros rs Hr. destruct (0 <? pos); [|constructor; exact Hr].
        okn. intros v Hv. eapply (ok_bind _ _ (fun _ => True)).
        { destruct o as [x|]; [|constructor; exact I]. eapply ok_more; [okc; apply Ho; reflexivity|auto]. }
        intros _ _. constructor. apply Hsnoc; assumption.
    + unfold lb_read_all. okn. intros pos _. cbv zeta. okn. intros n _. destruct (0 <? pos); [|okc; exact I]. okn. intros m _.
      destruct (negb (m =? 0) && (n =? m)).
      * okn. intros x Hx. okn. intros l Hl. okn. intros v Hv. eapply ok_bind; [okc; exact Hx|]. intros _ _. constructor. apply Hsnoc; assumption.
      * destruct (0 <? n); [okn; intros l Hl|]; (okn; intros v Hv; constructor); [apply Hsnoc; assumption|apply (Hsnoc []); [constructor|exact Hv]].
Qed.

(** ** The views *)
(** Everything JSON-like in the result of a call. *)
Definition vresult (r : hres) : Prop :=
  match r with HAnswer (_, v) => vjson v | HJsons l => Forall vjson l | HRes _ => True end.

Lemma dec_vtext n : vtext (dec_of_N n).
Proof.
  assert (H : forall f n acc, vtext acc -> vtext (dec_digits f n acc)).
  { induction f as [|f IH]; intros k acc Ha; cbn [dec_digits]; [exact Ha|].
    assert (Hc : vtext ((48 + k mod 10)%N :: acc)) by (constructor; [pose proof (N.mod_lt k 10 ltac:(discriminate)); lia|exact Ha]).
    destruct (k / 10 =? 0)%N; [exact Hc|apply IH, Hc]. }
  apply H. constructor.
Qed.
Section Views.
  Variable E : henv.
  Hypothesis Hrep : forall v, vjson v -> vtext (rep E v).
  Lemma py_str_vtext v : vjson v -> vtext (py_str E v).
  Proof using Hrep.
    intros Hv. destruct v as [|[]|z|s|l|fs]; cbn [py_str]; try (apply vtext_b; reflexivity).
    - unfold dec_of_Z. destruct (z <? 0)%Z; [constructor; [reflexivity|]|]; apply dec_vtext.
    - exact Hv.
    - apply vtext_app; [apply vtext_b; reflexivity|]. apply vtext_app; [apply Hrep, Hv|apply vtext_b; reflexivity].
    - apply vtext_app; [apply vtext_b; reflexivity|]. apply vtext_app; [apply Hrep, Hv|apply vtext_b; reflexivity].
  Qed.
  Lemma field_ok key fs v : vjson (JObj fs) -> jget key fs = Some v -> vjson v.
  Proof using.
    intros H. apply vjson_obj in H. destruct H as [H _]. apply (jget_ok vjson). eapply List.Forall_impl; [|exact H]. intros a Ha. apply Ha.
  Qed.
  Lemma success_ok code : vjson (snd (success code)).
  Proof using.
    apply vjson_obj. split; [constructor; [split; apply vtext_b; reflexivity|constructor]|].
    vm_compute. constructor; [intros []|constructor].
  Qed.
  Lemma with_data_ok v : vjson v -> vjson (JObj [(k_message, JStr s_success); (k_data, v)]).
  Proof using.
    intros H. apply vjson_obj. split.
    - constructor; [split; apply vtext_b; reflexivity|]. constructor; [split; [apply vtext_b; reflexivity|exact H]|constructor].
    - vm_compute. constructor; [cbn; intuition discriminate|]. constructor; [intros []|constructor].
  Qed.
  Lemma deserialize_ok fs i : vjson (JObj fs) -> deserialize (JObj fs) = Good i -> vitem i.
  Proof using.
    intros H. unfold deserialize. destruct (negb (is_serialized (JObj fs))); [intros [= <-]; exact H|].
    destruct (jget k_type fs) as [ty|] eqn:E1; [|discriminate]. destruct (jget k_data fs) as [da|] eqn:E2; [|discriminate].
    pose proof (field_ok _ _ _ H E1) as H1. pose proof (field_ok _ _ _ H E2) as H2.
    destruct da as [| | |s|l|gs]; cbn [py_tuple]; try discriminate; intros [= <-]; (split; [exact H1|]); cbn [gm_data].
    - apply List.Forall_map, List.Forall_forall. intros c Hc. cbn. constructor; [|constructor]. unfold vjson, vtext in H2. rewrite List.Forall_forall in H2. auto.
    - apply vjson_arr, H2.
    - apply vjson_obj in H2. destruct H2 as [H2 _]. apply List.Forall_map. eapply List.Forall_impl; [|exact H2]. intros a Ha. apply Ha.
  Qed.
  Lemma serialize_ok m : vjson (gm_type m) -> Forall vjson (gm_data m) -> vjson (serialize m).
  Proof using.
    intros Ht Hd. unfold serialize. apply vjson_obj. split.
    - constructor; [split; [apply vtext_b; reflexivity|exact I]|].
      constructor; [split; [apply vtext_b; reflexivity|apply vtext_b; reflexivity]|].
      constructor; [split; [apply vtext_b; reflexivity|exact Ht]|].
      constructor; [split; [apply vtext_b; reflexivity|apply vjson_arr, Hd]|constructor].
    - vm_compute. repeat (constructor; [cbn; intuition discriminate|]). constructor.
  Qed.
  Lemma serialize_items_ok l : Forall vitem l -> forall r, serialize_items l = Good r -> Forall vjson r.
  Proof using.
    induction 1 as [|i l Hi _ IH]; intros r; cbn [serialize_items]; [intros [= <-]; constructor|].
    destruct i as [s|m|v]; [| |discriminate]; (destruct (serialize_items l) as [r0|e|]; [|discriminate..]); intros [= <-]; constructor; auto.
    apply serialize_ok; apply Hi.
  Qed.
  Lemma ok_of_out {X} (R : X -> Prop) o : (forall x, o = Good x -> R x) -> okh R (of_out o).
  Proof using. intros H. destruct o; cbn [of_out]; constructor; auto. Qed.
  Lemma ok_read_serialized size : okh (Forall vjson) (h_read_serialized size).
  Proof using.
    unfold h_read_serialized. eapply ok_bind; [apply ok_lift, okb_read|]. intros l Hl. apply ok_of_out. apply serialize_items_ok, Hl.
  Qed.
  Notation vans := (fun a : nat * json => vjson (snd a)).
  Notation any := (fun _ => True).
  Ltac hc := match goal with |- okp harg hres' _ (op ?c) => apply (ok_cmd harg hres' c) end.
  Lemma ok_handle r : vreq r -> okh vans (handle E r).
  Proof using Hrep.
    intros Hr. destruct r as [b|n| |name|b|]; cbn [handle vreq] in *.
    - destruct b as [| |[| | | | |args]]; cbn [h_post]; try (constructor; fail). apply ok_with. eapply (ok_bind _ _ any); [|intros; constructor; apply success_ok].
      cbn [vbody] in Hr. destruct (text_eqb _ s_str); [|destruct (text_eqb _ s_error || text_eqb _ s_warning); [|destruct (text_eqb _ s_close)]].
      + destruct (jget k_data args) as [[| | | | |data]|] eqn:Ed; try (constructor; exact I). pose proof (field_ok _ _ _ Hr Ed) as Hd.
        destruct (jget k_value data) as [v|] eqn:Ev; [|constructor; exact I]. pose proof (field_ok _ _ _ Hd Ev) as Hv.
        assert (Hw : okh any (hlift (lb_write (py_str E v)) ;; Ret tt)).
        { eapply ok_bind; [apply ok_lift, okb_write, py_str_vtext, Hv|intros; constructor; exact I]. }
        destruct v; first [exact Hw|constructor; exact I].
      + destruct (jget k_data args) as [[| | | | |data]|] eqn:Ed; try (constructor; exact I). pose proof (field_ok _ _ _ Hr Ed) as Hd.
        eapply ok_bind; [apply ok_lift, okb_new_line|]. intros _ _. eapply (ok_bind _ _ vitem); [apply ok_of_out; intros x; apply deserialize_ok, Hd|].
        intros i Hi. hc. exact Hi.
      + apply ok_lift, okb_new_line.
      + constructor.
    - unfold h_get. match goal with |- okp _ _ _ (match ?x with None => _ | Some _ => _ end) => destruct x as [number|] end; [|constructor].
      eapply ok_bind; [apply ok_with, ok_read_serialized|]. intros l Hl. constructor. cbn [snd]. apply with_data_ok, vjson_arr, Hl.
    - unfold h_delete. eapply (ok_bind _ _ any); [|intros; constructor; apply success_ok]. apply ok_with, ok_lift. unfold lb_clear.
      eapply (ok_bind _ _ any); [apply ok_with; okn; intros _ _; okc; exact I|]. intros _ _. okc. exact I.
    - unfold s_get. destruct (strip _) as [|c nm]; [constructor|]. eapply (ok_bind _ _ vjson).
      + apply ok_with. destruct (text_eqb (c :: nm) k_curlen).
        * eapply (ok_bind _ _ any); [|intros n _; constructor; exact I]. apply ok_lift. unfold lb_len, lb_maxlen. okn. intros m _. okn. intros k _.
          eapply (ok_bind _ _ any); [apply ok_with; okn; intros; constructor; exact I|]. intros; constructor; exact I.
        * apply ok_with. hc. exact I.
      + intros v Hv. constructor. cbn [snd]. apply with_data_ok, Hv.
    - destruct b as [| |[| | | | |args]]; cbn [s_post]; try (constructor; fail). destruct (strip _) as [|c nm]; [constructor|].
      eapply (ok_bind _ _ any); [|intros; constructor; apply success_ok]. apply ok_with, ok_with. destruct (text_eqb (c :: nm) k_closed); [|constructor; exact I].
      eapply ok_more; [hc; exact I|auto].
    - unfold s_delete, h_reset_states. eapply (ok_bind _ _ any); [|intros; constructor; apply success_ok]. apply ok_with.
      eapply (ok_bind _ _ any); [eapply ok_more; [hc; exact I|auto]|]. intros _ _. eapply ok_more; [hc; exact I|auto].
  Qed.
  Lemma ok_call c : vcall c -> okh vresult (h_call E c).
  Proof using Hrep.
    intros Hc. destruct c as [r|c|size| |]; cbn [h_call].
    - eapply ok_bind; [apply ok_handle, Hc|]. intros [code v] Hv. constructor. exact Hv.
    - assert (Hb : okh any (hlift (lb_call c)) -> okh vresult (x <- hlift (lb_call c) ;; Ret (HRes x))).
      { intros H. eapply ok_bind; [exact H|]. intros; constructor; exact I. }
      assert (Hclear : okb any lb_clear).
      { unfold lb_clear. eapply (ok_bind _ _ any); [apply ok_with; okn; intros _ _; okc; exact I|]. intros _ _. okc. exact I. }
      destruct c; try (apply Hb, ok_lift; cbn [lb_call]; unfold lb_len, lb_maxlen, lb_closed, lb_readable, lb_writable, lb_flush, lb_fileno, lb_seek, lb_isatty, lb_seekable).
      + constructor.
      + eapply ok_bind; [apply okb_read|intros; constructor; exact I].
      + eapply ok_bind; [apply okb_new_line|intros; constructor; exact I].
      + eapply ok_bind; [apply Hclear|intros; constructor; exact I].
      + eapply (ok_bind _ _ any); [|intros; constructor; exact I]. unfold lb_close. eapply (ok_bind _ _ any); [apply ok_with; okc; exact I|].
        intros [] _; [constructor; exact I|]. eapply ok_bind; [apply Hclear|]. intros _ _. apply ok_with. okc. exact I.
      + eapply (ok_bind _ _ any); [apply ok_with; okc; exact I|intros; constructor; exact I].
      + eapply (ok_bind _ _ any); [|intros; constructor; exact I]. okn. intros m _. okn. intros k _.
        eapply (ok_bind _ _ any); [apply ok_with; okn; intros; constructor; exact I|]. intros; constructor; exact I.
      + eapply (ok_bind _ _ any); [apply ok_with; okc; exact I|intros; constructor; exact I].
      + eapply (ok_bind _ _ any); [apply ok_with; okn; intros; constructor; exact I|intros; constructor; exact I].
      + eapply (ok_bind _ _ any); [apply ok_with; okn; intros; constructor; exact I|intros; constructor; exact I].
      + eapply (ok_bind _ _ any); [okc; exact I|intros; constructor; exact I].
      + constructor.
      + constructor.
      + constructor. exact I.
      + constructor. exact I.
    - eapply ok_bind; [apply ok_read_serialized|]. intros l Hl. constructor. exact Hl.
    - eapply (ok_bind _ _ any); [apply ok_with; eapply ok_more; [hc; exact I|auto]|]. intros; constructor; exact I.
    - eapply (ok_bind _ _ any); [|intros; constructor; exact I]. unfold h_reset_states. apply ok_with.
      eapply (ok_bind _ _ any); [eapply ok_more; [hc; exact I|auto]|]. intros _ _. eapply ok_more; [hc; exact I|auto].
  Qed.
End Views.

Theorem answers_vjson E m css sch ps' s' : (forall v, vjson v -> vtext (rep E v)) -> Forall (Forall vcall) css ->
  sched_run sch (HostConc.h_pool E css, hfresh m) = Some (ps', s') ->
  forall i rs r, nth_error ps' i = Some (Ret rs) -> In (Good r) rs -> vresult r.
Proof.
  intros Hrep Hc Hr i rs r Hi Hin.
  destruct (ok_sched harg hres' vdata hcmd_ok (all_ok vresult) sch (HostConc.h_pool E css) (hfresh m) ps' s') as [Hp _]; [| |exact Hr|].
  - unfold HostConc.h_pool. apply List.Forall_map. eapply List.Forall_impl; [|exact Hc]. intros cs Hcs. apply ok_thread, List.Forall_map.
    eapply List.Forall_impl; [|exact Hcs]. intros c. apply ok_call, Hrep.
  - split; [constructor|]. split; [constructor|]. repeat constructor.
  - rewrite List.Forall_forall in Hp. specialize (Hp _ (nth_error_In _ _ Hi)). apply ok_shape in Hp. cbn in Hp.
    unfold all_ok in Hp. rewrite List.Forall_forall in Hp. exact (Hp _ Hin r eq_refl).
Qed.
