(** * JsonProofs: proofs for PropJson.v *)
From stdpp Require Import gmap.
From Coq Require Import String.
From Coq Require Import List NArith ZArith Bool Arith Lia.
From Verif Require Import PyStr Prog PyIO Base Spec SpecFacts Host Json JsonText HostCli JsonSpec JsonFacts.
Import ListNotations.
Local Open Scope prog_scope.

Lemma codes_arr l : codes (JArr l) <-> Forall codes l.
Proof. cbn [codes]. induction l as [|x l IH]; [split; constructor|]. rewrite List.Forall_cons_iff, IH. tauto. Qed.

Lemma sent_vjson v : sent v -> codes v -> vjson v.
Proof.
  intros H Hc. destruct H as [data| |kind e|name x].
  - cbn [codes fst snd] in Hc. cbn [vjson fst snd map]. repeat split; try tauto.
    all: repeat constructor; cbn; intuition discriminate.
  - cbn [vjson fst snd map codes] in *. repeat split; try tauto. repeat constructor; cbn; intuition discriminate.
  - unfold serialize in *. cbn [codes fst snd] in Hc.
    destruct Hc as (C1 & C2 & C3 & (C4 & _ & C5 & C6 & C7 & C8 & C9 & C10 & _) & _).
    apply vjson_obj. split.
    + constructor; [split; [exact C1|exact C2]|]. constructor; [|constructor]. split; [exact C3|].
      cbn [snd]. apply vjson_obj. split.
      * constructor; [split; [exact C4|exact I]|]. constructor; [split; [exact C5|exact C6]|].
        constructor; [split; [exact C7|]|].
        { cbn [gm_init gm_type snd] in *. destruct (ex_cls e); exact C8. }
        constructor; [split; [exact C9|]|constructor].
        cbn [snd gm_init gm_data] in *. apply vjson_arr. change (codes (JArr (map JStr (splitlines (ex_text e))))) in C10.
        apply codes_arr in C10. clear C8. revert C10. induction (splitlines (ex_text e)) as [|l ls IH]; intros C10; [constructor|].
        inversion C10; subst. constructor; [assumption|]. apply IH. assumption.
      * vm_compute. repeat constructor; cbn; intuition discriminate.
    + vm_compute. repeat constructor; cbn; intuition discriminate.
  - cbn [codes fst snd] in Hc. cbn [vjson fst snd map]. repeat split; try tauto.
    vm_compute. repeat constructor; cbn; intuition discriminate.
Qed.

(** *** Every request of the clients *)
Section AllReqs.
  Variable P : request -> Prop.
  Lemma ar_bind {A B} (p : prog ccmd A) (f : A -> prog ccmd B) :
    all_reqs P p -> (forall a, all_reqs P (f a)) -> all_reqs P (bind p f).
  Proof. induction p as [a|e|X c k IHk h IHh]; cbn [all_reqs bind]; [auto|auto|]. intros (H1 & H2 & H3) Hf. auto. Qed.
  Lemma ar_try {A} (p : prog ccmd A) l : all_reqs P p -> all_reqs P (try_finally p (release l)).
  Proof.
    induction p as [a|e|X c k IHk h IHh]; cbn [all_reqs try_finally].
    - intros _. cbn. auto.
    - intros _. cbn. auto.
    - intros (H1 & H2 & H3). auto.
  Qed.
  Lemma ar_with {A} l m (p : prog ccmd A) : all_reqs P p -> all_reqs P (with_lock l m p).
  Proof. intros H. cbn. split; [exact I|]. split; [|auto]. intros _. apply ar_try, H. Qed.
  Lemma ar_op {X} (c : ccmd X) : (forall r, P r) \/ match c with CReq _ => False | _ => True end -> all_reqs P (cop c).
  Proof. intros H. destruct c; cbn; auto; destruct H; try contradiction; auto. Qed.
  Lemma ar_req r : P r -> all_reqs P (cop (CReq r)).
  Proof. intros H. cbn. auto. Qed.
  Lemma ar_then {A} r (f : option json -> prog ccmd A) : P r -> (forall b, all_reqs P (f b)) -> all_reqs P (request_then r f).
  Proof.
    intros H Hf. unfold request_then. apply ar_bind; [apply ar_req, H|]. intros a. destruct (_ <? _)%nat; [apply Hf|].
    unfold raise_answer, json_load. destruct (snd a) as [v|]; [|exact I]. cbn [bind]. destruct v; exact I.
  Qed.
End AllReqs.

Ltac ar := repeat first
  [ apply ar_with
  | apply ar_then; [|intros ?]
  | apply ar_bind; [|intros ?]
  | apply ar_op; right; exact I
  | exact I
  | match goal with
    | |- all_reqs _ (if ?b then _ else _) => destruct b
    | |- all_reqs _ (match ?b with _ => _ end) => destruct b
    | |- all_reqs _ (json_load ?b) => destruct b
    | |- all_reqs _ (the_dict ?b) => destruct b
    | |- all_reqs _ (index _ ?b) => destruct b; cbn [index]
    | |- all_reqs _ (of_out' ?o) => destruct o
    end ].

Lemma m_call_sent M c : all_reqs sends_sent (m_call M c).
Proof.
  assert (Hd : forall data, all_reqs sends_sent (hm_send_data M data)).
  { intros data. unfold hm_send_data. ar. eexists. split; [reflexivity|constructor]. }
  assert (Hk : all_reqs sends_sent (hm_check_states M)) by (unfold hm_check_states; ar).
  assert (Hw : forall ck data, all_reqs sends_sent (hm_write_body M ck data)).
  { intros ck data. unfold hm_write_body. apply ar_bind; [destruct ck; [exact Hk|exact I]|]. intros _. cbv zeta.
    destruct (hm_aggr M); [apply ar_bind; [apply Hd|intros; exact I]|].
    destruct (_ || _)%bool; [|ar]. apply ar_bind; [ar|]. intros res. apply ar_bind; [ar|]. intros v.
    apply ar_bind; [apply Hd|]. intros _. ar. }
  assert (Hn : forall ck, all_reqs sends_sent (hm_new_line M ck)).
  { intros ck. unfold hm_new_line. apply ar_with. apply ar_bind; [ar|]. intros n. destruct (0 <? n)%nat; [|exact I].
    apply ar_bind; [apply Hw|intros; exact I]. }
  assert (He : all_reqs sends_sent (hm_send_eof M)).
  { unfold hm_send_eof. apply ar_bind; [ar|]. intros [|]; [exact I|]. apply ar_bind; [apply Hn|]. intros _. ar.
    eexists. split; [reflexivity|constructor]. }
  assert (Hr : forall e, all_reqs sends_sent (hm_send_error M e)).
  { intros e. unfold hm_send_error. apply ar_bind; [ar|]. intros [|]; [exact I|]. apply ar_bind; [apply Hn|]. intros _. ar.
    eexists. split; [reflexivity|constructor]. }
  assert (Hg : forall e, all_reqs sends_sent (hm_send_warning M e)).
  { intros e. unfold hm_send_warning. apply ar_bind; [ar|]. intros [|]; [exact I|]. apply ar_bind; [apply Hn|]. intros _. ar.
    eexists. split; [reflexivity|constructor]. }
  destruct c; cbn [m_call]; unfold as_cres; (apply ar_bind; [|intros; exact I]); auto.
  - unfold hm_write. apply ar_bind; [unfold hm_writable; ar|]. intros [|]; [|exact I]. cbn [negb]. apply ar_with, Hw.
  - unfold hm_clear. ar.
  - unfold hm_flush. ar.
  - unfold hm_read, hm_readable. ar.
  - unfold hm_close. apply ar_bind; [ar|]. intros [|]; [exact I|]. apply ar_bind; [destruct exc; auto|]. intros _.
    unfold hm_clear. ar.
  - unfold hm_closed. ar.
  - unfold hm_readable. ar.
  - unfold hm_writable. ar.
  - exact I.
  - exact I.
  - exact I.
  - exact I.
Qed.
Lemma r_call_sent c : all_reqs sends_sent (r_call c).
Proof.
  destruct c; cbn [r_call]; unfold as_cres, rd_read, rd_get_states, rd_clear, rd_reset_states, rd_stop_all, rd_done;
    (apply ar_bind; [|intros; exact I]); ar; try exact I.
  eexists. split; [reflexivity|constructor].
Qed.
Lemma c_call_sent c : all_reqs sends_sent (c_call c).
Proof. destruct c; [apply m_call_sent|apply r_call_sent]. Qed.

(** *** Messages *)
Lemma deserialize_wire m : deserialize (wire (serialize m)) = Good (IMsg (mkgmsg (wire (gm_type m)) (map wire (gm_data m)))).
Proof. reflexivity. Qed.
Lemma vtext_b s : forallb (fun c => c <? 1114112)%N s = true -> vtext s.
Proof. intros H. apply List.Forall_forall. intros c Hc. rewrite forallb_forall in H. apply N.ltb_lt, H, Hc. Qed.
Lemma c47_json w1 w2 w3 w4 m : blanks w1 -> blanks w2 -> blanks w3 -> blanks w4 ->
  vjson (gm_type m) -> Forall vjson (gm_data m) -> jclean (gm_type m) -> Forall jclean (gm_data m) ->
  exists v, loads (w3 ++ dumps w1 w2 (serialize m) ++ w4) = Some v /\ deserialize v = Good (IMsg m).
Proof.
  intros H1 H2 H3 H4 Ht Hd Ct Cd. exists (wire (serialize m)). split.
  - apply loads_dumps; auto. unfold serialize. apply vjson_obj. split.
    + constructor; [split; [apply vtext_b; reflexivity|exact I]|].
      constructor; [split; [apply vtext_b; reflexivity|apply vtext_b; reflexivity]|].
      constructor; [split; [apply vtext_b; reflexivity|exact Ht]|].
      constructor; [split; [apply vtext_b; reflexivity|apply vjson_arr, Hd]|constructor].
    + vm_compute. repeat constructor; cbn; intuition discriminate.
  - rewrite deserialize_wire. rewrite (wire_clean _ Ct). replace (map wire (gm_data m)) with (gm_data m); [destruct m; reflexivity|].
    induction Cd as [|v l Hv _ IH]; [reflexivity|]. cbn [map]. rewrite (wire_clean _ Hv). f_equal.
    inversion Hd; subst. apply IH; assumption.
Qed.
