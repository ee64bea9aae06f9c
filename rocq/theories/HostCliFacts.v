(** * HostCliFacts: the methods of the host clients as functions of the world *)
From stdpp Require Import gmap.
From Coq Require Import String.
From Coq Require Import List NArith ZArith Bool Arith Lia.
From Verif Require Import PyStr Prog ProgFacts PyIO Base Spec SpecFacts LineBuf LineBufFacts LineBufProofs
  Locks Atomic Serial Json Host HostFacts HostCli ProcFacts.
Import ListNotations.
Local Open Scope prog_scope.
Local Open Scope nat_scope.

(** ** Worlds *)
Definition mset (j : nat) (f : sio) (w : world) : world := mkworld (w_srv w) (<[j := f]> (w_mir w)) (w_faults w).
Lemma mget_mset j f w : mget j (mset j f w) = f.
Proof. unfold mget, mset. cbn [w_mir]. rewrite lookup_insert. reflexivity. Qed.
Lemma mget_mset_ne j i f w : i <> j -> mget i (mset j f w) = mget i w.
Proof. intros H. unfold mget, mset. cbn [w_mir]. rewrite lookup_insert_ne by congruence. reflexivity. Qed.
Lemma mset_mset j f f' w : mset j f (mset j f' w) = mset j f w.
Proof. unfold mset. cbn [w_srv w_mir w_faults]. rewrite insert_insert. reflexivity. Qed.

Section Env.
  Variable E : henv.
  #[local] Hint Extern 0 (Sem ccmd world) => exact (clisem E) : typeclass_instances.
  Notation crun p w := (@srun ccmd world (clisem E) _ p w).

  Lemma on_mir_eq {X} j (f : sio -> outcome X * sio) w : on_mir j f w = (fst (f (mget j w)), mset j (snd (f (mget j w))) w).
  Proof. unfold on_mir. destruct (f (mget j w)); reflexivity. Qed.
  Lemma creq_nb r w : fst (creq E r w) <> Block.
  Proof. unfold creq. destruct (w_faults w) as [|[]]; try destruct (serve E r (w_srv w)); discriminate. Qed.
  Lemma cli_nb : forall X (c : ccmd X) (w : world), fst (cexec c w) <> Block.
  Proof.
    intros X c w. cbn [cexec clisem].
    destruct c; cbn [cliexec]; rewrite ?on_mir_eq; cbn [fst]; try apply creq_nb;
      unfold sio_write, sio_getvalue, sio_tell, sio_seek0, sio_truncate0, sio_closed, sio_close, sio_flush, sio_guard;
      try destruct (sclosed _); discriminate.
  Qed.
  Lemma creq_mset r j f w : creq E r (mset j f w) = (fst (creq E r w), mset j f (snd (creq E r w))).
  Proof. unfold creq, mset. cbn [w_faults w_srv w_mir]. destruct (w_faults w) as [|[]]; try destruct (serve E r (w_srv w)); reflexivity. Qed.
  Lemma creq_mir r w j : mget j (snd (creq E r w)) = mget j w.
  Proof. unfold creq, mget. destruct (w_faults w) as [|[]]; try destruct (serve E r (w_srv w)); reflexivity. Qed.

  (** ** Locks *)
  Section Locks.
    Variable L : nat.
    Hypothesis HL : reent L = true.
    (** Programs that only use the re-entrant lock [L]. *)
    Definition one_lock {A} (p : prog ccmd A) : Prop := forall n, wlk (repeat L n) (repeat L n) p.
    Lemma ol_ret {A} (a : A) : one_lock (Ret a). Proof. intros n. constructor. Qed.
    Lemma ol_raise {A} e : one_lock (Raise e : prog ccmd A). Proof. intros n. constructor. Qed.
    Lemma ol_op {X} (c : ccmd X) : one_lock (cop c). Proof. intros n. apply wlk_nolock, nolock_op. Qed.
    Lemma ol_bind {A B} (p : prog ccmd A) (f : A -> prog ccmd B) : one_lock p -> (forall a, one_lock (f a)) -> one_lock (bind p f).
    Proof. intros Hp Hf n. apply wlk_bind; [apply Hp|]. intros a. apply Hf. Qed.
    Lemma ol_with {A} (p : prog ccmd A) : one_lock p -> one_lock (with_lock L Ex p).
    Proof.
      intros Hp n. apply wlk_with; [|apply (Hp (S n))]. split; [discriminate|].
      destruct n; [left; constructor|]. right. split; [reflexivity|]. split; [exact HL|left; reflexivity].
    Qed.
    Lemma ol_then {A} r (f : option json -> prog ccmd A) : (forall b, one_lock (f b)) -> one_lock (request_then r f).
    Proof.
      intros Hf. unfold request_then. apply ol_bind; [apply ol_op|]. intros a. destruct (_ <? _); [apply Hf|].
      unfold raise_answer, json_load. destruct (snd a) as [v|]; [|apply ol_raise]. cbn [bind]. destruct v; apply ol_raise.
    Qed.
  End Locks.
  Ltac ol := repeat first
    [ apply ol_ret | apply ol_raise | apply ol_op
    | apply ol_with; [assumption|]
    | apply ol_then; intros ?
    | apply ol_bind; [|intros ?]
    | match goal with
      | |- one_lock _ (if ?b then _ else _) => destruct b
      | |- one_lock _ (match ?b with _ => _ end) => destruct b
      | |- one_lock _ (json_load ?b) => destruct b
      | |- one_lock _ (the_dict ?b) => destruct b
      | |- one_lock _ (index _ ?b) => destruct b; cbn [index]
      | |- one_lock _ (of_out' ?o) => destruct o
      end ].
  Lemma ol_m_call M c : reent (hm_lock M) = true -> one_lock (hm_lock M) (m_call M c).
  Proof.
    intros HL.
    assert (Hd : forall data, one_lock (hm_lock M) (hm_send_data M data)) by (intros data; unfold hm_send_data; ol).
    assert (Hk : one_lock (hm_lock M) (hm_check_states M)) by (unfold hm_check_states; ol).
    assert (Hw : forall ck data, one_lock (hm_lock M) (hm_write_body M ck data)).
    { intros ck data. unfold hm_write_body. apply ol_bind; [destruct ck; [exact Hk|apply ol_ret]|]. intros _. cbv zeta.
      destruct (hm_aggr M); [apply ol_bind; [apply Hd|intros; apply ol_ret]|].
      destruct (_ || _)%bool; [|ol]. apply ol_bind; [ol|]. intros res. apply ol_bind; [ol|]. intros v.
      apply ol_bind; [apply Hd|]. intros _. ol. }
    assert (Hn : forall ck, one_lock (hm_lock M) (hm_new_line M ck)).
    { intros ck. unfold hm_new_line. apply ol_with; [exact HL|]. apply ol_bind; [ol|]. intros n. destruct (0 <? n)%nat; [|apply ol_ret].
      apply ol_bind; [apply Hw|intros; apply ol_ret]. }
    assert (He : one_lock (hm_lock M) (hm_send_eof M)).
    { unfold hm_send_eof. apply ol_bind; [ol|]. intros [|]; [apply ol_ret|]. apply ol_bind; [apply Hn|]. intros _. ol. }
    assert (Hr : forall e, one_lock (hm_lock M) (hm_send_error M e)).
    { intros e. unfold hm_send_error. apply ol_bind; [ol|]. intros [|]; [apply ol_ret|]. apply ol_bind; [apply Hn|]. intros _. ol. }
    assert (Hg : forall e, one_lock (hm_lock M) (hm_send_warning M e)).
    { intros e. unfold hm_send_warning. apply ol_bind; [ol|]. intros [|]; [apply ol_ret|]. apply ol_bind; [apply Hn|]. intros _. ol. }
    destruct c; cbn [m_call]; unfold as_cres; (apply ol_bind; [|intros; apply ol_ret]); auto;
      try solve [unfold hm_clear, hm_flush, hm_read, hm_readable, hm_closed, hm_writable, hm_fileno, hm_seek, hm_isatty, hm_seekable; ol].
    - unfold hm_write. apply ol_bind; [unfold hm_writable; ol|]. intros [|]; [|apply ol_raise]. cbn [negb]. apply ol_with; [exact HL|apply Hw].
    - unfold hm_close. apply ol_bind; [ol|]. intros [|]; [apply ol_ret|]. apply ol_bind; [destruct exc; auto|]. intros _.
      unfold hm_clear. ol.
  Qed.
  Lemma ol_r_call L c : one_lock L (r_call c).
  Proof.
    destruct c; cbn [r_call]; unfold as_cres, rd_read, rd_get_states, rd_clear, rd_reset_states, rd_stop_all, rd_done; ol.
  Qed.

  Lemma run_ol {A} L t (p : prog ccmd A) w : one_lock L p -> run t p (mkst w ∅) = (fst (crun p w), mkst (snd (crun p w)) ∅).
  Proof. intros H. apply (@wlk_srun ccmd world (clisem E) cli_nb A t p w (H 0)). Qed.

  (** ** Requests *)
  Definition err_of (b : option json) : exn :=
    match b with Some (JObj _) => ConnectionError | Some _ => AttributeError | None => ValueError end.
  (** What a request means for the caller: [raise_answer] or the body. *)
  Definition reply (o : outcome (nat * option json)) : outcome (option json) :=
    match o with
    | Good (code, b) => if code <? 400 then Good b else Fail (err_of b)
    | Fail e => Fail e
    | Block => Block
    end.
  Lemma sr_then {A} r (f : option json -> prog ccmd A) w :
    crun (request_then r f) w =
    match reply (fst (creq E r w)) with
    | Good b => crun (f b) (snd (creq E r w))
    | Fail e => (Fail e, snd (creq E r w))
    | Block => (Block, snd (creq E r w))
    end.
  Proof.
    unfold request_then. rewrite srun_bind, srun_op. cbn [cexec clisem cliexec].
    destruct (creq E r w) as [[[code b]|e|] w1]; cbn [fst snd reply]; try reflexivity.
    destruct (code <? 400); [reflexivity|]. unfold raise_answer, json_load, err_of. destruct b as [[]|]; reflexivity.
  Qed.
  Definition acked (o : outcome (nat * option json)) : outcome unit :=
    match reply o with Good _ => Good tt | Fail e => Fail e | Block => Block end.
  Definition flagged (o : outcome (nat * option json)) : outcome unit :=
    match reply o with
    | Good None => Fail ValueError
    | Good (Some (JObj fs)) => match jget k_data fs with Some (JBool true) => Fail StopIteration | _ => Good tt end
    | Good (Some _) => Fail AttributeError
    | Fail e => Fail e
    | Block => Block
    end.

  (** ** The mirror [M], open, holding [v] *)
  Variable M : hmir.
  Notation J := (hm_id M).
  Definition opn (v : text) : sio := mksio v (length v) false.
  Definition kp (v : text) (w : world) : world := mset J (opn v) w.
  Lemma kp_id v w : w_mir w !! J = Some (opn v) -> w = kp v w.
  Proof. intros H. unfold kp, mset. rewrite insert_id by exact H. destruct w; reflexivity. Qed.
  Lemma creq_kp r v w : creq E r (kp v w) = (fst (creq E r w), kp v (snd (creq E r w))).
  Proof. apply creq_mset. Qed.

  (** A command on the buffer of [M]. *)
  Lemma sr_mir {X} (c : ccmd X) (f : sio -> outcome X * sio) b w :
    (forall w', cliexec E c w' = on_mir J f w') ->
    crun (cop c) (mset J b w) = (fst (f b), mset J (snd (f b)) w).
  Proof. intros H. rewrite srun_op. cbn [cexec clisem]. rewrite H, on_mir_eq, mget_mset, mset_mset. reflexivity. Qed.
  Lemma sr_closed b w : crun (cop (MClosed J)) (mset J b w) = (Good (sclosed b), mset J b w).
  Proof. rewrite (sr_mir _ sio_closed) by reflexivity. reflexivity. Qed.
  Lemma sr_tell v w : crun (cop (MTell J)) (kp v w) = (Good (length v), kp v w).
  Proof. unfold kp. rewrite (sr_mir _ sio_tell) by reflexivity. reflexivity. Qed.
  Lemma sr_getvalue v w : crun (cop (MGetvalue J)) (kp v w) = (Good v, kp v w).
  Proof. unfold kp. rewrite (sr_mir _ sio_getvalue) by reflexivity. reflexivity. Qed.
  Lemma sio_put v data : sio_write data (opn v) = (Good (length data), opn (v ++ data)).
  Proof.
    unfold sio_write, sio_guard, opn. cbn [sclosed spos sval]. rewrite app_length. destruct data as [|c data].
    - rewrite app_nil_r, Nat.add_0_r. reflexivity.
    - f_equal. f_equal. rewrite Nat.sub_diag. cbn [repeat]. rewrite app_nil_r, firstn_all.
      rewrite skipn_all2 by lia. rewrite app_nil_r. reflexivity.
  Qed.
  Lemma sr_put v data w : crun (cop (MPut J data)) (kp v w) = (Good (length data), kp (v ++ data) w).
  Proof. unfold kp. rewrite (sr_mir _ (sio_write data)) by reflexivity. rewrite sio_put. reflexivity. Qed.
  Lemma sr_empty v w : crun (cop (MSeek0 J) ;; cop (MTruncate0 J)) (kp v w) = (Good tt, kp [] w).
  Proof.
    unfold kp. rewrite srun_bind, (sr_mir _ sio_seek0) by reflexivity. cbn [sio_seek0 sio_guard opn sclosed fst snd].
    rewrite (sr_mir _ sio_truncate0) by reflexivity. reflexivity.
  Qed.

  Lemma sr_send_data v data w :
    crun (hm_send_data M data) (kp v w) =
    (acked (fst (creq E (PostMsg (BJson (body_str data))) w)), kp v (snd (creq E (PostMsg (BJson (body_str data))) w))).
  Proof.
    unfold hm_send_data. rewrite srun_bind, srun_with. unfold kp at 1. rewrite sr_closed. cbn [opn sclosed]. fold (opn v). fold (kp v w).
    rewrite sr_then, creq_kp. cbn [fst snd]. unfold acked. destruct (reply _); reflexivity.
  Qed.
  Lemma sr_check v w :
    crun (hm_check_states M) (kp v w) =
    (flagged (fst (creq E (GetState (Some k_closed)) w)), kp v (snd (creq E (GetState (Some k_closed)) w))).
  Proof.
    unfold hm_check_states. rewrite srun_bind, srun_with. unfold kp at 1. rewrite sr_closed. cbn [opn sclosed]. fold (opn v). fold (kp v w).
    rewrite srun_bind, sr_then, creq_kp. cbn [fst snd]. unfold flagged. destruct (reply _) as [b|e|]; try reflexivity.
    destruct b as [[| | | | |fs]|]; try reflexivity. cbn [json_load the_dict bind srun]. destruct (jget k_data fs) as [[|[]| | | |]|]; reflexivity.
  Qed.

  (** [__write] *)
  Definition x_check (check : bool) (w : world) : outcome unit * world :=
    if check then (flagged (fst (creq E (GetState (Some k_closed)) w)), snd (creq E (GetState (Some k_closed)) w)) else (Good tt, w).
  Definition x_post (b : json) (w : world) : outcome unit * world :=
    (acked (fst (creq E (PostMsg (BJson b)) w)), snd (creq E (PostMsg (BJson b)) w)).
  Definition then_ {X Y} (o : outcome X) (f : X -> outcome Y) : outcome Y :=
    match o with Good x => f x | Fail e => Fail e | Block => Block end.
  (** Outcome, held text, world. *)
  Definition x_body (check : bool) (data v : text) (w : world) : outcome nat * text * world :=
    match x_check check w with
    | (Good _, w1) =>
        if hm_aggr M then
          let '(o, w2) := x_post (body_str data) w1 in (then_ o (fun _ => Good (length data)), v, w2)
        else if has_break data then
          let '(o, w2) := x_post (body_str (v ++ data)) w1 in
          (then_ o (fun _ => Good (length data)), match o with Good _ => [] | _ => v ++ data end, w2)
        else (Good (length data), v ++ data, w1)
    | (Fail e, w1) => (Fail e, v, w1)
    | (Block, w1) => (Block, v, w1)
    end.
  Definition put3 {X} (x : outcome X * text * world) : outcome X * world := let '(o, v, w) := x in (o, kp v w).
  Lemma sr_body check data v w : crun (hm_write_body M check data) (kp v w) = put3 (x_body check data v w).
  Proof.
    unfold hm_write_body. rewrite srun_bind. unfold x_body.
    replace (crun (if check then hm_check_states M else Ret tt) (kp v w))
      with (fst (x_check check w), kp v (snd (x_check check w))).
    2: { destruct check; [symmetry; apply sr_check|reflexivity]. }
    destruct (x_check check w) as [o1 w1]. cbn [fst snd]. destruct o1 as [[]|e|]; try reflexivity. cbv zeta.
    destruct (hm_aggr M).
    - rewrite srun_bind, sr_send_data. unfold x_post. destruct (acked _) as [[]|e|]; reflexivity.
    - rewrite trigger_break. destruct (has_break data) eqn:Hb.
      + rewrite srun_bind, sr_put, srun_bind, sr_getvalue, srun_bind, sr_send_data. unfold x_post.
        destruct (acked _) as [[]|e|]; try reflexivity.
        change (crun ((cop (MSeek0 J) ;; cop (MTruncate0 J)) ;; Ret (length data)) (kp (v ++ data) (snd (creq E (PostMsg (BJson (body_str (v ++ data)))) w1))) =
          put3 (Good (length data), [], snd (creq E (PostMsg (BJson (body_str (v ++ data)))) w1))).
        rewrite srun_bind, sr_empty. reflexivity.
      + destruct (no_break_lines data Hb) as [N1 N2]. destruct data as [|c data].
        * rewrite N2 by reflexivity. cbn [srun put3]. rewrite app_nil_r. reflexivity.
        * rewrite N1 by discriminate. rewrite sr_put. reflexivity.
  Qed.

  Lemma sr_writable v w : crun (hm_writable M) (kp v w) = (Good true, kp v w).
  Proof. unfold hm_writable. rewrite srun_with, srun_bind. unfold kp. rewrite sr_closed. reflexivity. Qed.
  Lemma sr_write data v w : crun (hm_write M data) (kp v w) = put3 (x_body true data v w).
  Proof. unfold hm_write. rewrite srun_bind, sr_writable. cbn [negb]. rewrite srun_with. apply sr_body. Qed.

  (** [new_line] *)
  Definition x_nl (check : bool) (v : text) (w : world) : outcome unit * text * world :=
    match v with
    | [] => (Good tt, [], w)
    | _ => let '(o, v', w') := x_body check [LF] v w in (then_ o (fun _ => Good tt), v', w')
    end.
  Lemma sr_nl check v w : crun (hm_new_line M check) (kp v w) = put3 (x_nl check v w).
  Proof.
    unfold hm_new_line, x_nl. rewrite srun_with, srun_bind, sr_tell. destruct v as [|c v]; [reflexivity|].
    cbn [length Nat.ltb Nat.leb]. rewrite srun_bind, sr_body. destruct (x_body check [LF] (c :: v) w) as [[o v'] w'].
    cbn [put3]. destruct o; reflexivity.
  Qed.

  (** [send_eof], [send_error], [send_warning] *)
  Definition x_note (check : bool) (b : json) (v : text) (w : world) : outcome unit * text * world :=
    match x_nl check v w with
    | (Good _, v1, w1) => let '(o, w2) := x_post b w1 in (o, v1, w2)
    | r => r
    end.
  Lemma sr_note check b v w :
    crun (c <- with_lock (hm_lock M) Ex (cop (MClosed J)) ;;
          if c then Ret tt else hm_new_line M check ;; request_then (PostMsg (BJson b)) (fun _ => Ret tt)) (kp v w)
    = put3 (x_note check b v w).
  Proof.
    rewrite srun_bind, srun_with. unfold kp at 1. rewrite sr_closed. cbn [opn sclosed]. fold (opn v). fold (kp v w).
    rewrite srun_bind, sr_nl. unfold x_note. destruct (x_nl check v w) as [[[[]|e|] v1] w1]; cbn [put3]; try reflexivity.
    rewrite sr_then, creq_kp. unfold x_post. cbn [fst snd put3]. unfold acked. destruct (reply _); reflexivity.
  Qed.
  Lemma sr_eof v w : crun (hm_send_eof M) (kp v w) = put3 (x_note true body_close v w).
  Proof. apply sr_note. Qed.
  Lemma sr_error e v w : crun (hm_send_error M e) (kp v w) = put3 (x_note (negb (is_stop e)) (body_exc s_error e) v w).
  Proof. apply sr_note. Qed.
  Lemma sr_warning e v w : crun (hm_send_warning M e) (kp v w) = put3 (x_note true (body_exc s_warning e) v w).
  Proof. apply sr_note. Qed.

  (** [close]: closed in the end if the message could be sent. *)
  Definition cls : sio := mksio [] 0 true.
  Definition x_close (exc : option excobj) (v : text) (w : world) : outcome unit * text * world :=
    match exc with
    | None => x_note true body_close v w
    | Some e => x_note (negb (is_stop e)) (body_exc s_error e) v w
    end.
  Lemma sr_close exc v w :
    crun (hm_close M exc) (kp v w) =
    match x_close exc v w with
    | (Good _, v', w') => (Good tt, mset J cls w')
    | r => put3 r
    end.
  Proof.
    unfold hm_close. rewrite srun_bind, srun_with. unfold kp at 1. rewrite sr_closed. cbn [opn sclosed]. fold (opn v). fold (kp v w).
    rewrite srun_bind.
    replace (crun (match exc with None => hm_send_eof M | Some e => hm_send_error M e end) (kp v w)) with (put3 (x_close exc v w)).
    2: { destruct exc; symmetry; [apply sr_error|apply sr_eof]. }
    destruct (x_close exc v w) as [[[[]|e|] v1] w1]; cbn [put3]; try reflexivity.
    unfold hm_clear. rewrite srun_bind, srun_with, sr_empty, srun_with. unfold kp.
    rewrite (sr_mir _ sio_close) by reflexivity. reflexivity.
  Qed.
End Env.
