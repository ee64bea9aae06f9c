(** * HostCliConc: several clients at the same time (C54) *)
From stdpp Require Import gmap.
From Coq Require Import String.
From Coq Require Import List NArith ZArith Bool Arith Lia Sorted.
From Verif Require Import PyStr Prog ProgFacts PyIO Base Spec SpecFacts LineBuf LineBufFacts LineBufSpec LineBufProofs
  Locks Atomic Serial Conc Json Host HostSpec HostFacts HostProofs HostCli JsonSpec JsonFacts ProcFacts ProcTransp HostCliSpec HostCliFacts HostCliProofs.
Import ListNotations.
Local Open Scope prog_scope.
Local Open Scope nat_scope.

Lemma serialize_inj a b : serialize a = serialize b -> a = b.
Proof. destruct a, b. unfold serialize. cbn. intros H. injection H as -> ->. reflexivity. Qed.
Lemma body_msg_fun b x y : body_msg b x -> body_msg b y -> x = y.
Proof.
  assert (Hexc : forall (e e' : excobj) error, serialize (gm_init (GMExc e)) = serialize (gm_init (GMExc e')) ->
            says_exc error e = says_exc error e').
  { intros e e' error H. unfold says_exc. f_equal. f_equal. apply serialize_inj, H. }
  assert (Hb : forall kind e e', body_exc kind e = body_exc kind e' -> serialize (gm_init (GMExc e)) = serialize (gm_init (GMExc e'))).
  { intros kind e e' H. exact (f_equal (fun b => match b with JObj [_; (_, v)] => v | _ => JNull end) H). }
  intros H H'. destruct H as [s| |e|e].
  - remember (body_str s) as b eqn:Eb. destruct H'; try discriminate Eb. injection Eb as ->. reflexivity.
  - remember body_close as b eqn:Eb. destruct H'; try discriminate Eb. reflexivity.
  - remember (body_exc s_error e) as b eqn:Eb. destruct H'; try discriminate Eb. apply Hexc. symmetry. apply (Hb s_error), Eb.
  - remember (body_exc s_warning e) as b eqn:Eb. destruct H'; try discriminate Eb. apply Hexc. symmetry. apply (Hb s_warning), Eb.
Qed.

(** ** What one thread can do, whatever the others do *)
Section Wp.
  Variable M : hmir.
  Notation J := (hm_id M).

  (** The commands of a thread whose mirror is [M]. *)
  Definition allowed {X} (c : ccmd X) : Prop :=
    match c with
    | MClosed j | MTell j | MGetvalue j | MPut j _ | MSeek0 j | MTruncate0 j | MClose j | MFlush j => j = J
    | CReq (PostMsg (BJson b)) => exists o, body_msg b o
    | CReq (GetMsg _) | CReq (GetState _) => True
    | CReq _ => False
    end.
  (** Messages, result and new buffer of a command. *)
  Definition may {X} (c : ccmd X) : sio -> list hmsg -> outcome X -> sio -> Prop :=
    match c in ccmd X return sio -> list hmsg -> outcome X -> sio -> Prop with
    | MClosed _ => fun f ms o f' => ms = [] /\ (o, f') = sio_closed f
    | MTell _ => fun f ms o f' => ms = [] /\ (o, f') = sio_tell f
    | MGetvalue _ => fun f ms o f' => ms = [] /\ (o, f') = sio_getvalue f
    | MPut _ s => fun f ms o f' => ms = [] /\ (o, f') = sio_write s f
    | MSeek0 _ => fun f ms o f' => ms = [] /\ (o, f') = sio_seek0 f
    | MTruncate0 _ => fun f ms o f' => ms = [] /\ (o, f') = sio_truncate0 f
    | MClose _ => fun f ms o f' => ms = [] /\ (o, f') = sio_close f
    | MFlush _ => fun f ms o f' => ms = [] /\ (o, f') = sio_flush f
    | CReq r => fun f ms o f' => f' = f /\
        match r with
        | PostMsg (BJson b) => exists x, body_msg b x /\ ms = [x] /\ o = Good (201, ok_body)
        | _ => ms = [] /\ (r = GetState (Some k_closed) -> o = Good (200, flag_body false)) /\ exists a, o = Good a
        end
    end.

  Fixpoint wp {A} (p : prog ccmd A) (n : nat) (f : sio) (Q : list hmsg -> outcome A -> nat -> sio -> Prop) : Prop :=
    match p with
    | Ret a => Q [] (Good a) n f
    | Raise e => Q [] (Fail e) n f
    | Act c k h =>
        match c in cmd _ X return (X -> prog ccmd A) -> (X -> nat -> sio -> (list hmsg -> outcome A -> nat -> sio -> Prop) -> Prop) ->
          (exn -> nat -> sio -> (list hmsg -> outcome A -> nat -> sio -> Prop) -> Prop) -> Prop with
        | Acq l m => fun _ wk _ => l = hm_lock M /\ m = Ex /\ wk tt (S n) f Q
        | Rel l => fun _ wk _ => l = hm_lock M /\ exists n', n = S n' /\ wk tt n' f Q
        | Op c => fun _ wk wh => allowed c /\
            forall ms o f', may c f ms o f' ->
            match o with
            | Good x => wk x n f' (fun ms' => Q (ms ++ ms'))
            | Fail e => wh e n f' (fun ms' => Q (ms ++ ms'))
            | Block => False
            end
        end k (fun x => wp (k x)) (fun e => wp (h e))
    end.

  Lemma wp_mono {A} (p : prog ccmd A) : forall n f (Q Q' : list hmsg -> outcome A -> nat -> sio -> Prop),
    (forall ms o n' f', Q ms o n' f' -> Q' ms o n' f') -> wp p n f Q -> wp p n f Q'.
  Proof.
    induction p as [a|e|X c k IHk h IHh]; intros n f Q Q' HQ H; [apply HQ, H|apply HQ, H|].
    destruct c as [l m|l|X c]; cbn [wp] in *.
    - destruct H as (H1 & H2 & H3). split; [exact H1|]. split; [exact H2|]. eapply IHk; eassumption.
    - destruct H as (H1 & n' & H2 & H3). split; [exact H1|]. exists n'. split; [exact H2|]. eapply IHk; eassumption.
    - destruct H as [H1 H2]. split; [exact H1|]. intros ms o f' Hm. specialize (H2 ms o f' Hm).
      destruct o; [eapply IHk|eapply IHh|exact H2]; try exact H2; cbn; auto.
  Qed.

  Definition bind_post {A B} (k : A -> prog ccmd B) (Q : list hmsg -> outcome B -> nat -> sio -> Prop)
    (ms : list hmsg) (o : outcome A) (n : nat) (f : sio) : Prop :=
    match o with
    | Good a => wp (k a) n f (fun ms' => Q (ms ++ ms'))
    | Fail e => Q ms (Fail e) n f
    | Block => False
    end.
  Lemma wp_bind {A B} (p : prog ccmd A) (k : A -> prog ccmd B) : forall n f Q,
    wp p n f (bind_post k Q) -> wp (bind p k) n f Q.
  Proof.
    induction p as [a|e|X c k' IHk h IHh]; intros n f Q H; [exact H|exact H|].
    destruct c as [l m|l|X c]; cbn [wp bind] in *.
    - destruct H as (H1 & H2 & H3). split; [exact H1|]. split; [exact H2|]. apply IHk, H3.
    - destruct H as (H1 & n' & H2 & H3). split; [exact H1|]. exists n'. split; [exact H2|]. apply IHk, H3.
    - destruct H as [H1 H2]. split; [exact H1|]. intros ms o f' Hm. specialize (H2 ms o f' Hm).
      assert (Ha : forall (q : prog ccmd A), wp q n f' (fun ms' => bind_post k Q (ms ++ ms')) ->
                   wp q n f' (bind_post k (fun ms' => Q (ms ++ ms')))).
      { intros q. apply wp_mono. intros ms1 o1 n1 f1 H3. destruct o1 as [a|e|]; cbn in *; auto.
        eapply wp_mono; [|exact H3]. cbn. intros ms2 o2 n2 f2 H4. rewrite app_assoc. exact H4. }
      destruct o as [x|e|]; [apply IHk, Ha, H2|apply IHh, Ha, H2|exact H2].
  Qed.

  Definition at_end {A} (Q : list hmsg -> outcome A -> nat -> sio -> Prop) (n : nat) : list hmsg -> outcome A -> nat -> sio -> Prop :=
    fun ms o n' f' => n' = S n /\ match o with Block => False | _ => Q ms o n f' end.
  Lemma wp_try {A} (p : prog ccmd A) n0 : forall n f Q,
    wp p n f (at_end Q n0) -> wp (try_finally p (release (hm_lock M))) n f Q.
  Proof.
    induction p as [a|e|X c k' IHk h IHh]; intros n f Q H.
    - destruct H as [-> H]. cbn [try_finally release bind wp]. split; [reflexivity|]. exists n0. split; [reflexivity|exact H].
    - destruct H as [-> H]. cbn [try_finally release bind wp]. split; [reflexivity|]. exists n0. split; [reflexivity|exact H].
    - destruct c as [l m|l|X c]; cbn [wp try_finally] in *.
      + destruct H as (H1 & H2 & H3). split; [exact H1|]. split; [exact H2|]. apply IHk, H3.
      + destruct H as (H1 & n' & H2 & H3). split; [exact H1|]. exists n'. split; [exact H2|]. apply IHk, H3.
      + destruct H as [H1 H2]. split; [exact H1|]. intros ms o f' Hm. specialize (H2 ms o f' Hm).
        destruct o as [x|e|]; [apply IHk|apply IHh|exact H2]; eapply wp_mono; try exact H2; cbn; auto.
  Qed.
  Lemma wp_with {A} (p : prog ccmd A) n f Q :
    wp p (S n) f (at_end Q n) -> wp (with_lock (hm_lock M) Ex p) n f Q.
  Proof. intros H. cbn [with_lock wp]. split; [reflexivity|]. split; [reflexivity|]. apply wp_try with (n0 := n), H. Qed.

  Lemma wp_op {X} (c : ccmd X) n f Q : allowed c ->
    (forall ms o f', may c f ms o f' -> match o with Block => False | _ => Q ms o n f' end) -> wp (cop c) n f Q.
  Proof.
    intros Ha H. cbn [op wp]. split; [exact Ha|]. intros ms o f' Hm. specialize (H ms o f' Hm).
    destruct o; cbn [wp]; rewrite ?app_nil_r; exact H.
  Qed.
  Lemma wp_attempt {A} (p : prog ccmd A) : forall n f Q,
    wp p n f (fun ms o n' f' => o <> Block /\ Q ms (Good o) n' f') -> wp (attempt p) n f Q.
  Proof.
    induction p as [a|e|X c k' IHk h IHh]; intros n f Q H.
    - apply H.
    - apply H.
    - destruct c as [l m|l|X c]; cbn [wp attempt] in *.
      + destruct H as (H1 & H2 & H3). split; [exact H1|]. split; [exact H2|]. apply IHk, H3.
      + destruct H as (H1 & n' & H2 & H3). split; [exact H1|]. exists n'. split; [exact H2|]. apply IHk, H3.
      + destruct H as [H1 H2]. split; [exact H1|]. intros ms o f' Hm. specialize (H2 ms o f' Hm).
        destruct o as [x|e|]; [apply IHk|apply IHh|exact H2]; exact H2.
  Qed.

  (** ** The methods *)
  (** The buffer in a state of the mirror. *)
  Definition buf_is (x : option text) (f : sio) : Prop :=
    match x with Some v => f = opn v | None => sclosed f = true end.
  Definition calm (x : option text) : Prop := hm_aggr M = true -> match x with Some v => v = [] | None => True end.

  Lemma wp_closed n f (Q : list hmsg -> outcome bool -> nat -> sio -> Prop) :
    Q [] (Good (sclosed f)) n f -> wp (with_lock (hm_lock M) Ex (cop (MClosed J))) n f Q.
  Proof.
    intros H. apply wp_with, wp_op; [reflexivity|]. intros ms o f' [-> Hm]. injection Hm as -> ->. split; [reflexivity|exact H].
  Qed.
  Lemma wp_getclosed {A} n f (k : bool -> prog ccmd A) Q :
    wp (k (sclosed f)) n f Q -> wp (c <- with_lock (hm_lock M) Ex (cop (MClosed J)) ;; k c) n f Q.
  Proof. intros H. apply wp_bind, wp_closed. cbn. exact H. Qed.
  Lemma wp_post {A} body x (k : option json -> prog ccmd A) n f Q : body_msg body x ->
    wp (k ok_body) n f (fun ms => Q (x :: ms)) -> wp (request_then (PostMsg (BJson body)) k) n f Q.
  Proof.
    intros Hb H. unfold request_then. apply wp_bind, wp_op; [exists x; exact Hb|].
    intros ms o f' (-> & x' & Hb' & -> & ->). assert (x' = x) by exact (body_msg_fun _ _ _ Hb' Hb). subst x'. exact H.
  Qed.
  Lemma wp_flag {A} (k : option json -> prog ccmd A) n f Q :
    wp (k (flag_body false)) n f Q -> wp (request_then (GetState (Some k_closed)) k) n f Q.
  Proof.
    intros H. unfold request_then. apply wp_bind, wp_op; [exact I|].
    intros ms o f' (-> & -> & Ho & _). rewrite (Ho eq_refl). exact H.
  Qed.
  Lemma wp_get {A} r (k : option json -> prog ccmd A) n f Q :
    match r with GetMsg _ | GetState _ => True | _ => False end ->
    (forall b, wp (k b) n f Q) -> (forall e, Q [] (Fail e) n f) -> wp (request_then r k) n f Q.
  Proof.
    intros Hr H He. unfold request_then.
    assert (Hall : allowed (CReq r)) by (destruct r; try contradiction; exact I).
    apply wp_bind, wp_op; [exact Hall|]. intros ms o f' [-> Hm].
    assert (Hx : ms = [] /\ exists a, o = Good a) by (destruct r; try contradiction; destruct Hm as (-> & _ & Ha); auto).
    destruct Hx as [-> [[code b] ->]]. cbn [bind_post fst snd]. destruct (code <? 400); [apply H|].
    unfold raise_answer, json_load. destruct b as [[]|]; apply He.
  Qed.

  Lemma wp_send_data v data n (Q : list hmsg -> outcome unit -> nat -> sio -> Prop) :
    Q [says_text data] (Good tt) n (opn v) -> wp (hm_send_data M data) n (opn v) Q.
  Proof. intros H. unfold hm_send_data. apply wp_getclosed. cbn [opn sclosed]. apply (wp_post _ _ _ _ _ _ (bm_text data)). exact H. Qed.
  Lemma wp_check v n (Q : list hmsg -> outcome unit -> nat -> sio -> Prop) :
    Q [] (Good tt) n (opn v) -> wp (hm_check_states M) n (opn v) Q.
  Proof.
    intros H. unfold hm_check_states. apply wp_getclosed. cbn [opn sclosed]. apply wp_bind, wp_flag. exact H.
  Qed.

  (** messages of write(data) *)
  Definition says_write (data v : text) : list hmsg * text :=
    if hm_aggr M then ([says_text data], v)
    else if has_break data then ([says_text (v ++ data)], []) else ([], v ++ data).
  Lemma wp_body check data v n (Q : list hmsg -> outcome nat -> nat -> sio -> Prop) :
    Q (fst (says_write data v)) (Good (length data)) n (opn (snd (says_write data v))) ->
    wp (hm_write_body M check data) n (opn v) Q.
  Proof.
    intros H. unfold hm_write_body. apply wp_bind.
    assert (Hk : bind_post (fun _ : unit => let message_lines := splitlines data in
      if hm_aggr M then hm_send_data M data ;; Ret (length data)
      else let n_lines := length message_lines in
        if (1 <? n_lines) || ((n_lines =? 1) && text_eqb (hd [] message_lines) []) || is_end_line_break data
        then res <- cop (MPut J data) ;; v0 <- cop (MGetvalue J) ;; hm_send_data M v0 ;; cop (MSeek0 J) ;; cop (MTruncate0 J) ;; Ret res
        else if n_lines =? 1 then cop (MPut J data) else Ret 0) Q [] (Good tt) n (opn v)).
    2: { destruct check; [apply wp_check; exact Hk|exact Hk]. }
    cbn [bind_post]. cbv zeta. unfold says_write in H. destruct (hm_aggr M).
    - apply wp_bind, wp_send_data. cbn. exact H.
    - rewrite trigger_break. destruct (has_break data) eqn:Hb.
      + apply wp_bind, wp_op; [reflexivity|]. intros ms o f' [-> Hm]. rewrite sio_put in Hm. injection Hm as -> ->. cbn [bind_post].
        apply wp_bind, wp_op; [reflexivity|]. intros ms o f' [-> Hm]. injection Hm as -> ->. cbn [bind_post sval].
        apply wp_bind, wp_send_data. cbn [bind_post].
        apply wp_bind, wp_op; [reflexivity|]. intros ms o f' [-> Hm]. injection Hm as -> ->. cbn [bind_post].
        apply wp_bind, wp_op; [reflexivity|]. intros ms o f' [-> Hm]. injection Hm as -> ->. cbn [bind_post wp].
        exact H.
      + destruct (no_break_lines data Hb) as [N1 N2]. destruct data as [|c data].
        * rewrite N2 by reflexivity. cbn [wp]. cbn in H. rewrite app_nil_r in H. exact H.
        * rewrite N1 by discriminate. apply wp_op; [reflexivity|]. intros ms o f' [-> Hm]. rewrite sio_put in Hm. injection Hm as -> ->. exact H.
  Qed.
  Lemma wp_nl check v n (Q : list hmsg -> outcome unit -> nat -> sio -> Prop) : calm (Some v) ->
    Q (says_line v) (Good tt) n (opn []) -> wp (hm_new_line M check) n (opn v) Q.
  Proof.
    intros Hc H. unfold hm_new_line. apply wp_with, wp_bind, wp_op; [reflexivity|]. intros ms o f' [-> Hm]. injection Hm as -> ->.
    cbn [bind_post]. destruct v as [|c v].
    - cbn. split; [reflexivity|exact H].
    - cbn [opn spos length Nat.ltb Nat.leb]. apply wp_bind, wp_body. cbn [bind_post wp]. unfold says_write.
      destruct (hm_aggr M) eqn:Ea; [discriminate (Hc Ea)|]. change (has_break [LF]) with true. cbn [fst snd app].
      split; [reflexivity|exact H].
  Qed.
  Lemma wp_note check body x v n (Q : list hmsg -> outcome unit -> nat -> sio -> Prop) : calm (Some v) -> body_msg body x ->
    Q (says_line v ++ [x]) (Good tt) n (opn []) ->
    wp (c <- with_lock (hm_lock M) Ex (cop (MClosed J)) ;;
          if c then Ret tt else hm_new_line M check ;; request_then (PostMsg (BJson body)) (fun _ => Ret tt)) n (opn v) Q.
  Proof.
    intros Hc Hb H. apply wp_getclosed. cbn [opn sclosed]. apply wp_bind, wp_nl; [exact Hc|].
    cbn [bind_post]. apply (wp_post _ _ _ _ _ _ Hb). cbn [wp]. exact H.
  Qed.
  Lemma wp_clear v n (Q : list hmsg -> outcome unit -> nat -> sio -> Prop) :
    Q [] (Good tt) n (opn []) -> wp (hm_clear M) n (opn v) Q.
  Proof.
    intros H. unfold hm_clear. apply wp_with, wp_bind, wp_op; [reflexivity|]. intros ms o f' [-> Hm]. injection Hm as -> ->.
    cbn [bind_post]. apply wp_op; [reflexivity|]. intros ms o f' [-> Hm]. injection Hm as -> ->. split; [reflexivity|exact H].
  Qed.
  Lemma wp_close exc v n (Q : list hmsg -> outcome unit -> nat -> sio -> Prop) : calm (Some v) ->
    Q (says_line v ++ [close_says exc]) (Good tt) n cls -> wp (hm_close M exc) n (opn v) Q.
  Proof.
    intros Hc H. unfold hm_close. apply wp_getclosed. cbn [opn sclosed]. apply wp_bind.
    assert (Hk : bind_post (fun _ : unit => hm_clear M ;; with_lock (hm_lock M) Ex (cop (MClose J))) Q (says_line v ++ [close_says exc]) (Good tt) n (opn [])).
    { cbn [bind_post]. apply wp_bind, wp_clear. cbn [bind_post]. apply wp_with, wp_op; [reflexivity|].
      intros ms o f' [-> Hm]. injection Hm as -> ->. split; [reflexivity|]. rewrite !app_nil_r. exact H. }
    destruct exc as [e|].
    - apply wp_note with (x := says_exc true e); [exact Hc|constructor|exact Hk].
    - apply wp_note with (x := HEof); [exact Hc|constructor|exact Hk].
  Qed.

  Lemma wp_write data v n (Q : list hmsg -> outcome nat -> nat -> sio -> Prop) :
    Q (fst (says_write data v)) (Good (length data)) n (opn (snd (says_write data v))) -> wp (hm_write M data) n (opn v) Q.
  Proof.
    intros H. unfold hm_write. apply wp_bind. unfold hm_writable. apply wp_with, wp_bind, wp_op; [reflexivity|]. intros ms o f' [-> Hm].
    injection Hm as -> ->. cbn [bind_post wp opn sclosed negb app]. split; [reflexivity|]. cbn [bind_post negb].
    apply wp_with, wp_body. split; [reflexivity|]. exact H.
  Qed.
  Lemma says_write_does data v : mcall_does (hm_aggr M) (HWrite data) (Some v) (fst (says_write data v)) (Good (CNat (length data))) (Some (snd (says_write data v))).
  Proof.
    unfold says_write. destruct (hm_aggr M) eqn:Ea; cbn [fst snd app]; [apply md_at_once; reflexivity|].
    destruct (has_break data) eqn:Hb; cbn [fst snd app].
    - apply md_send; [reflexivity|]. apply has_break_true, Hb.
    - apply md_hold; [reflexivity|]. apply has_break_iff, Hb.
  Qed.
  Lemma says_write_calm data v : calm (Some v) -> calm (Some (snd (says_write data v))).
  Proof. intros Hc Ha. unfold says_write. rewrite Ha. apply Hc, Ha. Qed.
  Lemma wp_write_closed data f n (Q : list hmsg -> outcome nat -> nat -> sio -> Prop) : sclosed f = true ->
    Q [] (Fail OSError) n f -> wp (hm_write M data) n f Q.
  Proof.
    intros Hf H. unfold hm_write. apply wp_bind. unfold hm_writable. apply wp_with, wp_bind, wp_op; [reflexivity|]. intros ms o f' [-> Hm].
    injection Hm as -> ->. cbn [bind_post wp app]. rewrite Hf. split; [reflexivity|]. exact H.
  Qed.
  Lemma wp_close_closed exc f n (Q : list hmsg -> outcome unit -> nat -> sio -> Prop) : sclosed f = true ->
    Q [] (Good tt) n f -> wp (hm_close M exc) n f Q.
  Proof. intros Hf H. unfold hm_close. apply wp_getclosed. rewrite Hf. exact H. Qed.

  (** [Q] of a call that does what it should. *)
  Definition call_post (c : mcall) (x : option text) (n : nat) : list hmsg -> outcome cres -> nat -> sio -> Prop :=
    fun ms o n' f' => n' = n /\ exists x', mcall_does (hm_aggr M) c x ms o x' /\ buf_is x' f' /\ calm x' /\ o <> Block.

  Lemma wp_as {X} (p : prog ccmd X) (g : X -> cres) n f Q :
    wp p n f (fun ms o n' f' => match o with Good x => Q ms (Good (g x)) n' f' | Fail e => Q ms (Fail e) n' f' | Block => False end) ->
    wp (as_cres g p) n f Q.
  Proof.
    intros H. unfold as_cres. apply wp_bind. eapply wp_mono; [|exact H]. intros ms o n' f' Hq. destruct o; cbn [bind_post wp]; rewrite ?app_nil_r; exact Hq.
  Qed.
  Ltac ok x := split; [reflexivity|]; exists x; split; [|split; [reflexivity|split; [|discriminate]]].
  Lemma calm_some v : calm (Some v) -> hm_aggr M = true -> v = [].
  Proof. intros H. exact H. Qed.
  Lemma calm_nil : calm (Some []).
  Proof. intros _. reflexivity. Qed.
  Lemma calm_none : calm None.
  Proof. intros _. exact I. Qed.

  Lemma wp_mcall_open c v n : calm (Some v) -> wp (m_call M c) n (opn v) (call_post c (Some v) n).
  Proof.
    intros Hc. destruct c; cbn [m_call]; apply wp_as.
    - apply wp_write. ok (Some (snd (says_write data v))); [apply says_write_does|apply says_write_calm, Hc].
    - apply wp_nl; [exact Hc|]. ok (Some (@nil N)); [constructor|apply calm_nil].
    - apply wp_note with (x := HEof); [exact Hc|constructor|]. ok (Some (@nil N)); [constructor|apply calm_nil].
    - apply wp_note with (x := says_exc true e); [exact Hc|constructor|]. ok (Some (@nil N)); [constructor|apply calm_nil].
    - apply wp_note with (x := says_exc false e); [exact Hc|constructor|]. ok (Some (@nil N)); [constructor|apply calm_nil].
    - apply wp_send_data. ok (Some v); [constructor|exact Hc].
    - apply wp_check. ok (Some v); [constructor|exact Hc].
    - apply wp_clear. ok (Some (@nil N)); [constructor|apply calm_nil].
    - unfold hm_flush. apply wp_with, wp_op; [reflexivity|]. intros ms o f' [-> Hm]. injection Hm as -> ->. split; [reflexivity|].
      ok (Some v); [constructor|exact Hc].
    - unfold hm_read. apply wp_bind. unfold hm_readable. apply wp_with, wp_bind, wp_op; [reflexivity|]. intros ms o f' [-> Hm].
      injection Hm as -> ->. cbn [bind_post wp opn sclosed negb app]. split; [reflexivity|]. cbn [bind_post negb].
      apply wp_with, wp_op; [reflexivity|]. intros ms o f' [-> Hm]. injection Hm as -> ->. split; [reflexivity|].
      ok (Some v); [constructor|exact Hc].
    - apply wp_close; [exact Hc|]. split; [reflexivity|]. exists None. split; [|split; [reflexivity|split; [apply calm_none|discriminate]]].
      destruct exc; constructor.
    - apply wp_closed. ok (Some v); [constructor|exact Hc].
    - unfold hm_readable. apply wp_with, wp_bind, wp_op; [reflexivity|]. intros ms o f' [-> Hm]. injection Hm as -> ->.
      split; [reflexivity|]. ok (Some v); [constructor; auto|exact Hc].
    - unfold hm_writable. apply wp_with, wp_bind, wp_op; [reflexivity|]. intros ms o f' [-> Hm]. injection Hm as -> ->.
      split; [reflexivity|]. ok (Some v); [constructor; auto|exact Hc].
    - cbn. ok (Some v); [constructor; cbn; auto|exact Hc].
    - cbn. ok (Some v); [constructor; cbn; auto|exact Hc].
    - cbn. ok (Some v); [constructor; cbn; auto|exact Hc].
    - cbn. ok (Some v); [constructor; cbn; auto 6|exact Hc].
  Qed.

  Lemma wp_mcall_closed c f n : sclosed f = true -> wp (m_call M c) n f (call_post c None n).
  Proof.
    intros Hf.
    assert (Hok : forall r, mcall_does (hm_aggr M) c None [] r None -> r <> Block -> call_post c None n [] r n f).
    { intros r Hr Hb. split; [reflexivity|]. exists None. split; [exact Hr|]. split; [exact Hf|]. split; [apply calm_none|exact Hb]. }
    destruct c; cbn [m_call]; apply wp_as;
      try (apply wp_getclosed; rewrite Hf; cbn [wp]; apply Hok; [|discriminate]; constructor; cbn; eauto 10).
    - unfold hm_write. apply wp_bind. unfold hm_writable. apply wp_with, wp_bind, wp_op; [reflexivity|]. intros ms o f' [-> Hm].
      injection Hm as -> ->. cbn [bind_post wp app]. rewrite Hf. split; [reflexivity|]. cbn [bind_post negb wp app].
      apply Hok; [|discriminate]. constructor. eauto.
    - unfold hm_new_line. apply wp_with, wp_bind, wp_op; [reflexivity|]. intros ms o f' [-> Hm]. unfold sio_tell, sio_guard in Hm. rewrite Hf in Hm. injection Hm as -> ->.
      split; [reflexivity|]. apply Hok; [|discriminate]. constructor. eauto.
    - unfold hm_clear. apply wp_with, wp_bind, wp_op; [reflexivity|]. intros ms o f' [-> Hm]. unfold sio_seek0, sio_guard in Hm. rewrite Hf in Hm. injection Hm as -> ->.
      split; [reflexivity|]. apply Hok; [|discriminate]. constructor. eauto.
    - unfold hm_flush. apply wp_with, wp_op; [reflexivity|]. intros ms o f' [-> Hm]. injection Hm as -> ->.
      split; [reflexivity|]. apply Hok; [|discriminate]. apply md_nothing. cbn. auto.
    - unfold hm_read. apply wp_bind. unfold hm_readable. apply wp_with, wp_bind, wp_op; [reflexivity|]. intros ms o f' [-> Hm].
      injection Hm as -> ->. cbn [bind_post wp app]. rewrite Hf. split; [reflexivity|]. cbn [bind_post negb wp app].
      apply Hok; [|discriminate]. constructor. eauto.
    - apply wp_closed. rewrite Hf. apply Hok; [|discriminate]. constructor.
    - unfold hm_readable. apply wp_with, wp_bind, wp_op; [reflexivity|]. intros ms o f' [-> Hm]. injection Hm as -> ->.
      cbn [bind_post wp app]. rewrite Hf. split; [reflexivity|]. apply Hok; [|discriminate]. constructor; auto.
    - unfold hm_writable. apply wp_with, wp_bind, wp_op; [reflexivity|]. intros ms o f' [-> Hm]. injection Hm as -> ->.
      cbn [bind_post wp app]. rewrite Hf. split; [reflexivity|]. apply Hok; [|discriminate]. constructor; auto.
    - cbn. apply Hok; [|discriminate]. apply md_fixed; cbn; auto.
    - cbn. apply Hok; [|discriminate]. apply md_fixed; cbn; auto.
    - cbn. apply Hok; [|discriminate]. apply md_fixed; cbn; auto.
    - cbn. apply Hok; [|discriminate]. apply md_fixed; cbn; auto 6.
  Qed.
  Lemma wp_mcall c x f n : buf_is x f -> calm x -> wp (m_call M c) n f (call_post c x n).
  Proof. intros Hf Hc. destruct x as [v|]; cbn in Hf; [subst f; apply wp_mcall_open, Hc|apply wp_mcall_closed, Hf]. Qed.

  (** A whole thread. *)
  Lemma wp_thread cs : forall rs0 x f, buf_is x f -> calm x ->
    wp (thread_from rs0 (map (m_call M) cs)) 0 f
      (fun ms o n' f' => n' = 0 /\ exists rs x', mcalls_do (hm_aggr M) cs x ms rs x' /\ o = Good (rev rs0 ++ rs) /\ buf_is x' f').
  Proof.
    induction cs as [|c cs IH]; intros rs0 x f Hf Hc.
    - cbn. split; [reflexivity|]. exists [], x. split; [constructor|]. rewrite app_nil_r. auto.
    - cbn [map thread_from]. apply wp_bind, wp_attempt. eapply wp_mono; [|apply (wp_mcall c x f 0 Hf Hc)].
      intros ms o n' f' (-> & x' & H1 & H2 & H3 & H4). split; [exact H4|]. cbn [bind_post].
      eapply wp_mono; [|apply (IH (o :: rs0) x' f' H2 H3)]. cbn. intros ms' o' n' f'' (-> & rs & x'' & K1 & -> & K3).
      split; [reflexivity|]. exists (o :: rs), x''. split; [econstructor; eassumption|]. split; [|exact K3].
      rewrite <- app_assoc. reflexivity.
  Qed.

End Wp.

(** Some continuation always exists. *)
Lemma may_ex M {X} (c : ccmd X) f : allowed M c -> exists ms o f', may c f ms o f'.
Proof.
  destruct c as [j|j|j|j s|j|j|j|j|r]; intros Ha;
    try (match goal with |- context [may _ _] => idtac end; cbn [may];
         match goal with |- context [_ = ?rhs] => destruct rhs eqn:?; eexists [], _, _; split; reflexivity end).
  cbn [may]. destruct r as [[| |b]|n| |name|b|]; cbn in Ha; try contradiction.
  - destruct Ha as [x Hx]. exists [x], (Good (201, ok_body)), f. split; [reflexivity|]. exists x. auto.
  - exists [], (Good (200, ok_body)), f. split; [reflexivity|]. split; [reflexivity|]. split; [discriminate|]. eauto.
  - exists [], (Good (200, flag_body false)), f. split; [reflexivity|]. split; [reflexivity|]. split; [reflexivity|]. eauto.
Qed.
Lemma wp_ex M {A} (p : prog ccmd A) : forall n f Q, wp M p n f Q -> exists ms o n' f', Q ms o n' f'.
Proof.
  induction p as [a|e|X c k IHk h IHh]; intros n f Q H; [eauto|eauto|].
  destruct c as [l m|l|X c]; cbn [wp] in H.
  - destruct H as (_ & _ & H). eapply IHk, H.
  - destruct H as (_ & n' & _ & H). eapply IHk, H.
  - destruct H as [Ha H]. destruct (may_ex M c f Ha) as (ms & o & f' & Hm). specialize (H ms o f' Hm).
    destruct o as [x|e|]; [apply IHk in H|apply IHh in H|contradiction]; destruct H as (ms' & H); eauto.
Qed.

(** ** Readers *)

(** The program makes only reading requests; [Q] holds of the server states that answered
    and of the result. *)
Fixpoint quiet {A} (E : henv) (p : prog ccmd A) (Q : list hdata -> outcome A -> Prop) : Prop :=
  match p with
  | Ret a => Q [] (Good a)
  | Raise e => Q [] (Fail e)
  | Act c k h =>
      match c in cmd _ X return (hdata -> X -> Prop) -> Prop with
      | Acq _ _ | Rel _ => fun _ => False
      | Op c => match c in ccmd X return (hdata -> X -> Prop) -> Prop with
                | CReq r => fun wk => match r with GetMsg _ | GetState _ => True | _ => False end /\ forall d, wk d (fst (serve E r d))
                | _ => fun _ => False
                end
      end (fun d x => quiet E (k x) (fun ds => Q (d :: ds)))
  end.
Section Quiet.
  Variable E : henv.
  #[local] Hint Extern 0 (Sem ccmd world) => exact (clisem E) : typeclass_instances.
  Lemma quiet_mono {A} (p : prog ccmd A) : forall (Q Q' : list hdata -> outcome A -> Prop), (forall ds o, Q ds o -> Q' ds o) -> quiet E p Q -> quiet E p Q'.
  Proof.
    induction p as [a|e|X c k IHk h IHh]; intros Q Q' HQ H; [apply HQ, H|apply HQ, H|].
    destruct c as [l m|l|X c]; [exact H|exact H|]. destruct c as [j|j|j|j s|j|j|j|j|r]; try exact H.
    destruct H as [H1 H2]. split; [exact H1|]. intros d. eapply IHk; [|apply H2]. intros ds o. apply HQ.
  Qed.
  Lemma quiet_bind {A B} (p : prog ccmd A) (k : A -> prog ccmd B) : forall Q,
    quiet E p (fun ds o => match o with Good a => quiet E (k a) (fun ds' => Q (ds ++ ds')) | Fail e => Q ds (Fail e) | Block => False end) ->
    quiet E (bind p k) Q.
  Proof.
    induction p as [a|e|X c k' IHk h IHh]; intros Q H; [exact H|exact H|].
    destruct c as [l m|l|X c]; [exact H|exact H|]. destruct c as [j|j|j|j s|j|j|j|j|r]; try exact H.
    destruct H as [H1 H2]. split; [exact H1|]. intros d. apply IHk, H2.
  Qed.
  Lemma quiet_attempt {A} (p : prog ccmd A) : forall Q,
    quiet E p (fun ds o => o <> Block /\ Q ds (Good o)) -> quiet E (attempt p) Q.
  Proof.
    induction p as [a|e|X c k' IHk h IHh]; intros Q H; [apply H|apply H|].
    destruct c as [l m|l|X c]; [exact H|exact H|]. destruct c as [j|j|j|j s|j|j|j|j|r]; try exact H.
    destruct H as [H1 H2]. split; [exact H1|]. intros d. apply IHk, H2.
  Qed.
  (** One request, and what it means if it is the only one. *)
  Lemma quiet_one {A} r (k : nat * option json -> prog ccmd A) h :
    match r with GetMsg _ | GetState _ => True | _ => False end -> (forall a, finished (k a) = true) ->
    quiet E (Act (Op (CReq r)) k h) (fun ds o => o <> Block /\ exists d, ds = [d] /\
      forall mirs, fst (srun (Act (Op (CReq r)) k h) (mkworld d mirs [] : world)) = o).
  Proof.
    intros Hr Hk. split; [exact Hr|]. intros d. specialize (Hk (fst (serve E r d))).
    assert (Hs : forall mirs, exists w, srun (Act (Op (CReq r)) k h) (mkworld d mirs [] : world) = srun (k (fst (serve E r d))) w).
    { intros mirs. pose proof (creq_up E r (mkworld d mirs []) eq_refl) as H. eexists.
      cbn [srun sexec]. change (creq E r (mkworld d mirs [])) with (@cexec ccmd world (clisem E) _ (CReq r) (mkworld d mirs [])) in H. rewrite H. reflexivity. }
    destruct (k (fst (serve E r d))) as [a|e|]; [| |discriminate]; (split; [discriminate|]; exists d; split; [reflexivity|]; intros mirs; destruct (Hs mirs) as [w ->]; reflexivity).
  Qed.
  Lemma quiet_rcall c : reading c -> quiet E (r_call c) (fun ds o => o <> Block /\ exists d, ds = [d] /\
      forall mirs, fst (srun (r_call c) (mkworld d mirs [] : world)) = o).
  Proof.
    intros Hc.
    assert (Hra : forall A b, finished (raise_answer (A := A) b) = true) by (intros A b; destruct b as [[]|]; reflexivity).
    assert (Hfb : forall A B (p : prog ccmd A) (k : A -> prog ccmd B), finished p = true -> (forall a, finished (k a) = true) -> finished (bind p k) = true).
    { intros A B p k H1 H2. destruct p; [apply H2|reflexivity|discriminate]. }
    assert (Hjl : forall b, finished (json_load b) = true) by (intros [b|]; reflexivity).
    assert (Hix : forall k v, finished (index k v) = true).
    { intros k v. unfold index. destruct v as [| | | | |fs]; try reflexivity. destruct (jget k fs); reflexivity. }
    assert (Hof : forall A (o : outcome A), o <> Block -> finished (of_out' o) = true) by (intros A [a|e|] H; [reflexivity|reflexivity|congruence]).
    destruct c; try contradiction; cbn [r_call]; unfold as_cres, rd_read, rd_get_states, request_then; cbn [bind op];
      (apply quiet_one; [exact I|]); intros [code b]; cbn [fst snd]; (apply Hfb; [|reflexivity]); (destruct (code <? 400); [|apply Hra]).
    all: apply Hfb; [apply Hjl|]; intros v; try apply Hix.
    apply Hfb; [apply Hix|]. intros v'. apply Hfb; [apply Hof; destruct v'; discriminate|]. intros l. apply Hof.
    clear. induction l as [|v l IH]; [discriminate|]. cbn [deserialize_all].
    destruct (match v with JStr s => _ | _ => _ end) eqn:E1; try discriminate; [destruct (deserialize_all l); congruence|].
    destruct v as [| | | | |fs]; try discriminate. exfalso. unfold deserialize in E1. destruct (negb _); [discriminate|].
    destruct (jget k_type fs); [|discriminate]. destruct (jget k_data fs) as [da|]; [|discriminate]. destruct da; discriminate.
  Qed.
  (** Calls of a reader: each one returns what it returns alone, on the server state that
      answered it. *)
  Inductive answered : list rcall -> list hdata -> list (outcome cres) -> Prop :=
  | an_nil : answered [] [] []
  | an_cons c cs d ds r rs : (forall mirs, fst (srun (r_call c) (mkworld d mirs [] : world)) = r) -> answered cs ds rs -> answered (c :: cs) (d :: ds) (r :: rs).
  Lemma quiet_thread cs : Forall reading cs -> forall rs0,
    quiet E (thread_from rs0 (map r_call cs)) (fun ds o => exists rs, o = Good (rev rs0 ++ rs) /\ answered cs ds rs).
  Proof.
    induction 1 as [|c cs Hc _ IH]; intros rs0.
    - exists []. rewrite app_nil_r. split; [reflexivity|constructor].
    - cbn [map thread_from]. apply quiet_bind, quiet_attempt. eapply quiet_mono; [|apply (quiet_rcall c Hc)].
      intros ds o (Ho & d & -> & Hd). split; [exact Ho|]. eapply quiet_mono; [|apply (IH (o :: rs0))]. intros ds' o' (rs & -> & Hl).
      exists (o :: rs). split; [cbn [rev]; rewrite <- app_assoc; reflexivity|]. constructor; assumption.
  Qed.
End Quiet.

(** ** Requests that change nothing *)
Lemma get_state_same E m d g b name : 1 <= m -> server E m d g b -> snd (srun (handle E (GetState name)) d) = d.
Proof.
  intros Hm Hs. destruct (server_abs E m d g b Hm Hs) as (sd & -> & _). cbn [handle]. unfold s_get.
  destruct (strip _) as [|c l]; [reflexivity|]. destruct (text_eqb (c :: l) k_curlen).
  - sr. rewrite sr_len; [reflexivity|]. apply absg_ok; exact Hm.
  - sr. rewrite srun_op. reflexivity.
Qed.
Lemma get_msg_same E m d g b n : 1 <= m -> server E m d g b -> snd (srun (handle E (GetMsg n)) d) = d.
Proof.
  intros Hm Hs. pose proof (get_same E m _ n Hm (srv_served _ _ _ _ _ Hs) 0) as H. rewrite run_handle in H.
  exact (f_equal dat H).
Qed.
Lemma serve_same E m d g b r : 1 <= m -> server E m d g b -> match r with GetMsg _ | GetState _ => True | _ => False end ->
  snd (serve E r d) = d.
Proof.
  intros Hm Hs Hr. unfold serve. destruct r; try contradiction; cbn [wire_req].
  - pose proof (get_msg_same E m d g b n Hm Hs) as H. destruct (srun _ d). exact H.
  - pose proof (get_state_same E m d g b name Hm Hs) as H. destruct (srun _ d). exact H.
Qed.

(** ** The pool *)

(** Threads in general: [who[i]] is the mirror of thread [i], if it has one. *)
Definition mirrors_in (who : list (option hmir)) : list hmir :=
  flat_map (fun x => match x with Some M => [M] | None => [] end) who.
Definition who_ok (who : list (option hmir)) : Prop :=
  NoDup (map hm_id (mirrors_in who)) /\ NoDup (map hm_lock (mirrors_in who)) /\ Forall has_rlock (mirrors_in who).
Lemma nodup_mirrors {Y} (f : hmir -> Y) ws i j M M' : NoDup (map f (mirrors_in ws)) ->
  ws !! i = Some (Some M) -> ws !! j = Some (Some M') -> i <> j -> f M <> f M'.
Proof.
  revert i j. induction ws as [|x ws IH]; intros i j Hn Hi Hj Hij; [discriminate|].
  assert (Hin : forall k M, ws !! k = Some (Some M) -> In (f M) (map f (mirrors_in ws))).
  { intros k M0 Hk. apply in_map. unfold mirrors_in. apply in_flat_map. exists (Some M0).
    split; [eapply elem_of_list_In, elem_of_list_lookup_2, Hk|left; reflexivity]. }
  destruct i as [|i], j as [|j]; cbn in Hi, Hj.
  - congruence.
  - injection Hi as ->. cbn in Hn. apply List.NoDup_cons_iff in Hn. destruct Hn as [Hn _]. intros E. apply Hn. rewrite E. eapply Hin, Hj.
  - injection Hj as ->. cbn in Hn. apply List.NoDup_cons_iff in Hn. destruct Hn as [Hn _]. intros E. apply Hn. rewrite <- E. eapply Hin, Hi.
  - eapply IH; eauto. destruct x as [M0|]; [|exact Hn]. cbn in Hn. apply List.NoDup_cons_iff in Hn. apply Hn.
Qed.

Section Pool.
  Variable E : henv.
  Variable m : nat.
  Hypothesis Hm : 1 <= m.
  Context {R : Type}.
  Variable ws : list (option hmir).
  Hypothesis Hws : who_ok ws.
  Variable post : nat -> list hmsg -> outcome R -> sio -> Prop.   (* what a thread with a mirror has done in the end *)
  Variable rpost : nat -> list hdata -> outcome R -> Prop.        (* what a thread that only reads has seen, and its result *)
  Variable g0 : slog.
  #[local] Hint Extern 0 (Sem ccmd world) => exact (clisem E) : typeclass_instances.

  Definition post_of (i : nat) (od : list (nat * hmsg)) : list hmsg -> outcome R -> nat -> sio -> Prop :=
    fun ms o n' f' => n' = 0 /\ post i (events_of i od ++ ms) o f'.
  Definition lock_is (i n : nat) : option lockst := match n with 0 => None | S _ => Some (Excl i n) end.
  (** What the readers saw: who, after how many messages, and the state of the server. *)
  Notation sight := (nat * (nat * hdata))%type.
  Definition seen_by (i : nat) (sn : list sight) : list hdata := map snd (events_of i sn).
  Definition sight_ok (od : list (nat * hmsg)) (x : nat * hdata) : Prop :=
    fst x <= length od /\ exists g, hmsg_steps E (map snd (firstn (fst x) od)) g0 g /\ server E m (snd x) g false.
  Definition rpost_of (i : nat) (sn : list sight) : list hdata -> outcome R -> Prop := fun ds => rpost i (seen_by i sn ++ ds).
  Definition thread_inv (od : list (nat * hmsg)) (sn : list sight) (s : st world) (i : nat) (p : prog ccmd R) (x : option hmir) : Prop :=
    match x with
    | Some M => exists n f, wp M p n f (post_of i od) /\ w_mir (dat s) !! hm_id M = Some f /\ lks s !! hm_lock M = lock_is i n
    | None => quiet E p (rpost_of i sn)
    end.
  Record pinv (od : list (nat * hmsg)) (sn : list sight) (ps : list (prog ccmd R)) (s : st world) : Prop := {
    pi_len : length ps = length ws;
    pi_srv : exists g, hmsg_steps E (map snd od) g0 g /\ server E m (w_srv (dat s)) g false;
    pi_up : up (dat s);
    pi_thr : forall i p x, ps !! i = Some p -> ws !! i = Some x -> thread_inv od sn s i p x;
    pi_seen : Forall (fun x => sight_ok od (snd x)) sn /\ StronglySorted le (map (fun x => fst (snd x)) sn);
    pi_dom : forall i o, In (i, o) od -> exists M, ws !! i = Some (Some M);
    pi_lks : forall l, lks s !! l <> None -> exists i M, ws !! i = Some (Some M) /\ l = hm_lock M
  }.

  Lemma own_rlock i M : ws !! i = Some (Some M) -> has_rlock M.
  Proof.
    intros H. destruct Hws as (_ & _ & Hr). apply (proj1 (List.Forall_forall _ _) Hr). unfold mirrors_in. apply in_flat_map.
    exists (Some M). split; [eapply elem_of_list_In, elem_of_list_lookup_2, H|left; reflexivity].
  Qed.
  Lemma own_id i j M M' : ws !! i = Some (Some M) -> ws !! j = Some (Some M') -> i <> j -> hm_id M <> hm_id M'.
  Proof. intros. eapply (nodup_mirrors hm_id); eauto. apply Hws. Qed.
  Lemma own_lock i j M M' : ws !! i = Some (Some M) -> ws !! j = Some (Some M') -> i <> j -> hm_lock M <> hm_lock M'.
  Proof. intros. eapply (nodup_mirrors hm_lock); eauto. apply Hws. Qed.

  Lemma acq_own i n l k : reent l = true -> k !! l = lock_is i n -> lock_acq (reent l) i l Ex k = (Good tt, <[l := Excl i (S n)]> k).
  Proof.
    intros Hr Hk. unfold lock_acq. rewrite Hk, Hr. destruct n; cbn [lock_is]; [reflexivity|]. rewrite Nat.eqb_refl. reflexivity.
  Qed.
  Lemma rel_own i n l k : k !! l = lock_is i (S n) ->
    exists k', lock_rel i l k = (Good tt, k') /\ k' !! l = lock_is i n /\ forall l', l' <> l -> k' !! l' = k !! l'.
  Proof.
    intros Hk. unfold lock_rel. rewrite Hk. cbn [lock_is]. destruct n; eexists; (split; [reflexivity|]).
    - split; [apply lookup_delete|]. intros l' Hl. apply lookup_delete_ne. congruence.
    - split; [apply lookup_insert|]. intros l' Hl. apply lookup_insert_ne. congruence.
  Qed.

  Lemma rel_own' i n l k : k !! l = lock_is i (S n) ->
    fst (lock_rel i l k) = Good tt /\ snd (lock_rel i l k) !! l = lock_is i n /\ forall l', l' <> l -> snd (lock_rel i l k) !! l' = k !! l'.
  Proof. intros H. destruct (rel_own i n l k H) as (k' & H1 & H2 & H3). rewrite H1. auto. Qed.

  (** A primitive command of a thread. *)
  Lemma op_step {X} (c : ccmd X) M f w g : allowed M c -> up w -> w_mir w !! hm_id M = Some f -> server E m (w_srv w) g false ->
    exists ms o f' w' g', cliexec E c w = (o, w') /\ may c f ms o f' /\ o <> Block /\
      w_mir w' !! hm_id M = Some f' /\ (forall j, j <> hm_id M -> w_mir w' !! j = w_mir w !! j) /\
      up w' /\ hmsg_steps E ms g g' /\ server E m (w_srv w') g' false.
  Proof.
    intros Ha Hu Hf Hs.
    assert (Hmir : forall Y (j : nat) (fn : sio -> outcome Y * sio), j = hm_id M -> (forall f1, fst (fn f1) <> Block) ->
      exists o f' w', on_mir j fn w = (o, w') /\ (o, f') = fn f /\ o <> Block /\ w_mir w' !! hm_id M = Some f' /\
        (forall j', j' <> hm_id M -> w_mir w' !! j' = w_mir w !! j') /\ up w' /\ w_srv w' = w_srv w).
    { intros Y j fn -> Hnb. unfold on_mir, mget. rewrite Hf. specialize (Hnb f). destruct (fn f) as [o f'].
      eexists o, f', _. split; [reflexivity|]. split; [reflexivity|]. split; [exact Hnb|]. cbn [w_mir w_srv].
      split; [apply lookup_insert|]. split; [intros j' Hj; apply lookup_insert_ne; congruence|]. split; [exact Hu|reflexivity]. }
    destruct c as [j|j|j|j t|j|j|j|j|r]; cbn [allowed] in Ha;
      try solve [cbn [cliexec may]; match goal with |- exists ms o f' w' g', on_mir ?j ?fn w = _ /\ _ =>
           destruct (Hmir _ j fn Ha) as (o & f' & w' & H1 & H2 & H3 & H4 & H5 & H6 & H7);
           [intros f1; unfold sio_closed, sio_tell, sio_getvalue, sio_write, sio_seek0, sio_truncate0, sio_close, sio_flush, sio_guard;
            try destruct (sclosed f1); discriminate
           |exists [], o, f', w', g; split; [exact H1|]; split; [split; [reflexivity|exact H2]|]; split; [exact H3|];
            split; [exact H4|]; split; [exact H5|]; split; [exact H6|]; split; [constructor|]; rewrite H7; exact Hs] end].
    cbn [cliexec]. rewrite (creq_up E _ _ Hu).
    destruct r as [[| |b]|n| |name|b|]; try contradiction.
    - destruct Ha as [x Hx]. destruct (body_step E _ _ g Hx) as [g' Hg].
      destruct (serve_post E m _ g false b x g' Hm Hs Hx Hg) as (d' & H1 & H2). rewrite H1. cbn [fst snd].
      eexists [x], _, f, _, g'. split; [reflexivity|]. split; [cbn [may]; split; [reflexivity|]; exists x; auto|].
      split; [discriminate|]. cbn [w_mir w_srv]. split; [exact Hf|]. split; [reflexivity|]. split; [reflexivity|].
      split; [apply steps_one, Hg|exact H2].
    - eexists [], _, f, _, g. split; [reflexivity|]. split.
      { cbn [may]. split; [reflexivity|]. split; [reflexivity|]. split; [discriminate|]. eauto. }
      split; [discriminate|]. cbn [w_mir w_srv]. split; [exact Hf|]. split; [reflexivity|]. split; [reflexivity|]. split; [constructor|].
      rewrite (serve_same E m _ g false) by (assumption || exact I). exact Hs.
    - eexists [], _, f, _, g. split; [reflexivity|]. split.
      { cbn [may]. split; [reflexivity|]. split; [reflexivity|]. split; [|eauto]. intros Hn. rewrite Hn.
        rewrite (serve_flag E _ false (srv_flag _ _ _ _ _ Hs)). reflexivity. }
      split; [discriminate|]. cbn [w_mir w_srv]. split; [exact Hf|]. split; [reflexivity|]. split; [reflexivity|]. split; [constructor|].
      rewrite (serve_same E m _ g false) by (assumption || exact I). exact Hs.
  Qed.

  Lemma events_not {Y} i j (ms : list Y) : i <> j -> events_of j (map (pair i) ms) = [].
  Proof.
    intros Hij. induction ms as [|y ms IH]; [reflexivity|]. unfold events_of in *. cbn [map List.filter fst].
    destruct (Nat.eqb_spec i j); [contradiction|exact IH].
  Qed.
  Lemma thread_other od ms sn ds s s' i j p x : i <> j -> ws !! j = Some x ->
    (forall M, x = Some M -> w_mir (dat s') !! hm_id M = w_mir (dat s) !! hm_id M /\ lks s' !! hm_lock M = lks s !! hm_lock M) ->
    thread_inv od sn s j p x -> thread_inv (od ++ map (pair i) ms) (sn ++ map (pair i) ds) s' j p x.
  Proof.
    intros Hij Hj Hx H. destruct x as [M|].
    2:{ cbn [thread_inv] in *. eapply quiet_mono; [|exact H]. unfold rpost_of, seen_by. intros ds' o.
        rewrite events_of_app, events_not, app_nil_r by exact Hij. auto. } destruct H as (n & f & H1 & H2 & H3).
    destruct (Hx M eq_refl) as [X1 X2]. exists n, f. rewrite X1, X2. split; [|auto].
    eapply wp_mono; [|exact H1]. unfold post_of. intros ms' o n' f'. rewrite events_of_app.
    rewrite events_not, app_nil_r by exact Hij. auto.
  Qed.
  Lemma events_own {Y} i (ms : list Y) : events_of i (map (pair i) ms) = ms.
  Proof.
    induction ms as [|y ms IH]; [reflexivity|]. unfold events_of in *. cbn [map List.filter fst]. rewrite Nat.eqb_refl. cbn [map snd]. congruence.
  Qed.
  Lemma map_snd_pair (i : nat) (ms : list hmsg) : map snd (map (pair i) ms) = ms.
  Proof. induction ms as [|y ms IH]; cbn; congruence. Qed.

  Lemma sight_more od ms x : sight_ok od x -> sight_ok (od ++ ms) x.
  Proof.
    intros (H1 & g & H2). split; [rewrite app_length; lia|]. exists g. rewrite firstn_app. replace (fst x - length od) with 0 by lia.
    cbn [firstn]. rewrite app_nil_r. exact H2.
  Qed.
  Lemma sorted_snoc l n : StronglySorted le l -> Forall (fun q => q <= n) l -> StronglySorted le (l ++ [n]).
  Proof.
    induction 1 as [|q l H IH Hq]; intros Hn; cbn; [repeat constructor|]. apply List.Forall_cons_iff in Hn. destruct Hn as [Hn1 Hn2].
    constructor; [apply IH, Hn2|]. apply List.Forall_app. split; [exact Hq|]. repeat constructor. exact Hn1.
  Qed.

  (** One step of thread [i]. *)
  Lemma pstep_ok od sn ps s i p x : pinv od sn ps s -> ps !! i = Some p -> ws !! i = Some x -> finished p = false ->
    exists ms ds p' s', pstep i p s = Some (p', s') /\ pinv (od ++ map (pair i) ms) (sn ++ map (pair i) ds) (<[i := p']> ps) s'.
  Proof.
    intros Hi Hp Hx Hnf. pose proof (pi_thr _ _ _ _ Hi i p x Hp Hx) as Ht.
    destruct (pi_srv _ _ _ _ Hi) as (g & Hg & Hs).
    assert (Hlt : i < length ps) by (eapply lookup_lt_Some, Hp).
    (* enough: what changes *)
    assert (Hgo : forall ms ds p' s', pstep i p s = Some (p', s') ->
      (exists g', hmsg_steps E ms g g' /\ server E m (w_srv (dat s')) g' false) -> up (dat s') ->
      thread_inv (od ++ map (pair i) ms) (sn ++ map (pair i) ds) s' i p' x ->
      (ds = [] \/ ds = [(length od, w_srv (dat s))]) ->
      (forall j M, j <> i -> ws !! j = Some (Some M) -> w_mir (dat s') !! hm_id M = w_mir (dat s) !! hm_id M /\ lks s' !! hm_lock M = lks s !! hm_lock M) ->
      (ms <> [] -> exists M, x = Some M) ->
      (forall l, lks s' !! l <> None -> lks s !! l <> None \/ exists M, x = Some M /\ l = hm_lock M) ->
      exists ms ds p' s', pstep i p s = Some (p', s') /\ pinv (od ++ map (pair i) ms) (sn ++ map (pair i) ds) (<[i := p']> ps) s').
    { intros ms ds p' s' Hst (g' & Hg' & Hs') Hu' Ht' Hds Hoth Hms Hlk. exists ms, ds, p', s'. split; [exact Hst|]. constructor.
      - rewrite insert_length. apply Hi.
      - exists g'. split; [|exact Hs']. rewrite map_app, map_snd_pair. eapply steps_app; eassumption.
      - exact Hu'.
      - intros j q y Hq Hy. destruct (Nat.eq_dec i j) as [<-|Hij].
        + rewrite list_lookup_insert in Hq by exact Hlt. injection Hq as <-. assert (y = x) by congruence. subst y. exact Ht'.
        + rewrite list_lookup_insert_ne in Hq by exact Hij. eapply thread_other; [exact Hij|exact Hy| |exact (pi_thr _ _ _ _ Hi j q y Hq Hy)].
          intros M ->. apply (Hoth j M); auto.
      - destruct (pi_seen _ _ _ _ Hi) as [S1 S2].
        assert (S1' : Forall (fun x => sight_ok (od ++ map (pair i) ms) (snd x)) sn).
        { eapply List.Forall_impl; [|exact S1]. intros y. apply sight_more. }
        destruct Hds as [-> | ->]; [cbn [map]; rewrite app_nil_r; auto|]. split.
        + apply List.Forall_app. split; [exact S1'|]. constructor; [|constructor]. apply sight_more. split; [apply Nat.le_refl|]. exists g. cbn [map fst snd]. rewrite firstn_all. auto.
        + rewrite map_app. cbn [map fst snd]. apply sorted_snoc; [exact S2|]. apply List.Forall_map. eapply List.Forall_impl; [|exact S1].
          intros y Hy. apply Hy.
      - intros j o Hin. apply in_app_or in Hin. destruct Hin as [Hin|Hin]; [eapply (pi_dom _ _ _ _ Hi), Hin|].
        apply in_map_iff in Hin. destruct Hin as (o' & E1 & Hin). injection E1 as <- ->.
        destruct Hms as (M & ->); [intros ->; exact Hin|]. eauto.
      - intros l Hl. destruct (Hlk l Hl) as [H|(M & H1 & H2)]; [apply (pi_lks _ _ _ _ Hi), H|]. subst. eauto. }
    destruct p as [a|e|X c k h]; [discriminate|discriminate|]. clear Hnf.
    destruct x as [M|].
    - destruct Ht as (n & f & Hwp & Hf & Hl). pose proof (own_rlock _ _ Hx) as Hrl.
      assert (Hoth_lk : forall j M', j <> i -> ws !! j = Some (Some M') -> hm_lock M' <> hm_lock M)
        by (intros j M' Hj H; eapply own_lock; eauto).
      assert (Hoth_id : forall j M', j <> i -> ws !! j = Some (Some M') -> hm_id M' <> hm_id M)
        by (intros j M' Hj H; eapply own_id; eauto).
      destruct c as [l mo|l|X c]; cbn [wp] in Hwp.
      + destruct Hwp as (-> & -> & Hwp).
        eapply (Hgo [] [] (k tt) (mkst (dat s) (<[hm_lock M := Excl i (S n)]> (lks s)))).
        * cbn [pstep exec]. rewrite (acq_own i n) by assumption. reflexivity.
        * exists g. split; [constructor|exact Hs].
        * apply Hi.
        * exists (S n), f. cbn [map]. rewrite app_nil_r. split; [exact Hwp|]. split; [exact Hf|]. apply lookup_insert.
        * auto.
        * intros j M' Hj HM'. split; [reflexivity|]. cbn [lks]. apply lookup_insert_ne. apply not_eq_sym. eapply Hoth_lk; eauto.
        * congruence.
        * intros l Hll. cbn [lks] in Hll. destruct (Nat.eq_dec l (hm_lock M)) as [->|Hne]; [right; eauto|].
          rewrite lookup_insert_ne in Hll by congruence. left. exact Hll.
      + destruct Hwp as (-> & n' & -> & Hwp). destruct (rel_own i n' _ _ Hl) as (k' & R1 & R2 & R3).
        eapply (Hgo [] [] (k tt) (mkst (dat s) k')).
        * cbn [pstep exec]. rewrite R1. reflexivity.
        * exists g. split; [constructor|exact Hs].
        * apply Hi.
        * exists n', f. cbn [map]. rewrite app_nil_r. split; [exact Hwp|]. split; [exact Hf|exact R2].
        * auto.
        * intros j M' Hj HM'. split; [reflexivity|]. cbn [lks]. apply R3. eapply Hoth_lk; eauto.
        * congruence.
        * intros l Hll. cbn [lks] in Hll. destruct (Nat.eq_dec l (hm_lock M)) as [->|Hne]; [right; eauto|].
          rewrite R3 in Hll by exact Hne. left. exact Hll.
      + destruct Hwp as [Ha Hwp]. destruct (op_step c M f (dat s) g Ha (pi_up _ _ _ _ Hi) Hf Hs) as (ms & o & f' & w' & g' & O1 & O2 & O3 & O4 & O5 & O6 & O7 & O8).
        specialize (Hwp ms o f' O2).
        assert (Hthr : forall q, wp M q n f' (fun ms' => post_of i od (ms ++ ms')) ->
                  thread_inv (od ++ map (pair i) ms) (sn ++ map (pair i) []) (mkst w' (lks s)) i q (Some M)).
        { intros q Hq. exists n, f'. split; [|split; [exact O4|exact Hl]]. eapply wp_mono; [|exact Hq].
          unfold post_of. intros ms1 o1 n1 f1. rewrite events_of_app, events_own, <- app_assoc. auto. }
        destruct o as [y|e|]; [| |congruence].
        * eapply (Hgo ms [] (k y) (mkst w' (lks s))); [|eauto|exact O6|apply Hthr, Hwp|auto| |eauto|auto].
          -- cbn [pstep exec]. change (cexec c (dat s)) with (cliexec E c (dat s)). rewrite O1. reflexivity.
          -- intros j M' Hj HM'. split; [|reflexivity]. apply O5. eapply Hoth_id; eauto.
        * eapply (Hgo ms [] (h e) (mkst w' (lks s))); [|eauto|exact O6|apply Hthr, Hwp|auto| |eauto|auto].
          -- cbn [pstep exec]. change (cexec c (dat s)) with (cliexec E c (dat s)). rewrite O1. reflexivity.
          -- intros j M' Hj HM'. split; [|reflexivity]. apply O5. eapply Hoth_id; eauto.
    - cbn [thread_inv] in Ht. destruct c as [l mo|l|X c]; [contradiction|contradiction|].
      destruct c as [j|j|j|j t|j|j|j|j|r]; try contradiction. destruct Ht as [Hr Hk].
      eapply (Hgo [] [(length od, w_srv (dat s))] (k (fst (serve E r (w_srv (dat s))))) (mkst (mkworld (snd (serve E r (w_srv (dat s)))) (w_mir (dat s)) []) (lks s))).
      + cbn [pstep exec]. change (cexec (CReq r) (dat s)) with (creq E r (dat s)). rewrite (creq_up E _ _ (pi_up _ _ _ _ Hi)). reflexivity.
      + exists g. split; [constructor|]. cbn [dat w_srv]. rewrite (serve_same E m _ g false) by assumption. exact Hs.
      + reflexivity.
      + cbn [thread_inv]. eapply quiet_mono; [|apply Hk]. unfold rpost_of, seen_by. intros ds o.
        rewrite events_of_app, events_own, map_app, <- app_assoc. auto.
      + auto.
      + auto.
      + congruence.
      + auto.
  Qed.

  Lemma cstep_pinv od sn ps s i c' : pinv od sn ps s -> cstep i (ps, s) = Some c' ->
    exists ms ds, pinv (od ++ map (pair i) ms) (sn ++ map (pair i) ds) (fst c') (snd c').
  Proof.
    intros Hi Hc. unfold cstep in Hc. cbn [fst snd] in Hc. destruct (ps !! i) as [p|] eqn:Hp; [|discriminate].
    destruct (ws !! i) as [x|] eqn:Hx.
    2: { exfalso. apply lookup_ge_None in Hx. apply lookup_lt_Some in Hp. rewrite (pi_len _ _ _ _ Hi) in Hp. lia. }
    assert (Hnf : finished p = false) by (destruct p; [discriminate|discriminate|reflexivity]).
    destruct (pstep_ok od sn ps s i p x Hi Hp Hx Hnf) as (ms & ds & p' & s' & H1 & H2). exists ms, ds. rewrite H1 in Hc. injection Hc as <-. exact H2.
  Qed.
  Lemma sched_pinv sch : forall od sn ps s c', pinv od sn ps s -> sched_run sch (ps, s) = Some c' ->
    exists od' sn', (forall i o, In (i, o) od' -> In i sch) /\ pinv (od ++ od') (sn ++ sn') (fst c') (snd c').
  Proof.
    induction sch as [|i sch IH]; intros od sn ps s c' Hi Hr; cbn in Hr.
    - injection Hr as <-. exists [], []. rewrite !app_nil_r. split; [contradiction|exact Hi].
    - destruct (cstep i (ps, s)) as [[ps1 s1]|] eqn:Hc; [|discriminate].
      destruct (cstep_pinv _ _ _ _ _ _ Hi Hc) as (ms & ds & H1). destruct (IH _ _ _ _ _ H1 Hr) as (od' & sn' & H0 & H2).
      exists (map (pair i) ms ++ od'), (map (pair i) ds ++ sn'). split; [|rewrite !app_assoc; exact H2].
      intros j o Hin. apply in_app_or in Hin. destruct Hin as [Hin|Hin]; [left|right; eapply H0, Hin].
      apply in_map_iff in Hin. destruct Hin as (o' & E1 & _). congruence.
  Qed.

  Lemma pinv_init ps w : server E m (w_srv w) g0 false -> up w -> length ps = length ws ->
    (forall i p M, ps !! i = Some p -> ws !! i = Some (Some M) ->
       exists f, w_mir w !! hm_id M = Some f /\ wp M p 0 f (fun ms o n' f' => n' = 0 /\ post i ms o f')) ->
    (forall i p, ps !! i = Some p -> ws !! i = Some None -> quiet E p (rpost i)) ->
    pinv [] [] ps (mkst w ∅).
  Proof.
    intros Hs Hu Hl Hx Hq. constructor.
    - exact Hl.
    - exists g0. split; [constructor|exact Hs].
    - exact Hu.
    - intros i p x Hp Hw. destruct x as [M|]; cbn [thread_inv]; [|apply Hq; assumption].
      destruct (Hx i p M Hp Hw) as (f & Hf & H). exists 0, f. split; [exact H|]. split; [exact Hf|apply lookup_empty].
    - split; constructor.
    - contradiction.
    - intros l Hll. cbn [lks] in Hll. rewrite lookup_empty in Hll. congruence.
  Qed.

  (** What the invariant says about a moment of an execution. *)
  Definition threads_at (order : list (nat * hmsg)) (g : slog) (sights : list sight) (ps' : list (prog ccmd R)) (s' : st world) : Prop :=
      hmsg_steps E (map snd order) g0 g /\ server E m (w_srv (dat s')) g false /\
      (Forall (fun x => sight_ok order (snd x)) sights /\ StronglySorted le (map (fun x => fst (snd x)) sights)) /\
      (forall i o, In (i, o) order -> exists M, ws !! i = Some (Some M)) /\
      (forall i M, ws !! i = Some (Some M) ->
         (exists rest r f, post i (events_of i order ++ rest) r f) /\
         (forall p, ps' !! i = Some p -> finished p = true ->
            exists r f, post i (events_of i order) r f /\ w_mir (dat s') !! hm_id M = Some f /\
              p = match r with Good a => Ret a | Fail e => Raise e | Block => p end)) /\
      (forall i p, ws !! i = Some None -> ps' !! i = Some p -> finished p = true ->
         exists r, rpost i (seen_by i sights) r /\ p = match r with Good a => Ret a | Fail e => Raise e | Block => p end) /\
      (forall i p, ps' !! i = Some p -> finished p = false -> exists c', cstep i (ps', s') = Some c') /\
      (Forall (fun p => finished p = true) ps' -> lks s' = ∅) /\ length ps' = length ws.
  Lemma pinv_says order sn ps' s' : pinv order sn ps' s' -> exists g, threads_at order g sn ps' s'.
  Proof.
    intros Hi. destruct (pi_srv _ _ _ _ Hi) as (g & Hg & Hsrv). exists g.
    assert (Hps : forall i x, ws !! i = Some x -> exists p, ps' !! i = Some p).
    { intros i x H. apply lookup_lt_is_Some_2. rewrite (pi_len _ _ _ _ Hi). eapply lookup_lt_Some, H. }
    split; [exact Hg|]. split; [exact Hsrv|]. split; [apply Hi|]. split; [apply Hi|]. split.
    { intros i M Hw. destruct (Hps _ _ Hw) as [p Hp].
      pose proof (pi_thr _ _ _ _ Hi i p _ Hp Hw) as (n & f & H1 & H2 & H3). split.
      - destruct (wp_ex M p n f _ H1) as (ms & o & n' & f' & _ & H). eauto.
      - intros r Hr2 Hfin. assert (r = p) by congruence. subst r.
        destruct p as [rs|e|]; [| |discriminate]; destruct H1 as [_ H1]; rewrite app_nil_r in H1.
        + exists (Good rs), f. auto.
        + exists (Fail e), f. auto. }
    split.
    { intros i r Hw Hr' Hfin. pose proof (pi_thr _ _ _ _ Hi i r _ Hr' Hw) as H. destruct r as [rs|e|]; [| |discriminate].
      - exists (Good rs). cbn in H. unfold rpost_of in H. rewrite app_nil_r in H. auto.
      - exists (Fail e). cbn in H. unfold rpost_of in H. rewrite app_nil_r in H. auto. }
    split.
    { intros i p Hp Hnf. destruct (lookup_lt_is_Some_2 ws i) as [x Hw]. { rewrite <- (pi_len _ _ _ _ Hi). eapply lookup_lt_Some, Hp. }
      destruct (pstep_ok order sn ps' s' i p x Hi Hp Hw Hnf) as (ms & ds & p' & s1 & H & _).
      unfold cstep. cbn [fst snd]. rewrite Hp, H. eauto. }
    split; [|apply Hi].
    intros Hall. apply map_eq. intros l. rewrite lookup_empty. destruct (lks s' !! l) as [y|] eqn:El; [|reflexivity]. exfalso.
    destruct (pi_lks _ _ _ _ Hi l) as (i & M & Hw & ->); [rewrite El; discriminate|].
    destruct (Hps _ _ Hw) as [p Hp]. pose proof (pi_thr _ _ _ _ Hi i p _ Hp Hw) as (n & f & H1 & H2 & H3).
    assert (Hfin : finished p = true) by (apply (proj1 (List.Forall_forall _ _) Hall); eapply elem_of_list_In, elem_of_list_lookup_2, Hp).
    destruct p as [rs|e|]; [| |discriminate]; destruct H1 as (-> & _); cbn in H3; congruence.
  Qed.
  Lemma threads_any_time sch ps w ps' s' : server E m (w_srv w) g0 false -> up w -> length ps = length ws ->
    (forall i p M, ps !! i = Some p -> ws !! i = Some (Some M) ->
       exists f, w_mir w !! hm_id M = Some f /\ wp M p 0 f (fun ms o n' f' => n' = 0 /\ post i ms o f')) ->
    (forall i p, ps !! i = Some p -> ws !! i = Some None -> quiet E p (rpost i)) ->
    sched_run sch (ps, mkst w ∅) = Some (ps', s') ->
    exists order g sights, threads_at order g sights ps' s'.
  Proof.
    intros Hs Hu Hl Hx Hq Hr. destruct (sched_pinv sch [] [] _ _ _ (pinv_init ps w Hs Hu Hl Hx Hq) Hr) as (order & sn & _ & Hi).
    cbn [app fst snd] in Hi. destruct (pinv_says _ _ _ _ Hi) as (g & H). eauto.
  Qed.
End Pool.

(** ** What readers return *)
Lemma answered_along E m g0 order cs ds rs : answered E cs ds rs -> forall xs, Forall (sight_ok E m g0 order) xs -> StronglySorted le (map fst xs) ->
  ds = map snd xs -> forall q, Forall (fun x => q <= fst x) xs -> reads_along E m g0 order q cs rs.
Proof.
  induction 1 as [|c cs d ds r rs Hr _ IH]; intros xs Hx Hs E1 q Hq; [constructor|].
  destruct xs as [|[q' d'] xs]; [discriminate|]. cbn [map fst snd] in *. injection E1 as <- ->.
  apply List.Forall_cons_iff in Hx. destruct Hx as [(H1 & g & H2 & H3) Hx]. apply List.Forall_cons_iff in Hq. destruct Hq as [Hq1 Hq2].
  inversion Hs as [|q0 l Hs' Hle]; subst. cbn [fst snd] in *. econstructor; [split; [exact Hq1|exact H1]| |eapply IH; [exact Hx|exact Hs'|reflexivity|]].
  - exists g, d. split; [exact H2|]. split; [exact H3|]. intros t mirs. rewrite call_rd. cbn [fst]. apply Hr.
  - apply (proj1 (List.Forall_map fst (le q') xs)) in Hle. exact Hle.
Qed.
Lemma seen_along E m g0 order i sn : Forall (fun x => sight_ok E m g0 order (snd x)) sn /\ StronglySorted le (map (fun x => fst (snd x)) sn) ->
  Forall (sight_ok E m g0 order) (events_of i sn) /\ StronglySorted le (map fst (events_of i sn)).
Proof.
  intros [H1 H2]. unfold events_of. induction sn as [|[j x] sn IH]; [split; constructor|]. cbn [map List.filter fst snd] in *.
  apply List.Forall_cons_iff in H1. destruct H1 as [H0 H1]. inversion H2 as [|y l H3 H4]; subst. destruct (IH H1 H3) as [I1 I2].
  destruct (j =? i); [|auto]. cbn [map snd]. split; [constructor; assumption|]. constructor; [exact I2|].
  apply List.Forall_map. apply List.Forall_map. apply List.Forall_forall. intros y Hy.
  apply filter_In in Hy. apply (proj1 (List.Forall_forall _ _) H4). apply (in_map (fun x => fst (snd x))), Hy.
Qed.

(** ** The theorems *)
Lemma nth_error_lookup {X} (l : list X) : forall i, nth_error l i = l !! i.
Proof. induction l as [|x l IH]; intros [|i]; cbn; auto. Qed.
Section Run.
  Variable E : henv.
  #[local] Hint Extern 0 (Sem ccmd world) => exact (clisem E) : typeclass_instances.

  (** The mirrors of the threads, and what the threads have done in the end. *)
  Definition cli_who (ws : list work) : list (option hmir) := map (fun x => match x with Mirror M _ => Some M | Reader _ => None end) ws.
  Definition cli_post (ws : list work) (x0 : nat -> option text) : nat -> list hmsg -> outcome (list (outcome cres)) -> sio -> Prop :=
    fun i ms o f => forall M cs, ws !! i = Some (Mirror M cs) ->
      exists rs x', mcalls_do (hm_aggr M) cs (x0 i) ms rs x' /\ o = Good rs /\ buf_is x' f.
  Definition cli_rpost (ws : list work) : nat -> list hdata -> outcome (list (outcome cres)) -> Prop :=
    fun i ds o => forall cs, ws !! i = Some (Reader cs) -> exists rs, o = Good rs /\ answered E cs ds rs.
  Lemma cli_who_of ws i x : ws !! i = Some x -> cli_who ws !! i = Some (match x with Mirror M _ => Some M | Reader _ => None end).
  Proof. intros H. unfold cli_who. rewrite list_lookup_fmap, H. reflexivity. Qed.
  Lemma cli_who_inv ws i y : cli_who ws !! i = Some y -> exists x, ws !! i = Some x /\ y = match x with Mirror M _ => Some M | Reader _ => None end.
  Proof. intros H. unfold cli_who in H. rewrite list_lookup_fmap in H. destruct (ws !! i) as [x|]; [|discriminate]. injection H as <-. eauto. Qed.
  Lemma cli_who_ok ws : work_ok ws -> who_ok (cli_who ws).
  Proof.
    intros Hws. assert (El : mirrors_in (cli_who ws) = mirrors_of ws).
    { unfold mirrors_in, mirrors_of, cli_who. clear. induction ws as [|[M cs|cs] l IH]; [reflexivity| |exact IH]. cbn. f_equal. exact IH. }
    unfold who_ok. rewrite El. destruct Hws as (H1 & H2 & H3 & _). auto.
  Qed.
  Lemma cli_start m g0 ws x0 w : 1 <= m -> work_ok ws -> server E m (w_srv w) g0 false -> w_faults w = [] ->
    (forall i M cs, nth_error ws i = Some (Mirror M cs) -> mirror_is M (x0 i) w /\ (hm_aggr M = true -> x0 i = Some [] \/ x0 i = None)) ->
    pinv E m (cli_who ws) (cli_post ws x0) (cli_rpost ws) g0 [] [] (cli_pool ws) (mkst w ∅).
  Proof.
    intros Hm Hws Hs Hu Hx. pose proof (cli_who_inv ws) as Hinv. apply pinv_init; [exact Hs|exact Hu|..].
    { unfold cli_pool, cli_who. rewrite !map_length. reflexivity. }
    { intros i p M Hp Hy. destruct (Hinv i _ Hy) as ([M' cs|cs] & Hw & EM); [|discriminate]. injection EM as <-.
      unfold cli_pool in Hp. rewrite list_lookup_fmap, Hw in Hp. injection Hp as <-. cbn [calls_of].
      destruct (Hx i M cs) as [H1 H2]; [rewrite nth_error_lookup; exact Hw|].
      assert (Hb : exists f, w_mir w !! hm_id M = Some f /\ buf_is (x0 i) f).
      { destruct (x0 i) as [v|]; [exists (opn v); split; [exact H1|reflexivity]|exact H1]. }
      destruct Hb as (f & Hf & Hb). exists f. split; [exact Hf|].
      rewrite map_map. cbn [c_call]. unfold thread. eapply wp_mono; [|apply (wp_thread M cs [] (x0 i) f Hb)].
      - cbn [rev app]. intros ms o n' f' [Hn H]. split; [exact Hn|]. intros M1 cs1 E1. rewrite Hw in E1. injection E1 as <- <-. exact H.
      - intros Ha. destruct (H2 Ha) as [-> | ->]; auto. }
    { intros i p Hp Hy. destruct (Hinv i _ Hy) as ([M' cs|cs] & Hw & EM); [discriminate|].
      unfold cli_pool in Hp. rewrite list_lookup_fmap, Hw in Hp. injection Hp as <-. cbn [calls_of].
      rewrite map_map. cbn [c_call]. eapply quiet_mono; [|apply (quiet_thread E cs) with (rs0 := [])].
      - cbn [rev app]. intros ds o H cs1 E1. rewrite Hw in E1. injection E1 as <-. exact H.
      - destruct Hws as (_ & _ & _ & H). apply (H cs). eapply elem_of_list_In, elem_of_list_lookup_2, Hw. }
  Qed.
  (** A moment of an execution, [order]: what has arrived. *)
  Definition clients_at (m : nat) (g0 : slog) (ws : list work) (x0 : nat -> option text) (order : list (nat * hmsg)) (g : slog)
      (ps' : list (prog ccmd (list (outcome cres)))) (s' : st world) : Prop :=
      hmsg_steps E (map snd order) g0 g /\ server E m (w_srv (dat s')) g false /\
      (forall i o, In (i, o) order -> exists M cs, nth_error ws i = Some (Mirror M cs)) /\
      (forall i M cs, nth_error ws i = Some (Mirror M cs) ->
         (exists rest rs x', mcalls_do (hm_aggr M) cs (x0 i) (events_of i order ++ rest) rs x') /\
         (forall r, nth_error ps' i = Some r -> finished r = true ->
            exists rs x', r = Ret rs /\ mcalls_do (hm_aggr M) cs (x0 i) (events_of i order) rs x' /\ mirror_is M x' (dat s'))) /\
      (forall i cs r, nth_error ws i = Some (Reader cs) -> nth_error ps' i = Some r -> finished r = true ->
         exists rs, r = Ret rs /\ reads_along E m g0 order 0 cs rs) /\
      (forall i p, nth_error ps' i = Some p -> finished p = false -> exists c', cstep i (ps', s') = Some c') /\
      (Forall (fun p => finished p = true) ps' -> lks s' = ∅).
  Lemma cli_says m g0 ws x0 order sn ps' s' : 1 <= m -> work_ok ws ->
    pinv E m (cli_who ws) (cli_post ws x0) (cli_rpost ws) g0 order sn ps' s' -> exists g, clients_at m g0 ws x0 order g ps' s'.
  Proof.
    intros Hm Hws Hi. pose proof (cli_who_of ws) as Hwho. pose proof (cli_who_inv ws) as Hinv.
    destruct (pinv_says E m Hm (cli_who ws) (cli_who_ok ws Hws) _ _ _ _ _ _ _ Hi) as (g & T1 & T2 & T0 & T3 & T4 & T5 & T6 & T7 & T8).
    exists g. split; [exact T1|]. split; [exact T2|]. split.
    { intros i o Hin. destruct (T3 i o Hin) as (M & H). destruct (Hinv i _ H) as ([M' cs|cs] & Hw & EM); [|discriminate].
      exists M', cs. rewrite nth_error_lookup. exact Hw. }
    split.
    { intros i M cs Hw. rewrite nth_error_lookup in Hw. destruct (T4 i M (Hwho i _ Hw)) as [(rest & r & f & H) H']. split.
      - destruct (H M cs Hw) as (rs & x' & K & _). eauto.
      - intros p Hp Hfin. assert (Hp' : ps' !! i = Some p) by exact (eq_trans (eq_sym (nth_error_lookup ps' i)) Hp).
        destruct (H' p Hp' Hfin) as (r1 & f1 & K1 & K2 & K3). destruct (K1 M cs Hw) as (rs & x' & A1 & A2 & A3). subst r1.
        exists rs, x'. split; [exact K3|]. split; [exact A1|]. destruct x' as [v|]; cbn in A3 |- *; [subst f1; exact K2|eauto]. }
    split.
    { intros i cs p Hw Hp Hfin. rewrite nth_error_lookup in Hw. assert (Hp' : ps' !! i = Some p) by exact (eq_trans (eq_sym (nth_error_lookup ps' i)) Hp).
      destruct (T5 i p (Hwho i _ Hw) Hp' Hfin) as (r & K1 & K2). destruct (K1 cs Hw) as (rs & A1 & A2). subst r.
      exists rs. split; [exact K2|]. destruct (seen_along E m g0 order i sn T0) as [S1 S2]. eapply answered_along; [exact A2|exact S1|exact S2|reflexivity|]. apply List.Forall_forall. intros. lia. }
    split; [|exact T7].
    intros i p Hp Hnf. apply (T6 i p); [|exact Hnf]. exact (eq_trans (eq_sym (nth_error_lookup ps' i)) Hp).
  Qed.
  Lemma clients_any_time m g0 ws x0 w sch ps' s' : 1 <= m -> work_ok ws -> server E m (w_srv w) g0 false -> w_faults w = [] ->
    (forall i M cs, nth_error ws i = Some (Mirror M cs) -> mirror_is M (x0 i) w /\ (hm_aggr M = true -> x0 i = Some [] \/ x0 i = None)) ->
    sched_run sch (cli_pool ws, mkst w ∅) = Some (ps', s') ->
    exists order g, clients_at m g0 ws x0 order g ps' s'.
  Proof.
    intros Hm Hws Hs Hu Hx Hr.
    destruct (sched_pinv E m Hm (cli_who ws) (cli_who_ok ws Hws) _ _ g0 sch [] [] _ _ _ (cli_start m g0 ws x0 w Hm Hws Hs Hu Hx) Hr) as (order & sn & _ & Hi).
    cbn [app fst snd] in Hi. destruct (cli_says m g0 ws x0 order sn ps' s' Hm Hws Hi) as (g & H). eauto.
  Qed.

  (** *** One mirror *)
  Lemma no_pair_app a b : no_pair (a ++ b) -> no_pair a /\ no_pair b.
  Proof.
    intros H. split; intros l c d r E0.
    - apply (H l c d (r ++ b)). rewrite E0, <- app_assoc. reflexivity.
    - apply (H (a ++ l) c d r). rewrite E0, app_assoc. reflexivity.
  Qed.
  Lemma says_text_step s g g' : no_pair s -> hmsg_step E (says_text s) g g' -> g' = gwrite s g.
  Proof.
    intros Hn H. unfold says_text in H. rewrite (proj2 (wire_text_id s) Hn) in H. inversion H; subst. apply log_write_fun. assumption.
  Qed.
  Lemma write_inv aggr data v ms r x : mcall_does aggr (HWrite data) (Some v) ms r x ->
    r = Good (CNat (length data)) /\
    ((aggr = false /\ no_break data /\ ms = [] /\ x = Some (v ++ data)) \/
     (aggr = false /\ ~ no_break data /\ ms = [says_text (v ++ data)] /\ x = Some []) \/
     (aggr = true /\ ms = [says_text data] /\ x = Some v)).
  Proof.
    intros H. inversion H; subst; try (split; [reflexivity|]; tauto);
      try match goal with A : _ \/ _ |- _ => destruct A; discriminate end.
    match goal with A : In _ _ |- _ => cbn in A; intuition congruence end.
  Qed.
  Lemma writes_transparent aggr texts : forall v ms rs x' g g', no_break v -> (aggr = true -> v = []) -> no_pair (v ++ concat texts) ->
    mcalls_do aggr (map HWrite texts) (Some v) ms rs x' -> hmsg_steps E ms g g' ->
    exists v', x' = Some v' /\ no_break v' /\ (aggr = true -> v' = []) /\ rs = map (fun s => Good (CNat (length s))) texts /\
      mkslog (done g') (pend g' ++ v') = fold_left (fun g c => gwrite c g) texts (mkslog (done g) (pend g ++ v)).
  Proof.
    induction texts as [|data texts IH]; intros v ms rs x' g g' Hv Hag Hnp Hd Hg.
    - inversion Hd; subst. inversion Hg; subst. exists v. auto.
    - cbn [map] in Hd. inversion Hd as [|c cs x ms1 r x1 ms2 rs2 x2 H1 H2]; subst.
      assert (Hnp' : no_pair (v ++ data) /\ no_pair (data ++ concat texts) /\ no_pair data /\ no_pair (concat texts)).
      { cbn [concat] in Hnp. pose proof Hnp as Hnp1. apply no_pair_app in Hnp1. rewrite app_assoc in Hnp. apply no_pair_app in Hnp.
        destruct Hnp1 as [_ Hnp1]. pose proof (no_pair_app _ _ Hnp1). tauto. }
      destruct Hnp' as (N1 & N2 & N3 & N4).
      apply write_inv in H1. destruct H1 as (-> & [(A1 & A2 & -> & ->)|[(A1 & A2 & -> & ->)|(-> & -> & ->)]]).
      + cbn [app] in *. destruct (IH (v ++ data) ms2 rs2 x' g g') as (v' & I1 & I2 & I3 & I4 & I5); auto.
        { apply Forall_app. auto. } { congruence. } { rewrite <- app_assoc. exact Hnp. }
        exists v'. split; [exact I1|]. split; [exact I2|]. split; [exact I3|]. split; [cbn [map]; congruence|].
        rewrite I5. cbn [fold_left]. f_equal. unfold gwrite, wlines, wtail. cbn [done pend].
        rewrite (seg_no_lines data) by assumption. rewrite app_nil_r, app_assoc. reflexivity.
      + cbn [app] in *. inversion Hg as [|o os ga gb gc G1 G2]; subst. apply says_text_step in G1; [|exact N1]. subst gb.
        destruct (IH [] ms2 rs2 x' (gwrite (v ++ data) g) g') as (v' & I1 & I2 & I3 & I4 & I5); auto.
        { constructor. }
        exists v'. split; [exact I1|]. split; [exact I2|]. split; [exact I3|]. split; [cbn [map]; congruence|].
        rewrite I5. cbn [fold_left]. f_equal. unfold gwrite. cbn [done pend]. rewrite wlines_app, wtail_app by exact Hv.
        rewrite app_nil_r. reflexivity.
      + cbn [app] in *. inversion Hg as [|o os ga gb gc G1 G2]; subst. apply says_text_step in G1; [|exact N3]. subst gb.
        rewrite (Hag eq_refl) in *. cbn [app] in *.
        destruct (IH [] ms2 rs2 x' (gwrite data g) g') as (v' & I1 & I2 & I3 & I4 & I5); auto.
        exists v'. split; [exact I1|]. split; [exact I2|]. split; [exact I3|]. split; [cbn [map]; congruence|].
        rewrite I5. cbn [fold_left]. f_equal. rewrite !app_nil_r. destruct g; reflexivity.
  Qed.
  Lemma fold_writes texts : forall g, log_steps (map SWrite texts) g (fold_left (fun g c => gwrite c g) texts g).
  Proof.
    induction texts as [|x texts IH]; intros g; [constructor|]. cbn [map fold_left]. econstructor; [|apply IH]. constructor. apply log_write_fun. reflexivity.
  Qed.
  Lemma events_single (i : nat) (od : list (nat * hmsg)) : (forall j o, In (j, o) od -> j = i) -> events_of i od = map snd od.
  Proof.
    induction od as [|[j o] od IH]; intros H; [reflexivity|]. rewrite (H j o (or_introl eq_refl)). unfold events_of in *. cbn [List.filter fst].
    rewrite Nat.eqb_refl. cbn [map snd]. f_equal. apply IH. intros j' o' Hin. apply (H j' o'). right. exact Hin.
  Qed.
  Lemma single_mirror m g0 ws i M texts w sch ps' s' : 1 <= m -> work_ok ws -> server E m (w_srv w) g0 false -> w_faults w = [] ->
    nth_error ws i = Some (Mirror M (map HWrite texts)) -> (forall j M' cs, nth_error ws j = Some (Mirror M' cs) -> j = i) ->
    mirror_is M (Some []) w -> no_pair (concat texts) ->
    sched_run sch (cli_pool ws, mkst w ∅) = Some (ps', s') -> Forall (fun p => finished p = true) ps' ->
    exists g direct v, server E m (w_srv (dat s')) g false /\ mirror_is M (Some v) (dat s') /\
      nth_error ps' i = Some (Ret (map (fun s => Good (CNat (length s))) texts)) /\
      log_steps (map SWrite texts) g0 direct /\ done g = done direct /\ pend g ++ v = pend direct /\ (hm_aggr M = true -> v = []).
  Proof.
    intros Hm Hws Hs Hu Hw Honly Hmir Hnp Hr Hfin.
    destruct (clients_any_time m g0 ws (fun _ => Some []) w sch ps' s' Hm Hws Hs Hu) as (od & g & H1 & H2 & H3 & H4 & _ & _ & _).
    { intros j M' cs Hj. assert (j = i) by (eapply Honly, Hj). subst j. assert (M' = M) by congruence. subst M'. auto. }
    { exact Hr. }
    destruct (H4 i M _ Hw) as [Ha Hb].
    destruct (nth_error ps' i) as [p|] eqn:Hp.
    2: { exfalso. apply nth_error_None in Hp. assert (i < length ws) by (apply nth_error_Some; congruence).
         assert (length ps' = length ws); [|lia]. clear -Hr. replace (length ws) with (length (fst (cli_pool ws, mkst w ∅ : st world))) by (apply map_length).
         revert Hr. generalize (cli_pool ws, mkst w ∅ : st world). induction sch as [|k sch IH]; intros c Hr; cbn in Hr; [injection Hr as ->; reflexivity|].
         destruct (cstep k c) as [c1|] eqn:Ec; [|discriminate]. rewrite (IH _ Hr). unfold cstep in Ec. destruct (fst c !! k); [|discriminate].
         destruct (pstep k _ _) as [[p' s1]|]; [|discriminate]. injection Ec as <-. apply insert_length. }
    destruct (Hb p eq_refl) as (rs & x' & -> & B1 & B2).
    { apply (proj1 (List.Forall_forall _ _) Hfin). eapply nth_error_In, Hp. }
    rewrite (events_single i) in B1.
    2: { intros j o Hin. destruct (H3 j o Hin) as (M' & cs & Hj). eapply Honly, Hj. }
    destruct (writes_transparent (hm_aggr M) texts [] _ _ _ g0 g ltac:(constructor) ltac:(reflexivity) Hnp B1 H1) as (v & -> & _ & V2 & -> & V3).
    exists g, (fold_left (fun g c => gwrite c g) texts g0), v. rewrite app_nil_r in V3.
    replace (mkslog (done g0) (pend g0)) with g0 in V3 by (destruct g0; reflexivity).
    split; [exact H2|]. split; [exact B2|]. split; [reflexivity|]. split; [apply fold_writes|]. rewrite <- V3. cbn [done pend]. auto.
  Qed.
End Run.
