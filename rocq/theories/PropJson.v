(** * PropJson: messages as JSON texts (C47, C64)

    [dumps w1 w2 v]: the text written by json.dumps with the blanks [w1] after "," and
    [w2] after ":"; [loads]: json.loads (JsonText.v).  [wire] merges each high surrogate
    directly followed by a low one into one code point and changes nothing else (Json.v).
    Vocabulary in JsonSpec.v, proofs in JsonFacts.v and JsonProofs.v. *)
From Coq Require Import String.
From Coq Require Import List NArith ZArith Bool Arith.
From Verif Require Import PyStr Prog Base Host Json JsonText HostCli JsonSpec JsonFacts JsonProofs PyIO LineBuf HostConc HostJson.
Import ListNotations.

(** ** C64 *)
(** Every value, written with any blanks. *)
Theorem C64_round_trip :
  forall w1 w2, blanks w1 -> blanks w2 -> forall v w3 w4, blanks w3 -> blanks w4 ->
  vjson v -> loads (w3 ++ dumps w1 w2 v ++ w4) = Some (wire v).
Proof. exact loads_dumps. Qed.
Print Assumptions C64_round_trip.
(** The trip changes nothing when no text has a high surrogate directly before a low one; *)
Theorem C64_same_value : forall v, jclean v -> wire v = v.
Proof. exact wire_clean. Qed.
Print Assumptions C64_same_value.
(** for a text this condition is exact. *)
Theorem C64_same_text : forall s, wire_text s = s <-> no_pair s.
Proof. exact wire_text_id. Qed.
Print Assumptions C64_same_text.
(** All bodies sent by mirrors and readers have one of four forms; these are such values. *)
Theorem C64_bodies : forall c, all_reqs sends_sent (c_call c).
Proof. exact c_call_sent. Qed.
Print Assumptions C64_bodies.
Theorem C64_sent_body : forall v, sent v -> codes v -> vjson v.
Proof. exact sent_vjson. Qed.
Print Assumptions C64_sent_body.
(** So are all answers of the server, and what read_serialized() returns, after any requests
    with such bodies and other calls of the buffer in any threads, in any interleaving
    ([rep E]: what repr() gives for lists and dicts, a text of Python). *)
Theorem C64_answers :
  forall E m css sch ps' s', (forall v, vjson v -> vtext (rep E v)) -> Forall (Forall vcall) css ->
  sched_run sch (h_pool E css, hfresh m) = Some (ps', s') ->
  forall i rs, nth_error ps' i = Some (Ret rs) ->
  (forall code v, In (Good (HAnswer (code, v))) rs -> vjson v) /\ (forall l, In (Good (HJsons l)) rs -> Forall vjson l).
Proof.
  exact (fun E m css sch ps' s' HE Hc Hr i rs Hi =>
    conj (fun code v H => answers_vjson E m css sch ps' s' HE Hc Hr i rs _ Hi H) (fun l H => answers_vjson E m css sch ps' s' HE Hc Hr i rs _ Hi H)).
Qed.
Print Assumptions C64_answers.
(** Two texts that come back one by one may not do so after the server has joined them: one
    POST ends with a lone high surrogate, the next one begins with a lone low one. *)
Theorem C64_joined_refuted :
  exists a b v v', no_pair a /\ no_pair b /\ v' <> v /\
  (forall E, fst (h_hist E [(1, HReq (PostMsg (BJson (body_str a)))); (1, HReq (PostMsg (BJson (body_str b)))); (1, HReq (GetMsg None))] (hfresh 5)) =
     [Good (HAnswer (success 201)); Good (HAnswer (success 201)); Good (HAnswer (200%nat, v))]) /\
  loads (dumps [32%N] [32%N] v) = Some v'.
Proof.
  exists [55357%N], [56832%N]. eexists _, _. split; [apply wire_text_id; reflexivity|]. split; [apply wire_text_id; reflexivity|].
  split; [|split; [intros E; vm_compute; reflexivity|vm_compute; reflexivity]]. discriminate.
Qed.
Print Assumptions C64_joined_refuted.
(** Not every text comes back. *)
Theorem C64_all_texts_refuted :
  exists data, vtext data /\ exists data', data' <> data /\ loads (dumps [32%N] [32%N] (body_str data)) = Some (body_str data').
Proof.
  exists [55357%N; 56832%N]. split; [apply vtext_b; reflexivity|]. exists [128512%N]. split; [discriminate|].
  vm_compute. reflexivity.
Qed.
Print Assumptions C64_all_texts_refuted.
Example C64_case :
  let v := JObj [(txt "a", JArr [JNum (-12); JNull; JStr [34%N; 92%N; 10%N; 233%N; 128512%N; 55296%N]]); ([], JObj [])] in
  vjson v /\ jclean v /\
  dumps [32%N] [32%N] v = txt "{""a"": [-12, null, ""\""\\\n\u00e9\ud83d\ude00\ud800""], """": {}}" /\
  loads (txt " " ++ dumps [] [] v ++ [10%N]) = Some v.
Proof.
  split; [|split; [|split; vm_compute; reflexivity]].
  - apply vjson_obj. split.
    + constructor; [split; [apply vtext_b; reflexivity|]|].
      * apply vjson_arr. constructor; [exact I|]. constructor; [exact I|]. constructor; [|constructor]. apply vtext_b. reflexivity.
      * constructor; [|constructor]. split; [constructor|]. apply vjson_obj. split; constructor.
    + vm_compute. constructor; [cbn; intuition discriminate|]. constructor; [cbn; tauto|constructor].
  - assert (H : forall s, wire_text s = s -> no_pair s) by (intros s; apply wire_text_id).
    repeat split; apply H; reflexivity.
Qed.

(** ** C47, through JSON *)
Theorem C47_json :
  forall w1 w2 w3 w4 m, blanks w1 -> blanks w2 -> blanks w3 -> blanks w4 ->
  vjson (gm_type m) -> Forall vjson (gm_data m) -> jclean (gm_type m) -> Forall jclean (gm_data m) ->
  exists v, loads (w3 ++ dumps w1 w2 (serialize m) ++ w4) = Some v /\ deserialize v = Good (IMsg m).
Proof. exact c47_json. Qed.
Print Assumptions C47_json.
Example C47_json_case :
  let m := mkgmsg (JStr (txt "error")) [JStr (txt "Traceback"); JStr [233%N]] in
  option_map deserialize (loads (dumps [] [] (serialize m))) = Some (Good (IMsg m)).
Proof. vm_compute. reflexivity. Qed.
