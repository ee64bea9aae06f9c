(** * PropHeaders: the HTTP headers of the clients (C102)

    [hacts l h_new]: what a user and the methods of a LineHostMirror or LineHostReader do with the
    mappings that [headers], [headers_get] and [headers_post] return, and the requests of the
    client ([OSend post]; [post]: requests with a body).  [answer_after l a]: what [a] returns
    after [l].  Vocabulary in HeadersSpec.v, proofs in HeadersProofs.v. *)
From Coq Require Import String.
From Coq Require Import List NArith Bool Arith.
From Verif Require Import PyStr Prog Headers HeadersSpec HeadersProofs.
Import ListNotations.
Local Open Scope nat_scope.

(** Every request carries the default headers, whatever was done with the mappings. *)
Theorem C102_requests :
  forall l post, Forall plain l -> answer_after l (OSend post) = Good (AItems (defaults post)).
Proof. exact sent_headers. Qed.
Print Assumptions C102_requests.

(** A mapping shows the defaults as long as nothing is done with it, whatever is done with
    the others. *)
Theorem C102_separate :
  forall l1 post l2 j, Forall plain (l1 ++ l2) -> j = length (handles (snd (hacts l1 h_new))) ->
  Forall (fun a => target a <> Some j) l2 ->
  answer_after (l1 ++ OTake post :: l2) (OItems j) = Good (AItems (defaults post)).
Proof. exact taken_headers. Qed.
Print Assumptions C102_separate.

(** What is set in a mapping is found in it. *)
Theorem C102_set :
  forall l h k x, Forall plain l -> h < length (handles (snd (hacts l h_new))) ->
  answer_after (l ++ [OSet h k x]) (OGet h k) = Good (AVal (Some x)).
Proof. exact set_shows. Qed.
Print Assumptions C102_set.

(** ** Concrete cases *)
Definition html := txt "text/html".
Definition edits : list hact :=
  [OTake true; OSet 0 (txt "Accept") html; OSet 0 (txt "X") html; OChild 0; OClear 1; OCopy 0; OSet 2 (txt "X") (txt "y");
   ODel 0 (txt "User-Agent"); OPopitem 0; OTake false; OSet 3 (txt "Content-Type") html].
Example C102_case :
  Forall plain edits /\
  fst (hacts edits h_new) = [Good AOk; Good AOk; Good AOk; Good AOk; Good AOk; Good AOk; Good AOk;
                             Fail KeyError; Good (AVal (Some html)); Good AOk; Good AOk] /\
  answer_after edits (OItems 0) = Good (AItems [(txt "Accept", html); (txt "User-Agent", txt "cainmagi/syncstream");
                                                (txt "Content-Type", txt "application/json")]) /\
  answer_after edits (OGet 2 (txt "X")) = Good (AVal (Some (txt "y"))) /\
  length (handles (snd (hacts edits h_new))) = 4 /\
  answer_after edits (OSend true) = Good (AItems (defaults true)).
Proof. split; [repeat constructor|]. vm_compute. repeat split. Qed.

(** [maps] and [parents] give the stored mappings themselves: what is set there changes the
    requests of the client, those with a body too. *)
Theorem C102_unchangeable_refuted :
  exists l1 l2, answer_after l1 (OSend true) <> Good (AItems (defaults true)) /\ answer_after l1 (OSend false) <> Good (AItems (defaults false)) /\
    l1 = [OTake false; OParents 0; OSet 1 (txt "Accept") html] /\
    answer_after l2 (OSend true) <> Good (AItems (defaults true)) /\
    l2 = [OTake true; OMap 0 1; OClear 1].
Proof.
  exists [OTake false; OParents 0; OSet 1 (txt "Accept") html], [OTake true; OMap 0 1; OClear 1].
  repeat split; vm_compute; discriminate.
Qed.
Print Assumptions C102_unchangeable_refuted.
(** A default header cannot be removed from a mapping. *)
Theorem C102_remove_refuted :
  exists l k, answer_after l (OGet 0 k) = Good (AVal (Some (txt "application/json"))) /\ answer_after l (ODel 0 k) = Fail KeyError /\
    answer_after (l ++ [OClear 0]) (OGet 0 k) = Good (AVal (Some (txt "application/json"))) /\ Forall plain l.
Proof. exists [OTake true], (txt "Accept"). repeat split; try (vm_compute; reflexivity). repeat constructor. Qed.
Print Assumptions C102_remove_refuted.
