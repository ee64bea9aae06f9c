(** * PropPrintFile: printing inside [with LineFileBuffer:] (C77)

    Proofs are in PrintFile.v. *)
From stdpp Require Import gmap.
From Coq Require Import String.
From Coq Require Import List NArith ZArith Bool Arith Lia.
From Verif Require Import PyStr Prog Base Spec LineBuf FileBuf FileSpec FileStmt FileProofs Ctx Print PrintSpec PrintProofs PrintFile PropFile.
Import ListNotations.
Local Open Scope nat_scope.

(** ** C77 *)

(** A log without gaps, at most maxlen records [l0], unfinished line [v0].  What is printed
    goes into the log as by write().  A block that ends normally leaves no unfinished line
    behind; a block that raises adds one record, the exception, and leaves the unfinished
    line unfinished.  The buffer stays open; all other files stay the same. *)
Theorem C77_with_file_buffer : forall b l0 v0, wf_fbuf b ->
  forall k exc c s d r s' d', well_nested c -> ~ In k (entered c) ->
  Forall utf8 (code_texts c) -> Forall (fun e => utf8 (ex_text e)) (raised c) ->
  is_open b d -> records (b_name b) (files d) l0 -> length l0 <= b_max b ->
  unfinished (b_name b) (b_tmp b) (files d) = v0 -> utf8 v0 -> no_cr v0 ->
  kexec (file_buffer k b (fun _ d => d) exc) (KWith (Buf k) c) s d = (r, s', d') ->
  exists l g, told exc (Some k) (Some k) c l r /\ all_good l /\ r <> Hangs /\ out s' = out s /\ err s' = err s /\
    log_steps (map SWrite (texts_to k l)) (mkslog (map IStr l0) v0) g /\
    match exc_value r with
    | None =>
        records (b_name b) (files d') (last_items (b_max b) (map item_text (done g) ++ match pend g with [] => [] | v => [v] end)) /\
        unfinished (b_name b) (b_tmp b) (files d') = []
    | Some e => exists t, exc_record e t /\
        records (b_name b) (files d') (last_items (b_max b) (map item_text (done g) ++ [t])) /\
        unfinished (b_name b) (b_tmp b) (files d') = pend g
    end /\ is_open b d' /\
    (forall x, x <> temp_file (b_name b) (b_tmp b) -> (forall n, x <> record_file (b_name b) n) -> files d' !! x = files d !! x).
Proof. exact c_with_file. Qed.
Print Assumptions C77_with_file_buffer.

Definition lf : text := [10%N].
Definition std : sys := mksys (Some 100) (Some 101) (fun _ => (None, None)) (fun _ => []).
Definition show_exc (x : exn) : excobj := mkexc ExcOther (txt "E" ++ lf).
Definition log3 : fbuf := mkfb 0 (txt "log") (txt "t") 3 0 2.
Definition code1 (e : option excobj) : code :=
  KSeq (print false [txt "a"; txt "b"]) (KSeq (KPut true (txt "tail")) match e with None => KPass | Some x => KRaise x end).
Definition read_after (e : option excobj) : ending * outcome (list text) :=
  let '(r, _, d') := kexec (file_buffer 1 log3 (fun _ d => d) show_exc) (KWith (Buf 1) (code1 e)) std (mkfdir ∅ ∅) in
  (r, fst (on (fb_read log3 None) d')).
Example C77_demo :
  wf_fbuf log3 /\ well_nested (code1 (Some boom)) /\ Forall utf8 (code_texts (code1 (Some boom))) /\
  read_after None = (Ends, Good [txt "a b"; txt "tail"]) /\
  read_after (Some boom) = (Throws boom, Good [txt "a b"; txt "line 1" ++ lf ++ txt "line 2"; txt "tail"]).
Proof.
  split; [split; [cbn; lia|discriminate]|]. split; [repeat split|].
  split; [repeat (constructor; [apply utf8_enc; vm_compute; reflexivity|]); constructor|]. vm_compute. auto.
Qed.

(** The exception is not the last thing one reads: the text printed before it comes after. *)
Theorem C77_order_refuted :
  exists b c e t, wf_fbuf b /\ exc_record e t /\ c = KSeq (KPut false (txt "before")) (KRaise e) /\
  let '(r, _, d') := kexec (file_buffer 1 b (fun _ d => d) show_exc) (KWith (Buf 1) c) std (mkfdir ∅ ∅) in
  r = Throws e /\ fst (on (fb_read b None) d') = Good [t; txt "before"].
Proof.
  exists log3. eexists. exists boom. eexists. split; [split; [cbn; lia|discriminate]|]. split; [apply C44_demo_record|].
  split; [reflexivity|]. vm_compute. auto.
Qed.
Print Assumptions C77_order_refuted.
