(** * ProcRace: races of process mode, positive parts (C20) *)
From stdpp Require Import gmap relations.
From Coq Require Import List NArith ZArith Bool Arith Lia.
From Verif Require Import PyStr Prog ProgFacts PyIO Base Spec SpecFacts LineBuf LineBufFacts LineBufProofs Locks Held Proc ProcSpec ProcFacts ProcMain ProcSeq ProcHist ProcProofs ProcSysProofs ProcMore.
Import ListNotations.
Local Open Scope nat_scope.

Lemma c20_receive m d t x rest : 1 <= m -> preach m d -> main_closed d = false -> inbox d = x :: rest ->
  exists b d', run t (sys_p lp_receive) (idle d) = (Good b, idle d') /\ inbox d' = rest /\ received m d d' [x].
Proof.
  intros Hm Hr Hc Hq. pose proof (preach_pinv m d Hm Hr) as Hp. pose proof (pinv_validq m d Hp) as Hv.
  pose proof (pinv_abs m d Hp Hc) as Ha. pose proof (hok_receive m d _ x rest Ha Hq) as Hok.
  eexists _, _. split; [rewrite run_sys_p; apply (hok_runs t _ _ _ _ Hok); discriminate|]. split; [apply (queue_set_queue rest d Hv)|].
  pose proof (received_intro m d rest [x]) as R. rewrite <- rsteps_gmsgs in R. exact R.
Qed.

Lemma c20_read m d t size : 1 <= m -> preach m d -> main_closed d = false ->
  run t (sys_p (lp_call (PBase (Read size)))) (idle d) =
  (Good (RItems (view m size (mkslog (records d) (current d)))), idle d).
Proof.
  intros Hm Hr Hc. pose proof (preach_pinv m d Hm Hr) as Hp.
  pose proof (pinv_abs m d Hp Hc) as (Hb & Hn & Hl & _). cbn [abs_main mq mpend fst snd done pend] in Hb, Hl.
  rewrite run_sys_p. cbn [lp_call]. rewrite run_on_main. cbn [lb_call]. unfold ret_as. rewrite run_bind, Hb.
  rewrite run_read_open by (auto using lookup_empty). cbn [fst snd run]. rewrite <- aread_view. unfold absg. cbn [done pend]. f_equal; [cbn [bd storage dq last_line fl sval]; rewrite (last_items_all m (last_items m _)) by exact Hl; reflexivity|].
  unfold set_main. cbn [dat lks]. rewrite <- Hb. destruct d; reflexivity.
Qed.
