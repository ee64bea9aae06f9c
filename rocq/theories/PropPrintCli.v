(** * PropPrintCli: clients that print inside [with mirror:], and readers (C92)

    Only theorem statements and concrete cases; proofs are in PrintCliProofs.v,
    PrintCliLines.v and HostCliConc.v, the vocabulary in PrintCli.v, PrintSpec.v and
    HostCliSpec.v.
    [print_clients exc ws]: thread i runs [with mirror: code] of the client [ws[i]], or the
    calls of a reader.  One server, reachable and not stopped.  Every schedule, step by
    step, is covered. *)
From stdpp Require Import gmap.
From Coq Require Import String.
From Coq Require Import List NArith ZArith Bool Arith Lia.
From Verif Require Import Held PyStr Prog PyIO Base Spec LineBuf Json JsonSpec Host HostSpec HostCli HostCliSpec HostCliFacts HostCliProofs PropHostCli
  ProcRun Ctx Print PrintSpec PropPrintHost PrintPool PrintCli PrintCliProofs PrintCliLines.
Import ListNotations.
Local Open Scope nat_scope.

(** The code of one client, run step by step and not disturbed, does what Print.v says
    (C75, C78), in any world, whatever happens to the requests; it never waits for ever. *)
Theorem C92_alone : forall E M k exc b s w t r s' w', has_rlock M ->
  kexec (host_mirror k E M (fun _ w => w) exc) b s w = (r, s', w') ->
  @run ccmd world (clisem E) _ t (cli_code M k exc b s) (mkst w ∅) = (Good (r, s'), mkst w' ∅) /\ r <> Hangs.
Proof. exact c92_alone. Qed.
Print Assumptions C92_alone.

(** At any moment of any execution the server holds the log of the messages that arrived so
    far, each one completely, in some [order]; those of each client are the first ones of
    what it should send.  A client whose block was left has sent everything, has its streams
    back, ended as its block did, and its mirror is closed.  Readers return what the server
    held at some moments, later and later ones.  Whoever has not finished can go on, and at
    the end no lock is held. *)
Theorem C92_any_time :
  forall E m g0 exc ws w sch ps' s', 1 <= m -> clients_ok ws w -> server E m (w_srv w) g0 false -> w_faults w = [] ->
  @sched_run ccmd world (clisem E) _ sch (print_clients exc ws, mkst w ∅) = Some (ps', s') ->
  exists order g,
    hmsg_steps E (map snd order) g0 g /\ server E m (w_srv (dat s')) g false /\
    (forall i o, In (i, o) order -> exists j, nth_error ws i = Some (Prints j)) /\
    (forall i j, nth_error ws i = Some (Prints j) ->
       (exists rest l r, client_says exc j l r (events_of i order ++ rest)) /\
       (forall p, nth_error ps' i = Some p -> finished p = true ->
          exists l r s2, p = Ret (CPrinted r s2) /\ client_says exc j l r (events_of i order) /\
            out s2 = out (hj_sys j) /\ err s2 = err (hj_sys j) /\ mirror_is (hj_mir j) None (dat s'))) /\
    (forall i cs p, nth_error ws i = Some (Reads cs) -> nth_error ps' i = Some p -> finished p = true ->
       exists rs, p = Ret (CRead rs) /\ reads_along E m g0 order 0 cs rs) /\
    (forall i p, nth_error ps' i = Some p -> finished p = false -> exists c', @cstep ccmd world (clisem E) _ i (ps', s') = Some c') /\
    (Forall (fun p => finished p = true) ps' -> lks s' = ∅) /\ List.length ps' = List.length ws.
Proof. exact c92_any_time. Qed.
Print Assumptions C92_any_time.

(** No execution goes on for ever. *)
Theorem C92_no_infinite_execution :
  forall E exc ws w f, f 0 = (print_clients exc ws, mkst w ∅) -> ~ forall n, exists i, @cstep ccmd world (clisem E) _ i (f n) = Some (f (S n)).
Proof. exact (fun E _ _ _ f _ => @no_infinite ccmd world _ (clisem E) f). Qed.
Print Assumptions C92_no_infinite_execution.

(** If no mirror is aggressive and every text is without line break or ends with one (so for
    every print() whose arguments have no line break, C90_print_is_whole), then at any moment
    the records of the server are whole lines of single clients, those of each client in the
    order in which they were printed, and after the lines of a client the exception that left
    its block; nothing is unfinished; and what any reader returns from read() is such a list
    of records, too. *)
Theorem C92_lines_stay_whole :
  forall E m g0 exc ws w sch ps' s', 1 <= m -> clients_ok ws w -> line_clients ws -> server E m (w_srv w) g0 false -> w_faults w = [] ->
  pend g0 = [] -> @sched_run ccmd world (clisem E) _ sch (print_clients exc ws, mkst w ∅) = Some (ps', s') ->
  exists li : list (nat * item),
    server E m (w_srv (dat s')) (mkslog (done g0 ++ map snd li) []) false /\
    (forall i x, In (i, x) li -> exists j, nth_error ws i = Some (Prints j)) /\
    (forall i j, nth_error ws i = Some (Prints j) ->
       (exists rest, client_prints exc j (events_of i li ++ rest)) /\
       (forall p, nth_error ps' i = Some p -> finished p = true -> client_prints exc j (events_of i li))) /\
    ((forall x, In x (done g0) -> ~ is_raw x) ->
     forall i cs p, nth_error ws i = Some (Reads cs) -> nth_error ps' i = Some p -> finished p = true ->
       exists rs, p = Ret (CRead rs) /\ lines_read m (done g0 ++ map snd li) (List.length (done g0)) cs rs).
Proof. exact c92_lines. Qed.
Print Assumptions C92_lines_stay_whole.

(** ** Concrete case: two clients; the first prints two lines, one of them in two calls, the
    second one prints elsewhere too and is left by an exception with an unfinished line; a
    reader reads twice *)
Definition M2 : hmir := mkhm 1 false 105.
Definition ws2 : list hwork :=
  [Prints (mkhjob M0 5 (KSeq (print false [txt "a"; txt "b"]) (KSeq (KPut false (txt "c")) (print true [txt "d"]))) std);
   Prints (mkhjob M2 6 (KSeq (KWith (ROut 7 100) (print false [txt "x"])) (KSeq (KPut true (txt "tail")) (KRaise exc1))) std);
   Reads [RdRead None; RdClosed; RdRead (Some 2%Z)]].
Local Ltac tell := lazymatch goal with
  | |- told _ _ _ KPass _ _ => constructor
  | |- told _ _ _ (KSeq _ _) _ _ => eapply t_seq; [tell|tell]
  | |- told _ _ _ (KPut false _) _ _ => eapply (t_out _ _ _ _ _ (Good 0)); reflexivity
  | |- told _ _ _ (KPut true _) _ _ => eapply (t_err _ _ _ _ _ (Good 0)); reflexivity
  | |- told _ _ _ (KWith (ROut _ _) _) _ _ => eapply t_rout; [|tell]; discriminate
  | |- told _ _ _ (KRaise _) _ _ => constructor
  | |- _ => idtac
  end.
Local Ltac steps := repeat first [constructor 1 | econstructor; [constructor; apply LineBufProofs.log_write_fun; vm_compute; reflexivity|]].
Local Ltac whole := lazymatch goal with
  |- ProcSpec.whole_lines ?t => exists (fst (SpecFacts.seg t)), (snd (SpecFacts.seg t)); split; [apply SpecFacts.seg_segments|vm_compute; auto] end.
Example C92_case : clients_ok ws2 world0 /\ line_clients ws2 /\ server E1 4 (w_srv world0) slog0 false /\
  (forall i j, nth_error ws2 i = Some (Prints j) ->
     client_prints show_exc j (nth i [[IStr (txt "a b"); IStr (txt "cd")]; [IStr (txt "tail"); told_error (txt "boom")]] [])).
Proof.
  split; [|split; [|split; [apply C78_demo_server|]]].
  - split; [repeat constructor; cbn; intuition discriminate|]. split; [repeat constructor; cbn; intuition discriminate|].
    split; [repeat constructor|]. split.
    + intros j [H|[H|[H|[]]]]; try discriminate; injection H as <-; (split; [reflexivity|]; split; [cbn; tauto|intros []]).
    + intros cs [H|[H|[H|[]]]]; try discriminate. injection H as <-. repeat constructor.
  - intros j [H|[H|[H|[]]]]; try discriminate; injection H as <-; (split; [reflexivity|]; split; vm_compute code_texts;
      repeat (apply List.Forall_cons; [first [whole|repeat constructor; lia]|]); apply List.Forall_nil).
  - intros [|[|[|i]]] j H; try discriminate; [| |destruct i; discriminate]; injection H as <-; cbn [nth].
    + eexists _, _, _, [IStr (txt "a b"); IStr (txt "cd")], []. split; [split|].
      * unfold print. cbn [hj_code hj_obj print_texts print_args app put_all]. tell.
      * repeat constructor; eexists; reflexivity.
      * split; [cbn; steps|]. split; [apply ln_empty|reflexivity].
    + eexists _, _, _, [IStr (txt "tail")], []. split; [split|].
      * unfold print. cbn [hj_code hj_obj print_texts print_args app put_all]. tell.
      * repeat constructor; eexists; reflexivity.
      * split; [cbn; steps|]. split; [apply (ln_some [] (txt "tail")); discriminate|reflexivity].
Qed.
Definition ended (p : prog ccmd hresult) : option (option ending * list (outcome cres)) :=
  match p with Ret (CPrinted r _) => Some (Some r, []) | Ret (CRead rs) => Some (None, rs) | _ => None end.
(** One way it can go. *)
Definition goes (turns : list (nat * nat)) (ws : list hwork) : list (option (option ending * list (outcome cres))) * (list item * text) :=
  let c := @plan ccmd world _ (clisem E1) turns (print_clients show_exc ws, mkst world0 ∅) in
  (map ended (fst c), shown (dat (snd c))).
Example C92_run :
  goes [(0, 60); (1, 300); (2, 1); (0, 300); (2, 300)] ws2 =
  ([Some (Some Ends, []); Some (Some (Throws exc1), []);
    Some (None, [Good (CItems [IStr (txt "a b"); IStr (txt "tail"); told_error (txt "boom")]); Good (CJson (JBool false));
                 Good (CItems [told_error (txt "boom"); IStr (txt "cd")])])],
   ([IStr (txt "a b"); IStr (txt "tail"); told_error (txt "boom"); IStr (txt "cd")], [])).
Proof. vm_compute. reflexivity. Qed.

(** The conditions of C92_lines_stay_whole are needed: a text with a line break inside it
    (one client prints 'a\nb', another one 'c'), and aggressive mirrors, which send every
    argument of print() by itself. *)
Definition mixing_clients : list hwork :=
  [Prints (mkhjob M0 5 (print false [txt "a" ++ [LF] ++ txt "b"]) std); Prints (mkhjob M2 6 (print false [txt "c"]) std)].
Definition aggressive_clients : list hwork :=
  [Prints (mkhjob (mkhm 0 true 101) 5 (print false [txt "a"; txt "b"]) std); Prints (mkhjob M1 6 (print false [txt "c"]) std)].
Theorem C92_lines_mix_refuted :
  exists sch ps' s', @sched_run ccmd world (clisem E1) _ sch (print_clients show_exc mixing_clients, mkst world0 ∅) = Some (ps', s') /\
  Forall (fun p => finished p = true) ps' /\ shown (dat s') = ([IStr (txt "a"); IStr (txt "bc"); IStr []], []).
Proof. apply (client_run E1 [(0, 20); (1, 300); (0, 300)] shown); vm_compute; reflexivity. Qed.
Print Assumptions C92_lines_mix_refuted.
Theorem C92_aggressive_mix_refuted :
  exists sch ps' s', @sched_run ccmd world (clisem E1) _ sch (print_clients show_exc aggressive_clients, mkst world0 ∅) = Some (ps', s') /\
  Forall (fun p => finished p = true) ps' /\ shown (dat s') = ([IStr (txt "ac"); IStr (txt " b")], []).
Proof. apply (client_run E1 [(0, 20); (1, 300); (0, 300)] shown); vm_compute; reflexivity. Qed.
Print Assumptions C92_aggressive_mix_refuted.
