(** * PrintCli: clients of one service that print into their mirrors, and readers

    Every client process runs [with LineHostMirror(...): code]; other processes read
    with a LineHostReader; one server.  [kprog] is that of PrintPool.v.
    Not modelled: what HostCli.v and PrintPool.v leave out. *)
From stdpp Require Import gmap.
From Coq Require Import List NArith ZArith Bool Arith.
From Verif Require Import PyStr Prog PyIO Base Spec LineBuf.
From Verif Require ProcSpec.
From Verif Require Import Json JsonSpec Host HostSpec HostCli HostCliSpec Ctx Print PrintSpec PrintPool.
Import ListNotations.
Local Open Scope prog_scope.
Local Open Scope nat_scope.

(** The object [k] is the LineHostMirror [M]; other streams accept every text.
    LineHostMirror.__exit__ calls close(exc_value) (host.py:136). *)
Definition cli_write (M : hmir) (k : nat) (o : nat) (data : text) : prog ccmd nat :=
  if o =? k then hm_write M data else Ret (length data).
Definition cli_exit (M : hmir) (k : nat) (o : nat) (e : option excobj) : prog ccmd unit :=
  if o =? k then hm_close M e else Ret tt.
Definition cli_code (M : hmir) (k : nat) (exc : exn -> excobj) (b : code) (s : sys) : prog ccmd (ending * sys) :=
  kprog (cli_write M k) (cli_exit M k) exc b s.

(** A client: [with mirror: code], where [mirror] is the object [hj_obj] in its process;
    [hj_sys]: the streams at the beginning. *)
Record hjob := mkhjob { hj_mir : hmir; hj_obj : nat; hj_code : code; hj_sys : sys }.
Inductive hwork := Prints (j : hjob) | Reads (cs : list rcall).
Inductive hresult := CPrinted (r : ending) (s : sys) | CRead (rs : list (outcome cres)).
Definition print_client (exc : exn -> excobj) (x : hwork) : prog ccmd hresult :=
  match x with
  | Prints j => x <- cli_code (hj_mir j) (hj_obj j) exc (KWith (Buf (hj_obj j)) (hj_code j)) (hj_sys j) ;;
                Ret (CPrinted (fst x) (snd x))
  | Reads cs => rs <- thread (map r_call cs) ;; Ret (CRead rs)
  end.
Definition print_clients (exc : exn -> excobj) (ws : list hwork) : list (prog ccmd hresult) := map (print_client exc) ws.

(** ** Vocabulary of the statements *)
Definition mirrors_at (ws : list hwork) : list hmir :=
  flat_map (fun x => match x with Prints j => [hj_mir j] | Reads _ => [] end) ws.
(** Different mirrors with RLocks of their own, each new (open, holding nothing); a mirror
    is not entered again inside its block. *)
Definition clients_ok (ws : list hwork) (w : world) : Prop :=
  NoDup (map hm_id (mirrors_at ws)) /\ NoDup (map hm_lock (mirrors_at ws)) /\ Forall has_rlock (mirrors_at ws) /\
  (forall j, In (Prints j) ws -> mirror_is (hj_mir j) (Some []) w /\ well_nested (hj_code j) /\ ~ In (hj_obj j) (entered (hj_code j))) /\
  (forall cs, In (Reads cs) ws -> Forall reading cs).

(** What the client prints into its mirror [l], and how its block ends [r]. *)
Definition client_does (exc : exn -> excobj) (j : hjob) (l : list happened) (r : ending) : Prop :=
  told exc (Some (hj_obj j)) (Some (hj_obj j)) (hj_code j) l r /\ all_good l.
(** The messages of a client: those of the writes, then those of close(). *)
Definition client_says (exc : exn -> excobj) (j : hjob) (l : list happened) (r : ending) (ms : list hmsg) : Prop :=
  client_does exc j l r /\ exists rs,
  mcalls_do (hm_aggr (hj_mir j)) (map HWrite (texts_to (hj_obj j) l) ++ [HClose (exc_value r)]) (Some []) ms rs None.
(** The records of a client: the lines it prints, an unfinished one at the end, then the
    exception that left the block. *)
Definition client_prints (exc : exn -> excobj) (j : hjob) (items : list item) : Prop :=
  exists l r g dn p, client_does exc j l r /\ log_steps (map SWrite (texts_to (hj_obj j) l)) slog0 g /\
    log_new_line g (mkslog dn p) /\
    items = dn ++ match exc_value r with Some e => [IMsg (wire_msg (gm_init (GMExc e)))] | None => [] end.
(** No mirror is aggressive; every text is without line break or ends with one; no text has
    surrogates. *)
Definition line_clients (ws : list hwork) : Prop :=
  forall j, In (Prints j) ws -> hm_aggr (hj_mir j) = false /\
    Forall ProcSpec.whole_lines (code_texts (hj_code j)) /\ Forall plain (code_texts (hj_code j)).
(** The calls of a reader, of which [read()] returns the records that were there: the first
    [q] ones of [all], with [q] growing; [maxlen]: as in LineHostBuffer. *)
Inductive lines_read (maxlen : nat) (all : list item) : nat -> list rcall -> list (outcome cres) -> Prop :=
| lr_nil q : lines_read maxlen all q [] []
| lr_read q q' size cs rs : q <= q' <= length all -> lines_read maxlen all q' cs rs ->
    lines_read maxlen all q (RdRead size :: cs)
      (Good (CItems (map wire_item (view maxlen (option_map (Z.max 0) size) (mkslog (firstn q' all) [])))) :: rs)
| lr_other q c cs r rs : (forall size, c <> RdRead size) -> lines_read maxlen all q cs rs -> lines_read maxlen all q (c :: cs) (r :: rs).
