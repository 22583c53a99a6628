(** * C100: exactly which lines are undefined *)

From Verif Require Import Base SplitModel FromStringModel FromStringSpec ConvTotalSpec HistoryModel HistorySpec MenuModel
  SessionModel ResolveSpec SessionSpec ReachSpec FeedUBSpec FeedUBProofs PropReach.
Open Scope nat_scope.
Open Scope list_scope.

(** C100: a line that names a function, with as many arguments as it has parameters, one of which is undefined as a text of its
    type while those before it are converted, is undefined, whichever command it names; *)
Theorem C100_undefined : forall E fuel line w w0 toks ctx h pars args, recorded line w toks w0 -> unique_ids (w_root w) -> in_menu w ctx ->
  resolves E ctx toks (TRun h pars args) -> traps E pars args -> feed E (S fuel) line w = FUB.
Proof. exact feed_traps. Qed.
Print Assumptions C100_undefined.
(** and no other line is, but recalls: whatever the text, the tree, the platform and the user code (that lets no [bad_cast] escape). *)
Theorem C100_only : forall E size fuel line w, size >= 1 -> reachable size (w_hist w) -> unique_ids (w_root w) -> live w -> user_tree (w_root w) ->
  handlers_no_bad_cast E -> hooks_no_bad_cast E -> ~ recall E line -> feed E (S fuel) line w = FUB ->
  exists ctx toks h pars args, in_menu w ctx /\ split line = Some toks /\ toks <> [] /\ resolves E ctx toks (TRun h pars args) /\ traps E pars args.
Proof. exact feed_undefined_only. Qed.
Print Assumptions C100_only.
(** A recall is undefined iff no command was ever recorded, or the line it recalls is. *)
Theorem C100_recall : forall E size line a n w, size >= 1 -> reachable size (w_hist w) -> hooks_no_bad_cast E ->
  split line = Some [lit "!"; a] -> convert E (PInt UInt) a = COk (VInt n) ->
  exists h1 h2, new_command (w_hist w) line = Some h1 /\ forget_latest h1 = Some h2 /\
    forall fuel, feed E (S fuel) line w = FUB <-> next_id h2 = 0%Z \/ exists s, In (n, s) (view h2) /\ feed E fuel s (set_hist h2 w) = FUB.
Proof. exact recall_undefined. Qed.
Print Assumptions C100_recall.
(** Where [char] is signed, every enabled function with a number or a bool among its parameters is within reach of such a line. *)
Theorem C100_every_number : forall E fuel size w l m anc ws id name desc pars1 t pars2 pdesc h vs,
  char_signed (e_plat E) = true -> strict (e_plat E) = false -> size >= 1 -> reachable size (w_hist w) -> unique_ids (w_root w) -> well_named (w_root w) ->
  in_menu w (l ++ m :: anc) -> Forall (fun x => cmd_en x = true) l ->
  named_by m ws (CFn id name true desc (pars1 ++ t :: pars2) pdesc h) -> Forall2 (passable E) pars1 vs -> numeric t ->
  exists line, feed E (S fuel) line w = FUB.
Proof. exact every_number. Qed.
Print Assumptions C100_every_number.

(** The session of PropReach.v: the second argument of [take it] is undefined; not if the first is no number, or the second is the
    byte 255; the argument of ['!'] is undefined as well. *)
Definition take (a b : str) : str := lit ".. .. pick ""take it"" " ++ a ++ lit " " ++ b ++ lit " c s".
Definition trap_world : world := set_cur 23 (open_session 0 5 reach_root 30 (StVolatile 10 [take (lit "7") (lit "1" ++ ["200"%char])]) []).
Example C100_nonvacuous :
  feed reach_env 1 (take (lit "7") (lit "1" ++ ["200"%char])) reach_world = FUB /\
  traps reach_env [PInt Short; PBool; PChar; PString] [lit "7"; lit "1" ++ ["200"%char]; lit "c"; lit "s"] /\
  (exists w', feed reach_env 1 (take (lit "7x") (lit "1" ++ ["200"%char])) reach_world = FOk w') /\
  (exists w', feed reach_env 1 (take (lit "7") (lit "1" ++ ["255"%char])) reach_world = FOk w') /\
  feed reach_env 1 (lit "! " ++ ["200"%char]) reach_world = FUB /\
  user_tree (w_root reach_world) /\ handlers_no_bad_cast reach_env /\ hooks_no_bad_cast reach_env /\
  feed reach_env 2 (lit "!0") trap_world = FUB /\ (exists w', feed reach_env 2 (lit "!1") trap_world = FOk w').
Proof.
  split; [vm_compute; reflexivity|]. split; [apply convert_all_ub; vm_compute; reflexivity|].
  split; [eexists; vm_compute; reflexivity|]. split; [eexists; vm_compute; reflexivity|]. split; [vm_compute; reflexivity|].
  split; [repeat constructor; eexists; reflexivity|]. split; [intros sid h args tr s; discriminate|]. split; [intros sid k tr s; discriminate|].
  split; [vm_compute; reflexivity|]. eexists. vm_compute. reflexivity.
Qed.
