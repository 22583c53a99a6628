(** * C93: changing menus while a line is being processed *)

From Verif Require Import Base FromStringModel FromStringSpec FromStringProofs HistoryModel HistorySpec StorageModel MenuModel SessionModel
  ResolveSpec SessionSpec Demo LiveModel LiveSpec LiveProofs LiveVecProofs.
Open Scope nat_scope.
Open Scope list_scope.

(** C93: looking a line up in the menus calls only commands that are enabled and in the menus
    at the moment they are called; all but the last call ended with a std::bad_cast. *)
Theorem C93_calls : forall E toks w,
  match live_scan E toks w with
  | LDone true s => exists w1, turned_down E toks w w1 /\ answered E toks w1 (l_w s)
  | LDone false s => turned_down E toks w (l_w s)
  | LExc x s => exists w1, turned_down E toks w w1 /\ threw E toks w1 (l_w s) x
  | LUB => True
  end.
Proof. intros E toks w. exact (live_progress E toks w). Qed.
Print Assumptions C93_calls.

(** If functions that end with a std::bad_cast insert and remove nothing, behaviour is
    defined, whatever they enable and disable. *)
Theorem C93_flags : forall E size line fuel w,
  bad_casts_keep_vectors E -> hooks_no_bad_cast E -> strict (e_plat E) = false -> size >= 1 ->
  ~ recall E line -> legible E line -> reachable size (w_hist w) -> live w -> user_tree (w_root w) ->
  live_feed E (S fuel) line w <> FUB /\ live_feed E (S fuel) line w <> FFuel.
Proof. intros E size line fuel w Hf Hk Hs. exact (live_feed_defined E Hf Hs Hk size line fuel w). Qed.
Print Assumptions C93_flags.

(** Wherever SessionModel.v defines what a line does, it is this. *)
Theorem C93_agrees : forall E fuel line w, sound w -> feed E fuel line w <> FUB -> live_feed E fuel line w = feed E fuel line w.
Proof. exact feed_agree. Qed.
Print Assumptions C93_agrees.

(** A function found in the current menu ends with a std::bad_cast: behaviour is undefined if
    the vector of commands of the menu was not the same all the time while it ran ... *)
Theorem C93_broken : forall E w m anc before after id name d pars pd u args vs what, sound w ->
  chain (w_root w) (m :: anc) -> cmd_id m = w_cur w -> cmd_en m = true ->
  cmd_kids m = before ++ CFn id name true d pars pd (HUser u) :: after -> (forall k, In k before -> cmd_name k <> name) ->
  converts E pars args vs -> call_end E u vs w = UThrow (XBadCast what) ->
  ~ left_alone (w_cur w) (call_ops E u vs w) w -> live_scan E (name :: args) w = LUB.
Proof. exact scan_broken. Qed.
Print Assumptions C93_broken.
(** ... and if it was the same, and this was the last command of the root menu, the line is
    answered by nothing, whatever became of other menus. *)
Theorem C93_unharmed : forall E w m anc before after id name d pars pd u args vs what, sound w ->
  chain (w_root w) (m :: anc) -> cmd_id m = w_cur w -> cmd_en m = true ->
  cmd_kids m = before ++ CFn id name true d pars pd (HUser u) :: after -> (forall k, In k before -> cmd_name k <> name) ->
  converts E pars args vs -> call_end E u vs w = UThrow (XBadCast what) ->
  left_alone (w_cur w) (call_ops E u vs w) w -> after = [] -> m = w_root w ->
  exists s, live_scan E (name :: args) w = LDone false s /\ l_w s = call_left E u vs w.
Proof. exact scan_goes_on. Qed.
Print Assumptions C93_unharmed.

(** Three commands go; a function does to one of them what [o] says and throws a bad_cast. *)
Definition go_env (o : list op) : env :=
  mkEnv (mkPlatform true false) (fun _ _ => None) (fun _ _ => None)
    (fun sid h args tr => match h with 1 => mkURes o (UThrow (XBadCast (lit "std::bad_cast"))) | _ => mkURes [OOut (lit "ran")] UReturn end)
    (fun _ _ _ _ => mkURes [] UReturn) (fun _ => false).
Definition go_root : cmd :=
  CMenu 0 (lit "cli") true [] (lit "cli")
    [CFn 1 (lit "go") true [] [] [] (HUser 1); CFn 2 (lit "go") true [] [] [] (HUser 2); CFn 3 (lit "go") false [] [] [] (HUser 3);
     CMenu 4 (lit "sub") true [] (lit "sub") [CFn 5 (lit "x") true [] [] [] (HUser 1)]].
Definition go_world : world := open_session 0 10 go_root 6 (StVolatile 10 []) [].

(** Removing a command before a std::bad_cast escapes is undefined behaviour: the loop over the
    menu goes on with an invalid iterator.  So is inserting one, and removing the menu. *)
Theorem C93_remove_refuted : exists E line w, sound w /\ live w /\ live_feed E 3 line w = FUB.
Proof.
  exists (go_env [ORemove 3]), (lit "go"), go_world. split; [|split; [|vm_compute; reflexivity]].
  - split; [unfold unique_ids; cbn; repeat constructor; cbn; intuition discriminate|cbn; repeat constructor].
  - exists [go_root]. split; [constructor; repeat eexists|]. exists go_root, []. split; reflexivity.
Qed.
Print Assumptions C93_remove_refuted.
Theorem C93_insert_refuted : exists E line w, sound w /\ live w /\ live_feed E 3 line w = FUB.
Proof.
  exists (go_env [OInsert 0 (CFn 0 (lit "new") true [] [] [] (HUser 2))]), (lit "go"), go_world. split; [|split; [|vm_compute; reflexivity]].
  - split; [unfold unique_ids; cbn; repeat constructor; cbn; intuition discriminate|cbn; repeat constructor].
  - exists [go_root]. split; [constructor; repeat eexists|]. exists go_root, []. split; reflexivity.
Qed.
Print Assumptions C93_insert_refuted.
Theorem C93_menu_refuted : exists E line w, sound w /\ live w /\ live_feed E 3 line w = FUB.
Proof.
  exists (go_env [ORemove 4]), (lit "sub x"), go_world. split; [|split; [|vm_compute; reflexivity]].
  - split; [unfold unique_ids; cbn; repeat constructor; cbn; intuition discriminate|cbn; repeat constructor].
  - exists [go_root]. split; [constructor; repeat eexists|]. exists go_root, []. split; reflexivity.
Qed.
Print Assumptions C93_menu_refuted.

Definition ran (r : fres) : option (list event) := match r with FOk w => Some (w_trace w) | _ => None end.
Definition tried (h : nat) : event := EvCall 0 h [].
(** The first command disables the second and enables the third: the third runs.  Inserting into
    another menu than the one looked through is harmless. *)
Example C93_nonvacuous :
  ran (live_feed (go_env [ODisable 2; OEnable 3]) 3 (lit "go") go_world) = Some [tried 1; tried 3; EvOut 0 (lit "ran")] /\
  ran (live_feed (go_env [ODisable 2]) 3 (lit "go") go_world) = Some [tried 1; EvOut 0 (lit "wrong command: go" ++ nl)] /\
  ran (live_feed (go_env [OInsert 4 (CFn 0 (lit "new") true [] [] [] (HUser 2))]) 3 (lit "go") go_world) =
    Some [tried 1; EvInsert 4 6; tried 2; EvOut 0 (lit "ran")] /\
  ran (live_feed (go_env []) 3 (lit "go") go_world) = ran (feed (go_env []) 3 (lit "go") go_world) /\
  feed (go_env [ODisable 2]) 3 (lit "go") go_world = FUB.
Proof. repeat split; vm_compute; reflexivity. Qed.
Example C93_flags_nonvacuous : let E := go_env [ODisable 2; OEnable 3] in
  bad_casts_keep_vectors E /\ hooks_no_bad_cast E /\ strict (e_plat E) = false /\ ~ recall E (lit "go") /\ legible E (lit "go") /\
  reachable 10 (w_hist go_world) /\ live go_world /\ user_tree (w_root go_world).
Proof.
  cbn zeta. split; [|split; [|split; [|split; [|split; [|split; [|split]]]]]].
  - intros sid u vs tr x. cbn. destruct u as [|[|u]]; cbn; intros H; try discriminate. repeat constructor.
  - intros sid k args tr s. discriminate.
  - reflexivity.
  - intros (a & n & H & _). vm_compute in H. discriminate.
  - right. repeat constructor.
  - exists []. reflexivity.
  - exists [go_root]. split; [constructor; repeat eexists|]. exists go_root, []. split; reflexivity.
  - cbn. repeat split; eexists; reflexivity.
Qed.

(** Inserting into the menu sub leaves the root menu alone; inserting into the root menu and
    removing the command again does not. *)
Definition last_root : cmd :=
  CMenu 0 (lit "cli") true [] (lit "cli")
    [CMenu 4 (lit "sub") true [] (lit "sub") []; CFn 1 (lit "go") true [] [] [] (HUser 1)].
Definition last_world : world := open_session 0 10 last_root 6 (StVolatile 10 []) [].
Definition new_cmd : cmd := CFn 0 (lit "new") true [] [] [] (HUser 2).
Example C93_broken_nonvacuous : let E := go_env [OInsert 0 new_cmd; ORemove 6] in
  sound last_world /\ chain (w_root last_world) [last_root] /\ cmd_id last_root = w_cur last_world /\
  converts E [] [] [] /\ call_end E 1 [] last_world = UThrow (XBadCast (lit "std::bad_cast")) /\
  ~ left_alone 0 (call_ops E 1 [] last_world) last_world.
Proof.
  assert (Hs : sound last_world) by (split; [unfold unique_ids; cbn; repeat constructor; cbn; intuition discriminate|cbn; repeat constructor]).
  cbn zeta. split; [exact Hs|]. split; [constructor; repeat eexists|]. split; [reflexivity|]. split; [constructor|]. split; [reflexivity|].
  intros H. apply left_alone_iff in H; [vm_compute in H; discriminate|exact Hs|left; reflexivity].
Qed.
Example C93_unharmed_nonvacuous : let E := go_env [OInsert 4 new_cmd; ORemove 6; ORemove 4] in
  left_alone 0 (call_ops (go_env [OInsert 4 new_cmd; ORemove 6]) 1 [] last_world) last_world /\
  ~ left_alone 0 (call_ops E 1 [] last_world) last_world.
Proof.
  assert (Hs : sound last_world) by (split; [unfold unique_ids; cbn; repeat constructor; cbn; intuition discriminate|cbn; repeat constructor]).
  cbn zeta. split.
  - apply left_alone_iff; [exact Hs|left; reflexivity|vm_compute; reflexivity].
  - intros H. apply left_alone_iff in H; [vm_compute in H; discriminate|exact Hs|left; reflexivity].
Qed.
