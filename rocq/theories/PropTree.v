(** * C32-C37, C51, C54, C57: properties of menus and sessions *)

From Verif Require Import Base SplitModel SplitSpec FromStringModel HistoryModel HistorySpec StorageModel StorageSpec TerminalModel TerminalSpec MenuModel SessionModel
  ResolveSpec ResolveProofs SessionSpec TreeProofs SessionProofs InvariantProofs FeatureProofs SafetyProofs NavProofs ListingProofs Demo.
Open Scope nat_scope.
Open Scope list_scope.

(** C32: the listing of the tree determines the tree, *)
Theorem C32_listing_faithful : forall c c', flat [] c = flat [] c' -> c = c'.
Proof. exact flat_inj. Qed.
Print Assumptions C32_listing_faithful.
(** and every sequence of operations changes the listing as specified: enabling and
    disabling change one entry, removing drops one entry and what is below it,
    inserting adds the new command behind everything in its menu. *)
Theorem C32_operations : forall os w, sound w ->
  (flat [] (w_root (apply_ops os w)), w_next (apply_ops os w)) = fold_left listing_op os (flat [] (w_root w), w_next w) /\
  sound (apply_ops os w).
Proof. exact listing_steps. Qed.
Print Assumptions C32_operations.
(** The inserted command is the given one, with fresh ids. *)
Theorem C32_insert_fresh : forall c n,
  renumbered c (fst (relabel n c)) /\ let (c', n') := relabel n c in n < n' /\ forall i, In i (ids c') <-> n <= i < n'.
Proof. intros c n. split; [apply relabel_renumbered|apply relabel_fresh]. Qed.
Print Assumptions C32_insert_fresh.
(** A removed command never comes back, and operations on it do nothing. *)
Theorem C32_removed_for_good : forall id os w, sound w -> In id (ids (w_root w)) -> cmd_id (w_root w) <> id ->
  ~ In id (ids (w_root (apply_ops os (apply_op w (ORemove id))))).
Proof. exact removed_for_good. Qed.
Print Assumptions C32_removed_for_good.
Theorem C32_gone_no_effect : forall id w, ~ In id (ids (w_root w)) ->
  apply_op w (OEnable id) = w /\ apply_op w (ODisable id) = w /\ apply_op w (ORemove id) = w.
Proof. exact gone_no_effect. Qed.
Print Assumptions C32_gone_no_effect.
(** Enable undoes Disable. *)
Theorem C32_enable_restores : forall id b b' c, set_enabled id b (set_enabled id b' c) = set_enabled id b c.
Proof. exact set_enabled_twice. Qed.
Print Assumptions C32_enable_restores.

Lemma demo_unique : unique_ids demo_root.
Proof. unfold unique_ids; cbn; repeat constructor; cbn; intuition discriminate. Qed.
Lemma demo_sound : sound demo_world.
Proof. split; [exact demo_unique|]. cbn. repeat constructor. Qed.
Lemma demo_in : in_menu demo_world [demo_root].
Proof. split; [constructor; repeat eexists|do 2 eexists; split; reflexivity]. Qed.

Example C32_nonvacuous : sound demo_world /\ In 13 (ids (w_root demo_world)) /\
  map (fun x => label_id (snd x))
    (flat [] (w_root (apply_ops [OInsert 13 (CMenu 0 (lit "m") true [] [] [CFn 0 (lit "f") true [] [] [] (HUser 0)]); ORemove 15; ODisable 11] demo_world)))
  = [10; 11; 12; 13; 14; 20; 21; 17; 18; 19].
Proof. split; [exact demo_sound|]. split; [right; right; right; left; reflexivity|reflexivity]. Qed.

(** C33: if user code removes no menu, the current menu stays in the tree. *)
Theorem C33_current_menu_live : forall E (R : nat -> Prop) fuel lines w, code_removes_only E R -> removable R w -> live w ->
  f_inv (fun w' => removable R w' /\ live w') (feeds E fuel lines w).
Proof.
  intros E R fuel lines w Hc Hr Hl. assert (Hg : guarded R w) by (apply removable_guarded; auto).
  pose proof (guarded_feeds E R fuel lines w Hc Hg) as H.
  destruct (feeds E fuel lines w); cbn in H |- *; auto; apply removable_guarded; exact H.
Qed.
Print Assumptions C33_current_menu_live.
(** Whatever user code does, ids stay unique. *)
Theorem C33_sound : forall E fuel line w, sound w -> f_inv sound (feed E fuel line w).
Proof. exact sound_feed. Qed.
Print Assumptions C33_sound.
Example C33_nonvacuous :
  let R := fun i => i = 11 \/ i = 12 in
  code_removes_only (mkEnv (mkPlatform true false) (fun _ _ => None) (fun _ _ => None)
     (fun _ _ _ _ => mkURes [ORemove 11; ODisable 10] UReturn) demo_hook (fun _ => true)) R /\ removable R demo_world /\ live demo_world.
Proof.
  cbn zeta. split; [split; intros; intros id; cbn; intuition congruence|]. split.
  - intros id Hid. split; [destruct Hid; subst; cbn; lia|]. intros m anc Hc He.
    assert (Hin : In (cmd_id m) (menu_ids demo_root)) by (apply (chain_menu_ids demo_world); eauto).
    rewrite He in Hin. cbn in Hin. destruct Hid; subst; intuition discriminate.
  - eexists. exact demo_in.
Qed.
(** A function that removes the menu the session is in leaves it dangling. *)
Theorem C33_removed_refuted : exists E w line, sound w /\ live w /\
  forall fuel, exists w', feed E (S fuel) line w = FOk w' /\ ~ live w' /\ forall tty color force, prompt tty color force w' = None.
Proof.
  exists quiet_env, (set_cur 13 bad_world), (lit "kill").
  split; [split; [unfold unique_ids; cbn; repeat constructor; cbn; intuition discriminate|cbn; repeat constructor]|].
  split; [apply live_spec; cbn; tauto|]. intros fuel. eexists. split; [reflexivity|]. split; [|reflexivity].
  rewrite live_spec. cbn. intuition discriminate.
Qed.
Print Assumptions C33_removed_refuted.

(** C34: a line that is not a recall ends without recursion; a recall ends after one
    level if no entry of the history is a recall, *)
Theorem C34_terminates : forall E line w, ~ recall E line ->
  forall fuel, feed E (S fuel) line w = feed E 1 line w /\ feed E 1 line w <> FFuel.
Proof. exact feed_once. Qed.
Print Assumptions C34_terminates.
Theorem C34_recall_terminates : forall E line w, no_recalls E w ->
  forall fuel, feed E (S (S fuel)) line w = feed E 2 line w /\ feed E 2 line w <> FFuel.
Proof. exact feed_twice. Qed.
Print Assumptions C34_recall_terminates.
(** and feeding lines never makes a recall an entry. *)
Theorem C34_no_recalls : forall E fuel line w, no_recalls E w -> f_inv (no_recalls E) (feed E fuel line w).
Proof. exact no_recalls_feed. Qed.
Print Assumptions C34_no_recalls.
Example C34_nonvacuous : no_recalls quiet_env demo_world /\ recall quiet_env (lit "!1") /\
  exists w', feed quiet_env 2 (lit "!1") demo_world = FOk w'.
Proof.
  split; [intros s [<-|[<-|[]]] (a & n & H & _); discriminate|]. split; [do 2 eexists; split; reflexivity|]. eexists. reflexivity.
Qed.
(** With a recall of itself in a stored history, feeding it never ends. *)
Theorem C34_loop_refuted : exists E w line, forall fuel, feed E fuel line w = FFuel.
Proof.
  exists quiet_env, (open_session 0 5 demo_root 20 (StVolatile 10 [lit "!0"; lit "x"]) []), (lit "!0").
  set (w := open_session 0 5 demo_root 20 (StVolatile 10 [lit "!0"; lit "x"]) []).
  assert (H : forall fuel c, feed quiet_env fuel (lit "!0") (set_hist (mkHistory 5 [lit "x"; lit "!0"] 0 c false 0) w) = FFuel).
  { induction fuel as [|fuel IH]; intros c; [reflexivity|].
    erewrite (recall_recorded quiet_env (lit "!0") (set_hist (mkHistory 5 [lit "x"; lit "!0"] 0 c false 0) w) (lit "0") 0 _ _ eq_refl eq_refl eq_refl eq_refl); [|intros sid k args tr s; discriminate].
    match goal with |- context[at_id ?h ?n] => change (at_id h n) with (AtOk (lit "!0")) end.
    cbv iota. change (set_hist _ (set_hist _ w)) with (set_hist (mkHistory 5 [lit "x"; lit "!0"] 0 (S c) false 0) w).
    rewrite IH. reflexivity. }
  intros fuel. exact (H fuel 0).
Qed.
Print Assumptions C34_loop_refuted.

(** C35: a path leads to its menu, *)
Theorem C35_path : forall E fuel line w w0 ws ctx m anc, unique_ids (w_root w) -> in_menu w ctx -> recorded line w ws w0 ->
  ~ In (hd [] ws) global_names -> nav ctx ws (m :: anc) ->
  feed E (S fuel) line w = FOk (set_cur (cmd_id m) w0) /\ in_menu (set_cur (cmd_id m) w0) (m :: anc).
Proof. exact nav_feed. Qed.
Print Assumptions C35_path.
(** and its words on successive lines lead to the same menu. *)
Theorem C35_path_or_steps : forall E size fuel ws line lines w ctx m anc, size >= 1 -> ws <> [] -> Forall (fun x => ~ In x global_names) ws ->
  split line = Some ws -> Forall2 (fun l x => split l = Some [x]) lines ws ->
  unique_ids (w_root w) -> in_menu w ctx -> reachable size (w_hist w) -> nav ctx ws (m :: anc) ->
  exists h1 h2, feed E (S fuel) line w = FOk (set_cur (cmd_id m) (set_hist h1 w)) /\
    feeds E (S fuel) lines w = FOk (set_cur (cmd_id m) (set_hist h2 w)).
Proof. exact nav_same. Qed.
Print Assumptions C35_path_or_steps.
Example C35_nonvacuous :
  let deep := CMenu 15 (lit "deep") true [] (lit "down here") [CFn 16 (lit "y") true [] [] [] (HUser 0)] in
  nav [demo_root] [lit "sub"; lit "deep"; lit ".."; lit "deep"] [deep; demo_sub; demo_root] /\
  Forall (fun x => ~ In x global_names) [lit "sub"; lit "deep"; lit ".."; lit "deep"] /\
  split (lit "sub deep .. deep") = Some [lit "sub"; lit "deep"; lit ".."; lit "deep"].
Proof.
  cbn zeta. split; [|split; [repeat constructor; cbn; intuition discriminate|reflexivity]].
  eapply nav_cons.
  { eapply (nav_down demo_root [] demo_sub [_; _] [_; _; _]); try reflexivity; [repeat eexists|repeat constructor; discriminate|discriminate]. }
  eapply nav_cons.
  { eapply (nav_down demo_sub [demo_root] _ [_] []); try reflexivity; [repeat eexists|repeat constructor; discriminate|].
    intros p rest H. injection H as <- <-. split; discriminate. }
  eapply nav_cons.
  { eapply nav_up; try reflexivity; [repeat eexists|right; reflexivity|repeat constructor; discriminate]. }
  eapply nav_cons; [|constructor].
  eapply (nav_down demo_sub [demo_root] _ [_] []); try reflexivity; [repeat eexists|repeat constructor; discriminate|].
  intros p rest H. injection H as <- <-. split; discriminate.
Qed.
(** A session whose current menu is disabled (by its own command, say) cannot leave it:
    every line but the global commands is rejected. *)
Theorem C35_disabled_refuted : exists w m anc, sound w /\ in_menu w (m :: anc) /\ anc <> [] /\
  forall E fuel line toks w0, recorded line w toks w0 -> ~ In (hd [] toks) global_names -> feed E (S fuel) line w = reject E line w0.
Proof.
  exists (set_cur 13 (apply_op demo_world (ODisable 13))), (set_enabled 13 false demo_sub), [set_enabled 13 false demo_root].
  assert (Hs : sound (set_cur 13 (apply_op demo_world (ODisable 13)))). { split; [vm_compute; repeat constructor; cbn; intuition discriminate|vm_compute; repeat constructor]. }
  assert (Hi : in_menu (set_cur 13 (apply_op demo_world (ODisable 13))) [set_enabled 13 false demo_sub; set_enabled 13 false demo_root]).
  { split; [|eexists _, _; split; reflexivity]. apply chain_sub; [apply chain_root; repeat eexists|right; right; left; reflexivity|repeat eexists]. }
  split; [exact Hs|]. split; [exact Hi|]. split; [discriminate|]. intros E fuel line toks w0 Hr Hg.
  apply (feed_unresolved E fuel line _ w0 toks _ Hr (proj1 Hs) Hi). split; [apply global_no_match, Hg|]. intros path t Hp. inversion Hp; subst; discriminate.
Qed.
Print Assumptions C35_disabled_refuted.

(** C36: the bytes of the prompt, *)
Theorem C36_prompt : forall tty color force w m anc, unique_ids (w_root w) -> in_menu w (m :: anc) -> w_exit w = false ->
  exists p force', menu_prompt m = Some p /\
    prompt tty color force w =
      Some ((if color then sgr 32 ++ sgr 1 else []) ++ p ++ (if force || color || tty then sgr 0 else []) ++ lit "> ", force').
Proof. exact prompt_bytes. Qed.
Print Assumptions C36_prompt.
(** where the prompt text is the one given to the menu (enabled at first), or else the
    menu's name, *)
Theorem C36_text : forall id name desc text kids,
  menu_prompt (make_menu id name desc text kids) = Some (if list_eq_dec ascii_dec text [] then name else text) /\
  cmd_en (make_menu id name desc text kids) = true.
Proof. intros id name desc [|c text] kids; split; reflexivity. Qed.
Print Assumptions C36_text.
(** what the user sees, whatever the colours, *)
Theorem C36_prompt_screen : forall tty color force w m anc p above row, unique_ids (w_root w) -> in_menu w (m :: anc) -> w_exit w = false ->
  menu_prompt m = Some p -> Forall printable p ->
  exists out force', prompt tty color force w = Some (out, force') /\
    display out (mkScreen above row [] (length row) Ground) =
      mkScreen above (row ++ p ++ lit "> ") [] (length (row ++ p ++ lit "> ")) Ground.
Proof. exact prompt_screen. Qed.
Print Assumptions C36_prompt_screen.
(** and nothing once the session has exited. *)
Theorem C36_no_prompt : forall tty color force w, w_exit w = true -> prompt tty color force w = Some ([], force).
Proof. exact prompt_exited. Qed.
Print Assumptions C36_no_prompt.
Example C36_nonvacuous : in_menu demo_world [demo_root] /\ w_exit demo_world = false /\
  prompt false false false demo_world = Some (lit "cli> ", false) /\
  prompt false true false demo_world = Some (sgr 32 ++ sgr 1 ++ lit "cli" ++ sgr 0 ++ lit "> ", true).
Proof. split; [exact demo_in|]. repeat split. Qed.

(** C37: exit runs the session's action, then the global one, then stores the
    history and marks the session; a throwing action ends it. *)
Theorem C37_exit : forall E size w, size >= 1 -> reachable size (w_hist w) ->
  (e_has E KSesExit = false /\ session_exit E w = HExc (XStd (lit "bad_function_call")) w) \/
  (exists w1 x, hook_ran E KSesExit w w1 (UThrow x) /\ session_exit E w = HExc x w1) \/
  (exists w1 w2 x, hook_ran E KSesExit w w1 UReturn /\ hook_ran E KCliExit w1 w2 (UThrow x) /\ session_exit E w = HExc x w2) \/
  (exists w1 w2, hook_ran E KSesExit w w1 UReturn /\ hook_ran_or_absent E KCliExit w1 w2 UReturn /\
     session_exit E w = HOk (set_exit true (set_store (st_store (w_store w) (lastn (h_cmds (w_hist w)) (committed (w_hist w)))) w2))).
Proof. exact exit_cases. Qed.
Print Assumptions C37_exit.
Theorem C37_enter : forall E w,
  (exists w1 x, hook_ran E KCliEnter w w1 (UThrow x) /\ session_enter E w = HExc x w1) \/
  (exists w1 w2 x, hook_ran_or_absent E KCliEnter w w1 UReturn /\ hook_ran E KSesEnter w1 w2 (UThrow x) /\ session_enter E w = HExc x w2) \/
  (exists w1 w2, hook_ran_or_absent E KCliEnter w w1 UReturn /\ hook_ran_or_absent E KSesEnter w1 w2 UReturn /\ session_enter E w = HOk w2).
Proof. exact enter_cases. Qed.
Print Assumptions C37_enter.
(** The command [exit] does that, and reports what an action throws. *)
Theorem C37_exit_command : forall E fuel line w w0, hooks_no_bad_cast E -> recorded line w [lit "exit"] w0 ->
  feed E (S fuel) line w =
  match session_exit E w0 with HOk w' => FOk w' | HExc x w' => report E line x w' | HUB => FUB | HFuel => FFuel end.
Proof. exact feed_exit. Qed.
Print Assumptions C37_exit_command.
(** Once a session has exited it stays so (and, by C36, shows no prompt). *)
Theorem C37_stays_exited : forall E fuel line w, w_exit w = true -> f_inv (fun w' => w_exit w' = true) (feed E fuel line w).
Proof. exact stays_exited. Qed.
Print Assumptions C37_stays_exited.
(** A session has exited only if its exit action was run: until then, it shows prompts. *)
Theorem C37_exited_by_action : forall E fuel lines sid size root nxt st tr,
  f_inv (fun w => w_exit w = true -> In (EvHook sid KSesExit []) (w_trace w)) (feeds E fuel lines (open_session sid size root nxt st tr)).
Proof. exact exited_by_action. Qed.
Print Assumptions C37_exited_by_action.
Example C37_nonvacuous :
  (exists w', feed full_env 1 (lit "exit") demo_world = FOk w' /\ w_exit w' = true /\
     w_trace w' = [EvHook 0 KSesExit []; EvBroadcast (lit "hook"); EvHook 0 KCliExit []; EvBroadcast (lit "hook")] /\
     st_commands (w_store w') = [lit "old"; lit "add 1 2"; lit "exit"]) /\
  (exists w', session_enter full_env demo_world = HOk w' /\
     w_trace w' = [EvHook 0 KCliEnter []; EvBroadcast (lit "hook"); EvHook 0 KSesEnter []; EvBroadcast (lit "hook")]).
Proof. split; eexists; vm_compute; repeat split. Qed.
(** If the session's exit action was set to an empty function, exit fails and the
    session goes on. *)
Theorem C37_empty_action_refuted : exists E w line, forall fuel, exists w', feed E (S fuel) line w = FOk w' /\
  split line = Some [lit "exit"] /\ w_exit w' = false /\ w_store w' = w_store w.
Proof. exists quiet_env, demo_world, (lit "exit"). intros fuel. eexists. repeat split. Qed.
Print Assumptions C37_empty_action_refuted.
(** Nothing stops a session that has exited: further commands run, and exiting again
    runs the actions and stores the commands again. *)
Theorem C37_again_refuted : exists w1 w2 w3, feed full_env 1 (lit "exit") demo_world = FOk w1 /\ w_exit w1 = true /\
  feed full_env 1 (lit "add 1 2") w1 = FOk w2 /\ In (EvCall 0 0 [VInt 1; VInt 2]) (w_trace w2) /\
  session_exit full_env w2 = HOk w3 /\ length (filter (fun e => match e with EvHook _ KSesExit _ => true | _ => false end) (w_trace w3)) = 2 /\
  st_commands (w_store w3) = [lit "old"; lit "add 1 2"; lit "exit"; lit "exit"; lit "add 1 2"].
Proof.
  do 3 eexists. split; [vm_compute; reflexivity|]. split; [reflexivity|]. split; [vm_compute; reflexivity|]. split; [vm_compute; tauto|].
  split; [vm_compute; reflexivity|]. split; reflexivity.
Qed.
Print Assumptions C37_again_refuted.

(** C51: the command [help]. *)
Theorem C51_help : forall E fuel line w w0 ctx, unique_ids (w_root w) -> in_menu w ctx -> recorded line w [lit "help"] w0 ->
  feed E (S fuel) line w = FOk (log (EvOut (w_sid w) (help_screen ctx)) w0).
Proof. exact feed_help. Qed.
Print Assumptions C51_help.
Example C51_nonvacuous :
  (exists w0, recorded (lit "help") demo_world [lit "help"] w0) /\
  skipn (length (help_screen [])) (help_screen [demo_sub; demo_root]) =
    lit " - x" ++ nl ++ tab ++ lit "throws" ++ nl ++ lit " - deep" ++ nl ++ tab ++ nl ++ lit " - cli" ++ nl ++ tab ++ nl.
Proof. split; [eexists; split; [reflexivity|split; [discriminate|eexists; split; reflexivity]]|reflexivity]. Qed.

(** C54: a new session starts with the newest stored commands, *)
Theorem C54_opened : forall sid size root nxt st tr,
  map snd (view (w_hist (open_session sid size root nxt st tr))) = lastn size (st_commands st).
Proof. exact opened_history. Qed.
Print Assumptions C54_opened.
(** and storing commands appends them and keeps the newest. *)
Theorem C54_stored : forall st cmds, (forall max f, st = StFile max f -> Forall one_line cmds) ->
  st_commands (st_store st cmds) = lastn (match st with StVolatile m _ | StFile m _ => m end) (st_commands st ++ cmds).
Proof. exact store_commands. Qed.
Print Assumptions C54_stored.
(** So the history of a session opened after another one exited. *)
Theorem C54_across_sessions : forall E size w w' sid size' tr, size >= 1 -> reachable size (w_hist w) ->
  (forall max f, w_store w = StFile max f -> Forall one_line (lastn (h_cmds (w_hist w)) (committed (w_hist w)))) ->
  session_exit E w = HOk w' ->
  map snd (view (w_hist (open_session sid size' (w_root w') (w_next w') (w_store w') tr))) =
  lastn size' (lastn (match w_store w with StVolatile m _ | StFile m _ => m end)
                 (st_commands (w_store w) ++ lastn (h_cmds (w_hist w)) (committed (w_hist w)))).
Proof.
  intros E size w w' sid size' tr Hs Hr Hl Hx. rewrite opened_history.
  destruct (exit_cases E size w Hs Hr) as [(_ & He)|[(w1 & x & _ & He)|[(w1 & w2 & x & _ & _ & He)|(w1 & w2 & _ & _ & He)]]];
    rewrite He in Hx; try discriminate.
  injection Hx as <-. cbn [set_exit set_store w_store]. rewrite store_commands by exact Hl. reflexivity.
Qed.
Print Assumptions C54_across_sessions.
Example C54_nonvacuous : exists w1 w2, feed full_env 1 (lit "say hi") demo_world = FOk w1 /\ session_exit full_env w1 = HOk w2 /\
  view (w_hist (open_session 1 2 (w_root w2) (w_next w2) (w_store w2) [])) = [(1, lit "add 1 2"); (2, lit "say hi")]%Z.
Proof. do 2 eexists. split; [reflexivity|]. split; reflexivity. Qed.

(** C57: feeding lines to a healthy session has no undefined behaviour and leaves a
    healthy session. *)
Theorem C57_feed_defined : forall E (R : nat -> Prop) size line w, size >= 1 -> tame E R -> healthy E R size w -> legible E line ->
  (recall E line -> used w) ->
  forall fuel, f_safe (fun w' => healthy E R size w' /\ (used w -> used w')) (feed E (S (S fuel)) line w) /\
    (~ recall E line -> split line <> Some [] -> f_safe used (feed E (S (S fuel)) line w)).
Proof. exact feed_safe. Qed.
Print Assumptions C57_feed_defined.
Theorem C57_feeds_defined : forall E (R : nat -> Prop) size lines, size >= 1 -> tame E R -> Forall (legible E) lines ->
  forall w fuel, healthy E R size w -> used w ->
  f_safe (fun w' => healthy E R size w' /\ used w') (feeds E (S (S fuel)) lines w).
Proof. exact feeds_safe. Qed.
Print Assumptions C57_feeds_defined.
(** New sessions are healthy. *)
Theorem C57_open_healthy : forall E (R : nat -> Prop) size sid root nxt st tr, size >= 1 -> unique_ids root -> Forall (fun i => i < nxt) (ids root) -> is_menu root ->
  (forall id, R id -> id < nxt /\ forall m anc, chain root (m :: anc) -> cmd_id m <> id) -> user_tree root ->
  Forall (legible E) (st_commands st) -> (forall s, In s (st_commands st) -> ~ recall E s) ->
  healthy E R size (open_session sid size root nxt st tr) /\
  (st_commands st <> [] -> used (open_session sid size root nxt st tr)).
Proof. exact open_healthy. Qed.
Print Assumptions C57_open_healthy.

Example C57_nonvacuous :
  let E := mkEnv (mkPlatform true false) (fun _ _ => None) (fun _ _ => None)
             (fun _ h _ _ => mkURes [OOut (lit "hi"); ORemove 11] (if Nat.eqb h 0 then UReturn else UThrow XOther)) demo_hook (fun _ => true) in
  tame E (fun i => i = 11) /\ healthy E (fun i => i = 11) 5 demo_world /\ used demo_world /\ legible E (lit "add 1 2").
Proof.
  cbn zeta. split.
  { split; [intros; repeat constructor|]. split; [intros; repeat constructor|].
    split; [intros sid h args tr s; cbn; destruct (Nat.eqb h 0); discriminate|]. split; [intros sid h args tr s; discriminate|reflexivity]. }
  split; [|split; [left; discriminate|right; repeat constructor]].
  apply open_healthy; [lia|exact demo_unique|cbn; repeat constructor|repeat eexists| |cbn; repeat split; eexists; reflexivity| |].
  - intros id ->. split; [lia|]. intros m anc Hc He.
    assert (Hin : In (cmd_id m) (menu_ids demo_root)) by (apply (chain_menu_ids demo_world); eauto).
    rewrite He in Hin. cbn in Hin. intuition discriminate.
  - repeat constructor; right; repeat constructor.
  - intros s [<-|[<-|[]]] (a & n & H & _); discriminate.
Qed.
