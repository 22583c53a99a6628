(** * C95: menus inserted as commands *)

From Verif Require Import Base FromStringModel StorageModel MenuModel SessionModel CompletionModel SessionSpec HeapModel HeapSpec HeapProofs Demo.
Open Scope nat_scope.
Open Scope list_scope.

(** The menus without a way up are exactly those inserted as commands, and the roots. *)
Theorem C95_which os f s : f_run os f_init = Some f -> h_run os hs_init = Some s ->
  forall t m anc, In t (f_trees f) -> chain t (m :: anc) ->
  exists n e d p par cmds, s_heap s (cmd_id m) = Some (BMenu n e d p par cmds) /\
    (par = None <-> anc = [] \/ In (cmd_id m) (as_commands os)) /\
    (forall q, par = Some q -> exists a anc', anc = a :: anc' /\ cmd_id a = q).
Proof. exact (which_alone os f s). Qed.
Print Assumptions C95_which.

(** No line leads out of such a menu, whatever user functions do. *)
Theorem C95_trapped os f s t o anc E toks w : f_run os f_init = Some f -> h_run os hs_init = Some s ->
  In t (f_trees f) -> chain t (o :: anc) -> In (cmd_id o) (as_commands os) -> In (w_cur w) (menus_of o) ->
  match h_scan E no_builtin (s_heap s) toks (w_cur w) w with EDone _ w' | EExc _ w' => In (w_cur w') (menus_of o) | _ => True end.
Proof. intros F Es Ht C Ho. exact (held_trapped os f s t o anc F Es Ht C Ho E toks w). Qed.
Print Assumptions C95_trapped.

(** Within it all is as if it were the root menu: commands, help and completions; *)
Theorem C95_inside os f s t o anc : f_run os f_init = Some f -> h_run os hs_init = Some s ->
  In t (f_trees f) -> chain t (o :: anc) -> In (cmd_id o) (as_commands os) ->
  (forall i, In i (menus_of o) -> In i (as_commands os) -> i = cmd_id o) ->
  forall m up, chain o (m :: up) ->
    (forall E bi toks w, h_scan E bi (s_heap s) toks (cmd_id m) w = scan E bi toks (m :: up) w) /\
    h_main_help (s_heap s) (cmd_id m) = Some (main_help (m :: up)) /\
    (forall P fuel line, h_completions P (s_heap s) fuel line (cmd_id m) = menu_completions P fuel line (m :: up)).
Proof.
  intros F Es Ht C Ho N m up Cm. pose proof (held_plain os f s t o anc F Es Ht C Ho N) as R.
  split; [intros; exact (scan_rep _ o R E bi toks m up w Cm)|]. split; [exact (main_help_rep _ o R m up Cm)|].
  intros. exact (completions_rep _ o R P fuel line m up Cm).
Qed.
Print Assumptions C95_inside.

(** and a line that starts with its name, read by the menu that holds it, too. *)
Theorem C95_from_outside os f s t o anc : f_run os f_init = Some f -> h_run os hs_init = Some s ->
  In t (f_trees f) -> chain t (o :: anc) -> In (cmd_id o) (as_commands os) ->
  (forall i, In i (menus_of o) -> In i (as_commands os) -> i = cmd_id o) ->
  forall E bi toks w, h_handle E bi (s_heap s) toks false (cmd_id o) w = handle E bi toks false [o] w.
Proof.
  intros F Es Ht C Ho N E bi toks w. pose proof (held_plain os f s t o anc F Es Ht C Ho N) as R.
  destruct (held_rep os f s t o anc F Es Ht C Ho) as (_ & _ & M). exact (handle_rep _ o R E bi toks false o [] w (chain_root o M)).
Qed.
Print Assumptions C95_from_outside.

(** A root with a sub menu with a sub menu, inserted as a command or as a menu. *)
Definition c95_ops (as_command : bool) : list hop :=
  [HNew (lit "cli") [] []; HNew (lit "sub") (lit "d") []; HNew (lit "deep") (lit "d") []; HInsertMenu 1 2;
   HInsert 1 (FnLeaf (lit "f") (lit "help") [] [] 0); (if as_command then HInsertCmd 0 1 else HInsertMenu 0 1)].
Definition c95_tree : cmd :=
  CMenu 1 (lit "sub") true (lit "d") (lit "sub") [CMenu 2 (lit "deep") true (lit "d") (lit "deep") []; CFn 3 (lit "f") true (lit "help") [] [] (HUser 0)].
(** [..] leads from the sub menu to the one that holds it, but not if it was inserted as a
    command; within it works as ever. *)
Theorem C95_up_refuted : exists s s' w,
  h_run (c95_ops true) hs_init = Some s /\ h_run (c95_ops false) hs_init = Some s' /\ w_cur w = 1 /\
  h_scan full_env no_builtin (s_heap s) [lit ".."] 1 w = EDone false w /\
  h_scan full_env no_builtin (s_heap s') [lit ".."] 1 w = EDone true (set_cur 0 w) /\
  h_scan full_env no_builtin (s_heap s) [lit "cli"] 1 w = EDone false w /\
  h_scan full_env no_builtin (s_heap s) [lit "deep"; lit ".."] 1 w = EDone true (set_cur 1 w) /\
  h_scan full_env no_builtin (s_heap s) [lit "sub"] 0 w = EDone true (set_cur 1 w).
Proof.
  do 2 eexists. exists (set_cur 1 demo_world). split; [vm_compute; reflexivity|]. split; [vm_compute; reflexivity|].
  repeat split; vm_compute; reflexivity.
Qed.
Print Assumptions C95_up_refuted.

Example C95_nonvacuous : exists f s,
  f_run (c95_ops true) f_init = Some f /\ h_run (c95_ops true) hs_init = Some s /\
  f_trees f = [CMenu 0 (lit "cli") true [] (lit "cli") [c95_tree]] /\
  (forall t, In t (f_trees f) -> chain t [c95_tree; t]) /\ In (cmd_id c95_tree) (as_commands (c95_ops true)) /\
  (forall i, In i (menus_of c95_tree) -> In i (as_commands (c95_ops true)) -> i = cmd_id c95_tree) /\
  (exists m, chain c95_tree [m; c95_tree]) /\ In (w_cur (set_cur 1 demo_world)) (menus_of c95_tree) /\
  s_heap s 1 = Some (BMenu (lit "sub") true (lit "d") (lit "sub") None [2; 3]).
Proof.
  do 2 eexists. split; [vm_compute; reflexivity|]. split; [vm_compute; reflexivity|]. split; [reflexivity|]. split.
  { intros t [<-|[]]. apply chain_sub; [apply chain_root; repeat eexists|left; reflexivity|repeat eexists]. }
  split; [left; reflexivity|]. split; [intros i _ [<-|[]]; reflexivity|]. split.
  { exists (CMenu 2 (lit "deep") true (lit "d") (lit "deep") []). apply chain_sub; [apply chain_root; repeat eexists|left; reflexivity|repeat eexists]. }
  split; [left; reflexivity|reflexivity].
Qed.
