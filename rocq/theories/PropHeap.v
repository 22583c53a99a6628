(** * C76: menus in memory *)

From Verif Require Import Base FromStringModel StorageModel MenuModel SessionModel CompletionModel SessionSpec HeapModel HeapSpec HeapProofs.
Open Scope nat_scope.
Open Scope list_scope.

Theorem C76_built os f : f_run os f_init = Some f -> exists s, h_run os hs_init = Some s /\ represents s f.
Proof. exact (built os f). Qed.
Print Assumptions C76_built.

Theorem C76_exact os o f : f_run os f_init = Some f -> f_run (os ++ [o]) f_init = None ->
  h_run (os ++ [o]) hs_init = None \/ exists m x c, (o = HInsertMenu m x \/ o = HInsertCmd m x) /\ In c (f_trees f) /\ cmd_id c = x /\ In m (menus_of c).
Proof. exact (built_exact os o f). Qed.
Print Assumptions C76_exact.

Theorem C76_released os f s : f_run os f_init = Some f -> h_run os hs_init = Some s -> s_owned s = [] -> forall i, s_heap s i = None.
Proof. exact (released os f s). Qed.
Print Assumptions C76_released.

Theorem C76_gone os os' f s k c m : f_run (os ++ os') f_init = Some f -> h_run os hs_init = Some s ->
  nth_error (s_hand s) k = Some (c, m) -> s_heap s c = None ->
  exists s', h_run (os ++ os') hs_init = Some s' /\ s_heap s' c = None /\
             (forall b, h_step (HHandSet k b) s' = Some s') /\ h_step (HHandRemove k) s' = Some s'.
Proof. exact (gone os os' f s k c m). Qed.
Print Assumptions C76_gone.

(** No menu of the tree was inserted as a command (for those see C95). *)
Theorem C76_commands alone h root m anc E bi toks w : rep alone h None root -> (forall i, In i (menus_of root) -> ~ In i alone) -> chain root (m :: anc) ->
  h_scan E bi h toks (cmd_id m) w = scan E bi toks (m :: anc) w.
Proof. intros R N C. exact (scan_rep h root (rep_no_alone _ _ R N) E bi toks m anc w C). Qed.
Print Assumptions C76_commands.

Theorem C76_texts alone h root m anc : rep alone h None root -> (forall i, In i (menus_of root) -> ~ In i alone) -> chain root (m :: anc) ->
  h_main_help h (cmd_id m) = Some (main_help (m :: anc)) /\
  h_prompt h (cmd_id m) = match m with CMenu _ _ _ _ p _ => Some p | _ => None end.
Proof. intros R N C. pose proof (rep_no_alone _ _ R N) as R0. exact (conj (main_help_rep h root R0 m anc C) (prompt_rep h root R0 m anc C)). Qed.
Print Assumptions C76_texts.

Theorem C76_completions alone h root m anc P fuel line : rep alone h None root -> (forall i, In i (menus_of root) -> ~ In i alone) -> chain root (m :: anc) ->
  h_completions P h fuel line (cmd_id m) = menu_completions P fuel line (m :: anc).
Proof. intros R N C. exact (completions_rep h root (rep_no_alone _ _ R N) P fuel line m anc C). Qed.
Print Assumptions C76_completions.

(** A menu moved into itself owns itself: nobody else does, and its memory is never freed. *)
Theorem C76_cycle_refuted : exists os s, h_run os hs_init = Some s /\ s_owned s = [] /\ s_heap s 0 <> None.
Proof.
  exists [HNew (lit "a") [] []; HInsertMenu 0 0]. eexists. split; [vm_compute; reflexivity|]. split; [reflexivity|]. discriminate.
Qed.
Print Assumptions C76_cycle_refuted.

(** A root with a sub menu with a command: the handler of the sub menu removes it, and
    the handler of its command has nothing to do any more. *)
Definition c76_ops : list hop :=
  [HNew (lit "cli") [] []; HNew (lit "sub") (lit "d") []; HInsert 1 (FnLeaf (lit "f") (lit "help") [] [] 7);
   HInsertMenu 0 1; HHandSet 0 false].
Example C76_nonvacuous :
  f_run c76_ops f_init =
    Some (mkFor [CMenu 0 (lit "cli") true [] (lit "cli") [CMenu 1 (lit "sub") true (lit "d") (lit "sub") [CFn 2 (lit "f") false (lit "help") [] [] (HUser 7)]]] 3 [2; 1] []) /\
  (exists s, h_run c76_ops hs_init = Some s /\ s_heap s 1 = Some (BMenu (lit "sub") true (lit "d") (lit "sub") (Some 0) [2]) /\ s_owned s = [0]) /\
  (exists s, h_run (c76_ops ++ [HHandRemove 1]) hs_init = Some s /\ s_heap s 2 = None /\ nth_error (s_hand s) 0 = Some (2, 1)) /\
  (exists f, f_run (c76_ops ++ [HHandRemove 1; HDestroy 0]) f_init = Some f) /\
  f_run (c76_ops ++ [HHandRemove 1; HDestroy 1]) f_init = None.
Proof.
  split; [vm_compute; reflexivity|]. split; [|split; [|split]].
  - eexists. split; [vm_compute; reflexivity|]. split; reflexivity.
  - eexists. split; [vm_compute; reflexivity|]. split; reflexivity.
  - eexists. vm_compute. reflexivity.
  - vm_compute. reflexivity.
Qed.
