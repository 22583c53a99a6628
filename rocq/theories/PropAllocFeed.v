(** * Lines there is no memory for (C110) *)

From Verif Require Import Base HistoryModel HistorySpec StorageModel MenuModel SessionModel SessionSpec
  AllocModel AllocSpec AllocProofs AllocFeedModel AllocFeedSpec AllocFeedProofs Demo.
Open Scope nat_scope.
Open Scope list_scope.

(** When [bad_alloc] leaves [Feed], nothing ran, nothing was printed and no
    entry of the history changed. *)
Theorem C110_nothing : forall E ok ok' fuel line w w', feed_m E ok ok' fuel line w = MThrew w' ->
  w' = w \/ exists h', w' = set_hist h' w /\ view h' = view (w_hist w) /\
    committed h' = committed (w_hist w) /\ h_cmds h' = S (h_cmds (w_hist w)).
Proof. exact feed_throws. Qed.
Print Assumptions C110_nothing.

(** A session losing lines does what the session without these lines does:
    the same events in the same order, the same outcome. *)
Theorem C110_lines : forall E fuel size lines w, size >= 1 -> reachable_m size (w_hist w) ->
  h_browse (w_hist w) = false ->
  exists kept n, without lines kept n /\
    same_outcome (fun w' v' => exists m, m <= n /\ same_session m w' v')
      (feeds_m E fuel lines w) (feeds E fuel kept w).
Proof. exact (fun E fuel size lines w S1 H B => lines_lost E fuel lines w B (not_browsing size _ S1 H B)). Qed.
Print Assumptions C110_lines.

(** The lines lost when about to be recorded are counted all the same. *)
Theorem C110_counted : forall E fuel size lines w w', size >= 1 -> reachable_m size (w_hist w) ->
  h_browse (w_hist w) = false -> feeds_m E fuel lines w = FOk w' ->
  exists kept n v', without lines kept n /\ feeds E fuel kept w = FOk v' /\ same_session n w' v'.
Proof. exact (fun E fuel size lines w w' S1 H B => lines_lost_ok E fuel lines w w' B (not_browsing size _ S1 H B)). Qed.
Print Assumptions C110_counted.

(** With memory for all lines, nothing differs from SessionModel.v. *)
Theorem C110_enough : forall E fuel lines, (forall p, In p lines -> snd p = (true, true)) ->
  forall w, feeds_m E (S fuel) lines w = feeds E (S fuel) (map fst lines) w.
Proof. exact with_memory. Qed.
Print Assumptions C110_enough.

Definition plenty : bool * bool := (true, true).
Definition starving : list scarce :=
  [(lit "say a", (true, false)); (lit "sub", plenty); (lit "add 1 2", (false, true)); (lit "exit", plenty)].

(** But the storage tells the difference: a command loaded at the start, here
    ["add 1 2"], is stored once more. *)
Theorem C110_storage_refuted : exists w v,
  feeds_m full_env 1 starving demo_world = FOk w /\
  feeds full_env 1 [lit "sub"; lit "exit"] demo_world = FOk v /\
  without starving [lit "sub"; lit "exit"] 1 /\ same_session 1 w v /\
  st_commands (w_store v) = [lit "old"; lit "add 1 2"; lit "sub"; lit "exit"] /\
  st_commands (w_store w) = [lit "old"; lit "add 1 2"; lit "add 1 2"; lit "sub"; lit "exit"].
Proof.
  do 2 eexists. split; [vm_compute; reflexivity|]. split; [vm_compute; reflexivity|].
  split.
  { apply without_record; [reflexivity|]. apply without_keep. apply without_words; [reflexivity|].
    apply without_keep, without_nil. }
  split; [unfold same_session, alike; repeat split|]. split; vm_compute; reflexivity.
Qed.
Print Assumptions C110_storage_refuted.

(** A handled line after a lost one, with its output. *)
Example C110_nonvacuous : reachable_m 5 (w_hist demo_world) /\ h_browse (w_hist demo_world) = false /\
  (exists w', feed_m quiet_env true false 1 (lit "add 1 2 3") demo_world = MThrew w' /\ w' <> demo_world) /\
  exists w', feeds_m quiet_env 1 [(lit "say a", (true, false)); (lit "add 1 2", plenty)] demo_world = FOk w' /\
    w_trace w' = [EvCall 0 0 [VInt 1; VInt 2]; EvOut 0 (lit "hi")] /\ h_cmds (w_hist w') = 2.
Proof.
  split; [exists [(OLoad [lit "old"; lit "add 1 2"], fun _ => true)]; vm_compute; reflexivity|].
  split; [reflexivity|]. split.
  - eexists. split; [vm_compute; reflexivity|]. intro H. discriminate (f_equal (fun w => h_cmds (w_hist w)) H).
  - eexists. split; [vm_compute; reflexivity|]. split; vm_compute; reflexivity.
Qed.

(** A repeated command needs no memory: it is kept although memory is scarce. *)
Example C110_repeat : exists w',
  feed_m quiet_env true false 1 (lit "add 1 2") demo_world = MRan (FOk w').
Proof. eexists. vm_compute. reflexivity. Qed.
