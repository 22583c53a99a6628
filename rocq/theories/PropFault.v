(** * C75: failures of the history file *)

From Verif Require Import Base HistoryModel StorageModel StorageSpec SessionModel Demo FaultModel FaultSpec FaultProofs.
Open Scope nat_scope.
Open Scope list_scope.

(** C75: whatever fails, whenever: the lines read are lines that were stored since the file was
    cleared, in order; some may be lost, and for each [Store] that could not write
    everything at most one is shortened. *)
Theorem C75_salvaged : forall os f r, Forall xop_one_line os ->
  exists k, k <= write_errors os /\ salvaged k (entered (f_commands f) os) (x_commands r (x_run os f)).
Proof. exact loaded_salvaged. Qed.
Print Assumptions C75_salvaged.

(** When writing succeeds, the commands stored are the most recent ones of the file, up to the
    limit, even if the old ones could not be read, or only the first of them. *)
Theorem C75_recent : forall r max f cmds, Forall one_line cmds ->
  exists k, f_commands (x_store r WOk max f cmds) = lastn max (firstn k (f_commands f) ++ cmds).
Proof. exact store_recent. Qed.
Print Assumptions C75_recent.

(** A file that cannot be opened for writing keeps what it has, however many sessions end. *)
Theorem C75_unwritable : forall os f, Forall unwritable os -> x_run os f = f.
Proof. exact unwritable_run. Qed.
Print Assumptions C75_unwritable.

(** Without failures, this is the storage of C18. *)
Theorem C75_conservative : forall os f, Forall fault_free os -> x_run os f = fold_left f_step (map intended os) f.
Proof. intros os f H. exact (fault_free_run os H f). Qed.
Print Assumptions C75_conservative.

(** The session does not notice: exiting does the same, but for the storage, whatever
    the storage holds before. *)
Theorem C75_unnoticed : forall E w st, but_storage (session_exit E w) (session_exit E (set_store st w)).
Proof. exact exit_storage. Qed.
Print Assumptions C75_unnoticed.

(** Commands that are in the file can get lost although there is room and writing succeeds: if
    the file could not be opened for reading, for a moment. *)
Theorem C75_kept_refuted : exists r max f cmds, length (f_commands f ++ cmds) <= max /\ Forall one_line cmds /\
  f_commands f = [lit "a"; lit "b"] /\ f_commands (x_store r WOk max f cmds) = cmds.
Proof.
  exists RNoOpen, 1000, (Some (put_lines [lit "a"; lit "b"])), [lit "c"].
  split; [cbn; lia|]. split; [repeat constructor; unfold one_line; cbn; intuition discriminate|]. split; reflexivity.
Qed.
Print Assumptions C75_kept_refuted.

(** A full disk leaves half a command, that stays in the history as a command of its own. *)
Theorem C75_command_refuted : exists os, Forall xop_one_line os /\
  entered [] os = [lit "rm /tmp/x"; lit "ls"] /\ f_commands (x_run os None) = [lit "rm /"; lit "ls"].
Proof.
  exists [XStore ROk (WError 4) 1000 [lit "rm /tmp/x"]; XStore ROk WOk 1000 [lit "ls"]].
  split; [repeat constructor; unfold one_line; cbn; intuition discriminate|]. split; reflexivity.
Qed.
Print Assumptions C75_command_refuted.

(** Four calls: the disk is full in the first one, reading fails within the second line in the
    third one, and the file cannot be written by the fourth one. *)
Example C75_nonvacuous :
  let os := [XStore ROk (WError 7) 9 [lit "one"; lit "two"; lit "three"];
             XStore ROk WOk 9 [lit "four"];
             XStore (RError 7) WOk 9 [lit "five"];
             XStore ROk WNoOpen 9 [lit "six"]] in
  Forall xop_one_line os /\ write_errors os = 1 /\
  f_commands (x_run (firstn 2 os) None) = [lit "one"; lit "two"; lit "four"] /\
  f_commands (x_run (firstn 3 os) None) = [lit "one"; lit "five"] /\
  x_run os None = x_run (firstn 3 os) None /\
  x_commands RNoOpen (x_run os None) = [].
Proof.
  cbn zeta. split; [repeat constructor; unfold one_line; cbn; intuition discriminate|].
  split; [reflexivity|]. split; [reflexivity|]. split; [reflexivity|]. split; reflexivity.
Qed.
