(** * C17-C19: properties of the history storages *)

From Verif Require Import Base StorageModel StorageSpec StorageProofs.

(** C17: a volatile storage of limit [max] returns the last [max] commands stored
    since the last Clear. *)
Theorem C17_volatile_recent : forall max os, Forall (limit_is max) os ->
  v_commands (fold_left v_step os []) = lastn max (since_clear [] os).
Proof. exact volatile_recent. Qed.
Print Assumptions C17_volatile_recent.

Example C17_nonvacuous :
  let os := [SStore 2 [lit "x"]; SClear; SStore 2 [lit "a"]; SStore 2 [lit "b"; lit "c"]; SStore 2 []] in
  Forall (limit_is 2) os /\ lastn 2 (since_clear [] os) = [lit "b"; lit "c"].
Proof. split; [repeat constructor|reflexivity]. Qed.

(** C18: the file storage behaves like an ideal list, for any objects (limits) on
    the file and any initial file, if the commands are single lines. *)
Theorem C18_file_ideal : forall os f, Forall op_one_line os ->
  f_commands (fold_left f_step os f) = ideal (f_commands f) os.
Proof. exact (fun os f H => file_ideal os H f). Qed.
Print Assumptions C18_file_ideal.

(** With a single limit and no file at the start: the last [max] commands stored
    since the last Clear. *)
Theorem C18_file_recent : forall max os, Forall op_one_line os -> Forall (limit_is max) os ->
  f_commands (fold_left f_step os None) = lastn max (since_clear [] os).
Proof. exact file_recent. Qed.
Print Assumptions C18_file_recent.

Example C18_nonvacuous :
  let os := [SStore 3 [lit "a b"; lit ""]; SStore 2 [lit "c"]; SStore 9 [lit "d"]] in
  Forall op_one_line os /\ f_commands (fold_left f_step os None) = [lit ""; lit "c"; lit "d"].
Proof.
  split; [|reflexivity].
  repeat constructor; unfold one_line; cbn; intuition discriminate.
Qed.

(** A command containing a line feed is read back as two commands. *)
Theorem C18_line_feed_refuted : exists cmds,
  f_commands (f_store 10 None cmds) <> lastn 10 cmds.
Proof. exists [lit "a" ++ ["010"%char] ++ lit "b"]. vm_compute. discriminate. Qed.
Print Assumptions C18_line_feed_refuted.

(** The limit of a storage object does not bound what it returns from a file written
    under a larger limit, until it stores something. *)
Theorem C18_limit_refuted : exists f max, f = f_store 3 None [lit "a"; lit "b"; lit "c"] /\ max < length (f_commands f) /\ length (f_commands (f_store max f [])) <= max.
Proof. exists (f_store 3 None [lit "a"; lit "b"; lit "c"]), 2. split; [reflexivity|]. vm_compute. auto. Qed.
Print Assumptions C18_limit_refuted.

(** C19: after a crash during Store the file holds a prefix of the new list, the
    last command possibly truncated ... *)
Theorem C19_crash_prefix : forall k max f cmds, Forall one_line cmds ->
  cut (lastn max (f_commands f ++ cmds)) (f_commands (f_store_crash k max f cmds)).
Proof. exact crash_cut. Qed.
Print Assumptions C19_crash_prefix.

(** ... and the whole new list once all bytes are written. *)
Theorem C19_no_crash : forall max f cmds, Forall one_line cmds ->
  f_commands (f_store_crash (length (put_lines (append_trim max (f_commands f) cmds))) max f cmds) =
  lastn max (f_commands f ++ cmds).
Proof. exact crash_complete. Qed.
Print Assumptions C19_no_crash.

(** Previously stored commands can be lost. *)
Theorem C19_atomic_refuted : exists k max f cmds,
  f_commands f = [lit "old"] /\ f_commands (f_store_crash k max f cmds) = [].
Proof. exists 0, 10, (Some (lit "old" ++ ["010"%char])), [lit "new"]. split; reflexivity. Qed.
Print Assumptions C19_atomic_refuted.

Example C19_nonvacuous :
  Forall one_line [lit "new"] /\
  f_commands (f_store_crash 6 10 (Some (lit "old" ++ ["010"%char])) [lit "new"]) = [lit "old"; lit "ne"].
Proof. split; [repeat constructor; unfold one_line; cbn; intuition discriminate|reflexivity]. Qed.
