(** * C104: the history file on Windows *)

From Verif Require Import Base StorageModel StorageSpec WinTextModel WinTextSpec WinTextProofs.

(** Stores and clears, by any objects (limits) on any initial file, of commands without line feed and Ctrl-Z:
    the file behaves like an ideal list ... *)
Theorem C104_ideal : forall os f, Forall op_text os -> w_commands (fold_left w_step os f) = ideal (w_commands f) os.
Proof. exact (fun os f H => text_ideal os H f). Qed.
Print Assumptions C104_ideal.

(** ... and so as on other systems. *)
Theorem C104_same : forall os, Forall op_text os -> w_commands (fold_left w_step os None) = f_commands (fold_left f_step os None).
Proof. exact text_same. Qed.
Print Assumptions C104_same.

(** The file has a line for each command, ended by a carriage return and a line feed. *)
Theorem C104_bytes : forall max f cmds, Forall one_line cmds -> w_store max f cmds = Some (dos_lines (lastn max (w_commands f ++ cmds))).
Proof. exact text_bytes. Qed.
Print Assumptions C104_bytes.

(** What a Ctrl-Z does: the commands before it are read back, then what precedes it in its command, and nothing else. *)
Theorem C104_ctrl_z : forall max f cmds pre a b post, Forall one_line cmds -> lastn max (w_commands f ++ cmds) = pre ++ (a ++ [ctrl_z] ++ b) :: post ->
  Forall text_line pre -> ~ In ctrl_z a -> w_commands (w_store max f cmds) = pre ++ match a with [] => [] | _ => [a] end.
Proof. exact text_ctrl_z. Qed.
Print Assumptions C104_ctrl_z.

(** A file written elsewhere is read as it was written, unless a command ends in a carriage return ... *)
Theorem C104_from_unix : forall l, Forall text_line l -> (forall x y, In x l -> x <> y ++ [cr]) -> w_commands (Some (put_lines l)) = l.
Proof. exact unix_read. Qed.
Print Assumptions C104_from_unix.

(** ... but elsewhere all the commands of a file written on Windows end in one. *)
Theorem C104_to_unix : forall max f cmds, Forall one_line cmds ->
  f_commands (w_store max f cmds) = map (fun x => x ++ [cr]) (lastn max (w_commands f ++ cmds)).
Proof. exact to_unix. Qed.
Print Assumptions C104_to_unix.

(** After a crash during Store the file has the first ones of the new commands; the last of them may be shortened,
    or have a carriage return too much. *)
Theorem C104_crash : forall k max f cmds, Forall text_line cmds -> let new := lastn max (w_commands f ++ cmds) in
  cut new (w_commands (w_store_crash k max f cmds)) \/ extra_cr new (w_commands (w_store_crash k max f cmds)).
Proof. exact text_crash. Qed.
Print Assumptions C104_crash.

(** Three stores of two objects, the commands with carriage returns at the end and within. *)
Definition case_ops : list sop := [SStore 3 [lit "a b"; lit ""]; SStore 2 [lit "c" ++ [cr]]; SStore 9 [cr :: lit "d"]].
Lemma text_dec s : forallb (fun c => negb (Ascii.eqb c "010") && negb (Ascii.eqb c "026")) s = true -> text_line s.
Proof.
  intros H. rewrite forallb_forall in H. split; intros Q; specialize (H _ Q); discriminate.
Qed.
Example C104_nonvacuous : Forall op_text case_ops /\ w_commands (fold_left w_step case_ops None) = [lit ""; lit "c" ++ [cr]; cr :: lit "d"]
  /\ fold_left w_step case_ops None = Some ([cr; "010"%char] ++ lit "c" ++ [cr; cr; "010"%char] ++ [cr] ++ lit "d" ++ [cr; "010"%char]).
Proof.
  split; [|split; reflexivity]. repeat constructor; apply text_dec; reflexivity.
Qed.
Example C104_crash_nonvacuous : w_commands (w_store_crash 6 5 None [lit "ab"; lit "c"]) = [lit "ab"; lit "c" ++ [cr]] /\ w_commands (w_store_crash 5 5 None [lit "ab"; lit "c"]) = [lit "ab"; lit "c"].
Proof. split; reflexivity. Qed.
(** The command in the middle of the list. *)
Example C104_ctrl_z_nonvacuous : let cmds := [lit "one"; lit "t" ++ [ctrl_z] ++ lit "wo"; lit "three"] in
  lastn 9 (w_commands None ++ cmds) = [lit "one"] ++ (lit "t" ++ [ctrl_z] ++ lit "wo") :: [lit "three"] /\ Forall one_line cmds
  /\ w_commands (w_store 9 None cmds) = [lit "one"; lit "t"] /\ w_commands (w_store 9 (w_store 9 None cmds) [lit "four"]) = [lit "one"; lit "t"; lit "four"].
Proof.
  cbn zeta. split; [reflexivity|]. split; [|split; reflexivity]. repeat constructor; intros Q; repeat (destruct Q as [Q|Q]; [discriminate|]); exact Q.
Qed.

(** False: that a single line is read back; a Ctrl-Z loses the commands after it. *)
Theorem C104_ctrl_z_refuted : exists cmds, Forall one_line cmds /\ length cmds = 2 /\ w_commands (w_store 10 None cmds) = [].
Proof.
  exists [[ctrl_z]; lit "important"]. split; [|split; reflexivity]. repeat constructor; intros Q; repeat (destruct Q as [Q|Q]; [discriminate|]); exact Q.
Qed.
Print Assumptions C104_ctrl_z_refuted.

(** False: that a command ending in a carriage return, stored elsewhere, is read back on Windows. *)
Theorem C104_from_unix_refuted : exists x, text_line x /\ f_commands (f_store 10 None [x]) = [x] /\ w_commands (f_store 10 None [x]) <> [x].
Proof.
  exists (lit "a" ++ [cr]). split; [apply text_dec; reflexivity|]. split; [reflexivity|discriminate].
Qed.
Print Assumptions C104_from_unix_refuted.

(** False: that after a crash the last command is a whole one or a shortened one, as elsewhere (C19). *)
Theorem C104_crash_refuted : exists k cmds, Forall text_line cmds /\ ~ cut cmds (w_commands (w_store_crash k 10 None cmds)).
Proof.
  exists 2, [lit "a"]. split; [repeat constructor; apply text_dec; reflexivity|]. vm_compute. intros (n & [E|(x & p & N & _ & (r & E) & F)]).
  - destruct n as [|[|n]]; discriminate.
  - destruct n as [|n]; [|destruct n; discriminate]. injection N as <-. injection F as <-. discriminate.
Qed.
Print Assumptions C104_crash_refuted.
