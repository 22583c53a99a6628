(** * Specification of the history file on Windows *)

From Verif Require Import Base StorageModel StorageSpec WinTextModel.

Definition cr : ascii := "013"%char.
Definition ctrl_z : ascii := "026"%char.
(** Commands that a text file can hold. *)
Definition text_line (s : str) : Prop := one_line s /\ ~ In ctrl_z s.
Definition op_text (o : sop) : Prop := match o with SStore _ cmds => Forall text_line cmds | SClear => True end.
Definition w_step (f : file) (o : sop) : file := match o with SStore max cmds => w_store max f cmds | SClear => w_clear f end.
(** The bytes of a file with these commands. *)
Definition dos_lines (l : list str) : str := flat_map (fun x => x ++ [cr; "010"%char]) l.
(** The last one of the commands, all whole, has a carriage return too much. *)
Definition extra_cr (l l' : list str) : Prop := exists n x, nth_error l n = Some x /\ l' = firstn n l ++ [x ++ [cr]].
