(** * Model of a history file used by several processes, when files cannot be used and processes die
    Source: /repo/include/cli/filehistorystorage.h:48-77, as in ShareModel.v, with the failures of FaultModel.v at
    any point of any execution, for any number of calls, and with processes that are killed.  What a killed
    process inserted into its stream, and the stream did not write yet, is lost; so is what is inserted after a write
    failed.  A process that was killed is like one that calls nothing; its number may be used by a new one. *)

From Verif Require Import Base StorageModel ShareModel FaultModel.
Open Scope nat_scope.
Open Scope list_scope.

(** What can happen: what happens without failures; a process calls [Store], and the file cannot be opened for
    reading (64); reading it fails (69); it cannot be opened for writing (57); a process calls [Clear], and the file cannot be opened
    (76); writing fails (60); a process is killed. *)
Inductive tact :=
| TAct (a : sact) | TNoRead (i max : nat) (cmds : list str) | TReadError (i : nat) | TNoWrite (i : nat) | TNoClear (i : nat)
| TWriteError (i : nat) | TKill (i : nat).
Definition t_step (a : tact) (s : shared) : option shared :=
  match a with
  | TAct a => s_step a s
  | TNoRead i max cmds => match sh_proc s i with SIdle => Some (set_proc i (SReady (to_write max cmds [])) s) | _ => None end
  | TReadError i =>
      match sh_proc s i with
      | SRead max cmds got => Some (set_proc i (SReady (put_lines (append_trim max (whole_lines [] got) cmds))) s)
      | _ => None
      end
  | TNoWrite i => match sh_proc s i with SReady _ => Some (set_proc i SIdle s) | _ => None end
  | TNoClear i => match sh_proc s i with SIdle => Some s | _ => None end
  | TWriteError i => match sh_proc s i with SWrite _ _ => Some (set_proc i SIdle s) | _ => None end
  | TKill i => Some (set_proc i SIdle s)
  end.
Fixpoint t_run (l : list tact) (s : shared) : option shared :=
  match l with
  | [] => Some s
  | a :: l' => match t_step a s with Some s' => t_run l' s' | None => None end
  end.
