(** * Model of the history file when memory runs out

    Source: /repo/include/cli/filehistorystorage.h:48-73.  [std::getline] is an input
    function of the standard library: a [std::bad_alloc] while it reads a line is caught
    inside it, the stream becomes bad and the loop of 69 ends as at the end of the file.
    One thrown by [push_back] (70) or [insert] (52) leaves the function; the file has
    not been opened for writing by then (58).

    Simplification: the streams have memory for their buffers, and reading and writing
    succeed (failures: FaultModel.v). *)

From Verif Require Import Base StorageModel.
Open Scope nat_scope.
Open Scope list_scope.

(** [Some]: the commands; [None]: [bad_alloc] *)
Fixpoint read_m (line copy : nat -> bool) (i : nat) (ls acc : list str) : option (list str) :=
  match ls with
  | [] => Some acc
  | l :: ls' =>
      if negb (line i) then Some acc                                (* 69 *)
      else if negb (copy i) then None                               (* 70 *)
      else read_m line copy (S i) ls' (acc ++ [l])
  end.
(** filehistorystorage.h:62-73 [Commands]: [line], [copy]: which lines there is memory for *)
Definition commands_m (line copy : nat -> bool) (f : file) : option (list str) :=
  read_m line copy 0 (f_commands f) [].

(** filehistorystorage.h:48-61 [Store]: whether it returns, and the file *)
Definition store_m (line copy : nat -> bool) (insert : bool) (max : nat) (f : file) (cmds : list str) : bool * file :=
  match commands_m line copy f with
  | None => (false, f)                                              (* 51 *)
  | Some old =>
      if negb insert then (false, f)                                (* 52 *)
      else (true, Some (put_lines (append_trim max old cmds)))      (* 53-60 *)
  end.
