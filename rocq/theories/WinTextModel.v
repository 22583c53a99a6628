(** * Model of the history file on Windows
    Source: /repo/include/cli/filehistorystorage.h.  The streams (58, 65, 76) are opened without
    [std::ios::binary], so that on Windows the file is in text mode.  Assumed of the runtime library (as
    documented): it writes a carriage return before each line feed; it reads a carriage return and a line
    feed as a line feed, leaves other carriage returns, and takes Ctrl-Z (26) for the end of the file.
    Opening and writing are assumed to succeed. *)

From Verif Require Import Base StorageModel.

Definition w_encode (s : str) : str := flat_map (fun c => if Ascii.eqb c "010" then ["013"%char; "010"%char] else [c]) s.
Fixpoint w_decode (s : str) : str :=
  match s with
  | [] => []
  | c :: s' =>
      if Ascii.eqb c "026" then []
      else if Ascii.eqb c "013" then
        match s' with
        | d :: s'' => if Ascii.eqb d "010" then d :: w_decode s'' else c :: w_decode s'
        | [] => [c]
        end
      else c :: w_decode s'
  end.
(** filehistorystorage.h:62-73 [Commands], 48-61 [Store], 74-77 [Clear] *)
Definition w_commands (f : file) : list str := match f with None => [] | Some s => getlines [] (w_decode s) end.
Definition w_store (max : nat) (f : file) (cmds : list str) : file :=
  Some (w_encode (put_lines (append_trim max (w_commands f) cmds))).
Definition w_clear (f : file) : file := Some [].
(** The process dies during [Store] after [k] bytes reached the file. *)
Definition w_store_crash (k max : nat) (f : file) (cmds : list str) : file :=
  Some (firstn k (w_encode (put_lines (append_trim max (w_commands f) cmds)))).
