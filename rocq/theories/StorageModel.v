(** * Model of the history storages
    Sources: /repo/include/cli/volatilehistorystorage.h and
    /repo/include/cli/filehistorystorage.h. *)

From Verif Require Import Base.

(** Appending and dropping the oldest commands beyond [max]: common to
    volatilehistorystorage.h:46-51 and filehistorystorage.h:51-57. *)
Definition append_trim (max : nat) (old cmds : list str) : list str :=
  let l := old ++ cmds in
  if Nat.ltb max (length l) then skipn (length l - max) l else l.

(** volatilehistorystorage.h:43-52 [Store], 53-56 [Commands], 57-60 [Clear].
    The state is the deque [commands]. *)
Definition v_store (max : nat) (st cmds : list str) : list str := append_trim max st cmds.
Definition v_commands (st : list str) : list str := st.
Definition v_clear (st : list str) : list str := [].

(** A file: [None] when it does not exist.  Opening and writing are assumed to
    succeed (failures: FaultModel.v). *)
Definition file : Type := option str.

(** [while (std::getline(in, line)) commands.push_back(line)]
    (filehistorystorage.h:69-70): lines are delimited by line feeds; a last line
    without one counts if it is not empty. *)
Fixpoint getlines (acc s : str) : list str :=
  match s with
  | [] => match acc with [] => [] | _ => [acc] end
  | c :: s' => if Ascii.eqb c "010" then acc :: getlines [] s' else getlines (acc ++ [c]) s'
  end.

(** filehistorystorage.h:62-73 [Commands] *)
Definition f_commands (f : file) : list str :=
  match f with None => [] | Some s => getlines [] s end.

(** filehistorystorage.h:59-60: each command followed by a line feed. *)
Fixpoint put_lines (l : list str) : str :=
  match l with [] => [] | x :: l' => x ++ ["010"%char] ++ put_lines l' end.

(** filehistorystorage.h:48-61 [Store]: the file is truncated and rewritten. *)
Definition f_store (max : nat) (f : file) (cmds : list str) : file :=
  Some (put_lines (append_trim max (f_commands f) cmds)).

(** filehistorystorage.h:74-77 [Clear] *)
Definition f_clear (f : file) : file := Some [].

(** The process dies during [Store] after [k] bytes reached the file: opening
    truncates the file first, so it holds the first [k] bytes of the new content. *)
Definition f_store_crash (k max : nat) (f : file) (cmds : list str) : file :=
  Some (firstn k (put_lines (append_trim max (f_commands f) cmds))).
