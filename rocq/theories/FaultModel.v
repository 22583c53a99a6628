(** * Model of the history file when reading or writing fails
    Source: /repo/include/cli/filehistorystorage.h:48-77.  The streams of the standard
    library do not throw unless told to, and the code looks at their state only to end
    its loops: [Store], [Commands] and [Clear] always return.  A call meets at most
    one failure of each stream. *)

From Verif Require Import Base StorageModel.
Open Scope nat_scope.
Open Scope list_scope.

(** The stream of [Commands] (64): all is well; the file exists but cannot be opened;
    reading fails after [n] bytes. *)
Inductive rfault := ROk | RNoOpen | RError (n : nat).
(** The stream of [Store] (57) or [Clear] (75): all is well; the file cannot be opened;
    writing fails (a full disk), and only the first [k] bytes reach the file.  Opening
    truncates, also without [trunc]. *)
Inductive wfault := WOk | WNoOpen | WError (k : nat).

(** [getline] fails when it cannot read the end of the line (68-69): the part of a line
    read before an error is dropped, unlike that before the end of the file. *)
Fixpoint whole_lines (acc s : str) : list str :=
  match s with
  | [] => []
  | c :: s' => if Ascii.eqb c "010" then acc :: whole_lines [] s' else whole_lines (acc ++ [c]) s'
  end.

(** filehistorystorage.h:62-73 [Commands] *)
Definition x_commands (r : rfault) (f : file) : list str :=
  match r, f with
  | ROk, _ => f_commands f
  | RNoOpen, _ | RError _, None => []
  | RError n, Some s => whole_lines [] (firstn n s)
  end.

(** filehistorystorage.h:48-61 [Store] *)
Definition x_store (r : rfault) (w : wfault) (max : nat) (f : file) (cmds : list str) : file :=
  let text := put_lines (append_trim max (x_commands r f) cmds) in
  match w with WOk => Some text | WNoOpen => f | WError k => Some (firstn k text) end.

(** filehistorystorage.h:74-77 [Clear] *)
Definition x_clear (w : wfault) (f : file) : file :=
  match w with WNoOpen => f | _ => Some [] end.

(** Calls, each with the failures it meets. *)
Inductive xop := XStore (r : rfault) (w : wfault) (max : nat) (cmds : list str) | XClear (w : wfault).
Definition x_step (f : file) (o : xop) : file :=
  match o with XStore r w max cmds => x_store r w max f cmds | XClear w => x_clear w f end.
Definition x_run (os : list xop) (f : file) : file := fold_left x_step os f.
