(** * Model of a history file used by several processes
    Source: /repo/include/cli/filehistorystorage.h:48-77.  Each process calls [Store]
    and [Clear] of its own storage object, on the same file; an execution is any list
    of actions.  Of the streams and the operating system is assumed: a stream reads
    the file in pieces of any size and writes what was inserted in pieces of any size, at
    its own position in the file; a gap is filled with NUL; opening for writing truncates
    (also without [trunc]); no errors; nobody removes the file (RemoveModel.v has that). *)

From Verif Require Import Base StorageModel.
Open Scope nat_scope.
Open Scope list_scope.

(** Where a process is: in other code; in [Commands] (61-72), what was read so far;
    before opening the file for writing (57), with what will be written; writing, with the position
    and what is not written yet. *)
Inductive sphase :=
| SIdle
| SRead (max : nat) (cmds : list str) (got : str)
| SReady (content : str)
| SWrite (pos : nat) (rest : str).
Record shared := mkShared { sh_file : file; sh_proc : nat -> sphase }.
Definition sh_init (f : file) : shared := mkShared f (fun _ => SIdle).

Definition set_proc (i : nat) (p : sphase) (s : shared) : shared :=
  mkShared (sh_file s) (fun j => if Nat.eqb j i then p else sh_proc s j).
Definition set_file (f : file) (s : shared) : shared := mkShared f (sh_proc s).

(** filehistorystorage.h:51-60: what is written, from what was read *)
Definition to_write (max : nat) (cmds : list str) (got : str) : str :=
  put_lines (append_trim max (getlines [] got) cmds).
(** Writing [s] at a position. *)
Definition write_at (pos : nat) (s f : str) : str :=
  firstn pos f ++ repeat "000"%char (pos - length f) ++ s ++ skipn (pos + length s) f.

(** What can happen: a process calls [Store] (the file may not exist: 65-66) or [Clear]; a
    process in [Store] goes on, reading or writing at most [n] bytes. *)
Inductive sact := CallStore (i max : nat) (cmds : list str) | CallClear (i : nat) | GoOn (i n : nat).
Definition s_step (a : sact) (s : shared) : option shared :=
  match a with
  | CallStore i max cmds =>
      match sh_proc s i, sh_file s with
      | SIdle, Some _ => Some (set_proc i (SRead max cmds []) s)
      | SIdle, None => Some (set_proc i (SReady (to_write max cmds [])) s)
      | _, _ => None
      end
  | CallClear i =>
      match sh_proc s i with SIdle => Some (set_file (Some []) s) | _ => None end
  | GoOn i n =>
      match sh_proc s i, sh_file s with
      | SIdle, _ => None
      | SRead max cmds got, Some f =>
          match firstn (S n) (skipn (length got) f) with
          | [] => Some (set_proc i (SReady (to_write max cmds got)) s)     (* end of file *)
          | piece => Some (set_proc i (SRead max cmds (got ++ piece)) s)
          end
      | SReady c, _ => Some (set_file (Some []) (set_proc i (SWrite 0 c) s))
      | SWrite pos [], _ => Some (set_proc i SIdle s)                       (* the stream is closed *)
      | SWrite pos rest, Some f =>
          let piece := firstn (S n) rest in
          Some (set_file (Some (write_at pos piece f)) (set_proc i (SWrite (pos + length piece) (skipn (S n) rest)) s))
      | _, None => None
      end
  end.
Fixpoint s_run (l : list sact) (s : shared) : option shared :=
  match l with
  | [] => Some s
  | a :: l' => match s_step a s with Some s' => s_run l' s' | None => None end
  end.
