(** * Model of a history file that is removed or replaced while processes use it
    Source: /repo/include/cli/filehistorystorage.h:48-77, as in ShareModel.v, with what a name and an open file are on
    POSIX systems: the name leads to a file (an inode), or to none; a stream stays with the file it opened, also when the
    name is gone or leads to another one; opening for writing empties the file the name leads to, or creates one.
    No errors. *)

From Verif Require Import Base StorageModel ShareModel.
Open Scope nat_scope.
Open Scope list_scope.

(** As in ShareModel.v, with the file that was opened. *)
Inductive rphase :=
| RIdle
| RRead (max : nat) (cmds : list str) (got : str) (n : nat)
| RReady (content : str)
| RWrite (pos : nat) (rest : str) (n : nat).
(** The contents of the files; the one the name leads to; the number of the next file. *)
Record disk := mkDisk { d_data : nat -> str; d_name : option nat; d_next : nat; d_proc : nat -> rphase }.
Definition visible (d : disk) : file := match d_name d with Some n => Some (d_data d n) | None => None end.
Definition put_data (n : nat) (c : str) (f : nat -> str) : nat -> str := fun m => if Nat.eqb m n then c else f m.
Definition d_set (i : nat) (p : rphase) (d : disk) : disk :=
  mkDisk (d_data d) (d_name d) (d_next d) (fun j => if Nat.eqb j i then p else d_proc d j).
Definition d_put (n : nat) (c : str) (d : disk) : disk := mkDisk (put_data n c (d_data d)) (d_name d) (d_next d) (d_proc d).
(** The name leads to a new file, or to none. *)
Definition d_swap (f : file) (d : disk) : disk :=
  match f with
  | Some c => mkDisk (put_data (d_next d) c (d_data d)) (Some (d_next d)) (S (d_next d)) (d_proc d)
  | None => mkDisk (d_data d) None (d_next d) (d_proc d)
  end.
Definition d_init (f : file) : disk := d_swap f (mkDisk (fun _ => []) None 0 (fun _ => RIdle)).
(** Opening for writing (57, 76): the file opened. *)
Definition d_open (d : disk) : nat * disk :=
  match d_name d with Some n => (n, d_put n [] d) | None => (d_next d, d_swap (Some []) d) end.

(** What can happen: what the processes do; somebody removes the file ([RSwap None]), or puts another one in its place (as
    editors do, and [rename]). *)
Inductive ract := RAct (a : sact) | RSwap (f : file).
Definition r_step (a : ract) (d : disk) : option disk :=
  match a with
  | RSwap f => Some (d_swap f d)
  | RAct (CallStore i max cmds) =>
      match d_proc d i, d_name d with
      | RIdle, Some n => Some (d_set i (RRead max cmds [] n) d)
      | RIdle, None => Some (d_set i (RReady (to_write max cmds [])) d)
      | _, _ => None
      end
  | RAct (CallClear i) => match d_proc d i with RIdle => Some (snd (d_open d)) | _ => None end
  | RAct (GoOn i k) =>
      match d_proc d i with
      | RIdle => None
      | RRead max cmds got n =>
          match firstn (S k) (skipn (length got) (d_data d n)) with
          | [] => Some (d_set i (RReady (to_write max cmds got)) d)
          | piece => Some (d_set i (RRead max cmds (got ++ piece) n) d)
          end
      | RReady c => let (n, d') := d_open d in Some (d_set i (RWrite 0 c n) d')
      | RWrite pos [] n => Some (d_set i RIdle d)
      | RWrite pos rest n =>
          let piece := firstn (S k) rest in
          Some (d_set i (RWrite (pos + length piece) (skipn (S k) rest) n) (d_put n (write_at pos piece (d_data d n)) d))
      end
  end.
Fixpoint r_run (l : list ract) (d : disk) : option disk :=
  match l with
  | [] => Some d
  | a :: l' => match r_step a d with Some d' => r_run l' d' | None => None end
  end.
