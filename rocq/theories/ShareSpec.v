(** * Specification of shared history files *)

From Verif Require Import Base StorageModel StorageSpec ShareModel.
Open Scope nat_scope.
Open Scope list_scope.

(** The calls made, in order. *)
Fixpoint calls_made (l : list sact) : list sop :=
  match l with
  | [] => []
  | CallStore _ max cmds :: l' => SStore max cmds :: calls_made l'
  | CallClear _ :: l' => SClear :: calls_made l'
  | GoOn _ _ :: l' => calls_made l'
  end.
Definition all_idle (s : shared) : Prop := forall i, sh_proc s i = SIdle.
Definition is_call (a : sact) : Prop := match a with GoOn _ _ => False | _ => True end.
(** No call begins during another one. *)
Definition one_at_a_time (s0 : shared) (l : list sact) : Prop :=
  forall l1 a l2 s, l = l1 ++ a :: l2 -> is_call a -> s_run l1 s0 = Some s -> all_idle s.

(** Who acts. *)
Definition actor (a : sact) : nat := match a with CallStore j _ _ => j | CallClear j => j | GoOn j _ => j end.
Definition calls_not (i : nat) (l : list sact) : Prop := forall a, In a l -> actor a = i -> ~ is_call a.
(** Has read, or reads, but did not open the file for writing yet. *)
Definition before_opening (s : shared) (i : nat) : Prop :=
  match sh_proc s i with SRead _ _ _ | SReady _ => True | _ => False end.
(** From here on nobody but [i] opens the file for writing, or writes. *)
Definition writes (s : shared) (a : sact) : Prop :=
  match a with
  | CallStore _ _ _ => False
  | CallClear _ => True
  | GoOn j _ => match sh_proc s j with SReady _ | SWrite _ (_ :: _) => True | _ => False end
  end.
Definition sole_writer (i : nat) (s0 : shared) (l : list sact) : Prop :=
  forall l1 a l2 s, l = l1 ++ a :: l2 -> s_run l1 s0 = Some s -> writes s a -> actor a = i.

(** A byte at position [k] of what one of the calls of [Store] among [l] may write: the
    last of some commands, ending with those of the call, in a line each. *)
Definition its_byte (l : list sact) (k : nat) (b : ascii) : Prop :=
  exists i max cmds old, In (CallStore i max cmds) l /\
    nth_error (flat_map (fun c => c ++ ["010"%char]) (lastn max (old ++ cmds))) k = Some b.
