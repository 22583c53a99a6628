(** * Specification of a history file that is removed or replaced *)

From Verif Require Import Base StorageModel StorageSpec ShareModel ShareSpec RemoveModel.
Open Scope nat_scope.
Open Scope list_scope.

(** The calls, and what is done to the file. *)
Inductive rop := OCall (o : sop) | OSwap (f : file).
Fixpoint r_ops (l : list ract) : list rop :=
  match l with
  | [] => []
  | RAct (CallStore _ max cmds) :: l' => OCall (SStore max cmds) :: r_ops l'
  | RAct (CallClear _) :: l' => OCall SClear :: r_ops l'
  | RAct (GoOn _ _) :: l' => r_ops l'
  | RSwap f :: l' => OSwap f :: r_ops l'
  end.
(** One after another. *)
Definition o_step (f : file) (o : rop) : file := match o with OCall o => f_step f o | OSwap f' => f' end.

Definition r_idle (d : disk) : Prop := forall i, d_proc d i = RIdle.
(** Nothing begins, and nothing is done to the file, during a call. *)
Definition undisturbed (d0 : disk) (l : list ract) : Prop :=
  forall l1 a l2 d, l = l1 ++ a :: l2 -> match a with RAct a => is_call a | RSwap _ => True end -> r_run l1 d0 = Some d -> r_idle d.

(** The state of ShareModel.v: what is seen by name. *)
Definition phase_of (p : rphase) : sphase :=
  match p with RIdle => SIdle | RRead max cmds got _ => SRead max cmds got | RReady c => SReady c | RWrite pos rest _ => SWrite pos rest end.
Definition seen_as (d : disk) (s : shared) : Prop := visible d = sh_file s /\ forall i, phase_of (d_proc d i) = sh_proc s i.

(** No process is between the begin of a [Store] and opening the file for writing. *)
Definition none_begun (d : disk) : Prop := forall i, match d_proc d i with RRead _ _ _ _ | RReady _ => False | _ => True end.
(** Some of the elements, in the same order. *)
Inductive some_of {A} : list A -> list A -> Prop :=
| some_nil : some_of [] []
| some_keep a l l' : some_of l l' -> some_of (a :: l) (a :: l')
| some_drop a l l' : some_of l l' -> some_of l (a :: l').

(** Process [i] has begun a [Store] of these commands and did not open the file for writing yet. *)
Definition r_acts (i : nat) (a : ract) : Prop := match a with RAct a => actor a = i | RSwap _ => False end.
Definition r_goes (i : nat) (l : list ract) : Prop := forall a, In a l -> r_acts i a -> exists k, a = RAct (GoOn i k).
Definition r_before (d : disk) (i : nat) : Prop := match d_proc d i with RRead _ _ _ _ | RReady _ => True | _ => False end.
(** What changes the file the name leads to: clearing, opening for writing, writing to it; removing and replacing it. *)
Definition r_changes (d : disk) (a : ract) : Prop :=
  match a with
  | RSwap _ | RAct (CallClear _) => True
  | RAct (CallStore _ _ _) => False
  | RAct (GoOn j _) => match d_proc d j with RReady _ => True | RWrite _ (_ :: _) n => d_name d = Some n | _ => False end
  end.
Definition only_by (i : nat) (d0 : disk) (l : list ract) : Prop :=
  forall l1 a l2 d, l = l1 ++ a :: l2 -> r_run l1 d0 = Some d -> r_changes d a -> r_acts i a.
