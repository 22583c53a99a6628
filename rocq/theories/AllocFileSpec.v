(** * Specification of the history file when memory runs out *)

From Verif Require Import Base StorageModel StorageSpec FaultModel AllocFileModel.
Open Scope nat_scope.
Open Scope list_scope.

(** Reading got to line [k]: there was memory for the lines before it, and either it is the
    end or there was none for getting the line. *)
Definition stopped_at (line copy : nat -> bool) (n k : nat) : Prop :=
  k <= n /\ (forall i, i < k -> line i = true /\ copy i = true) /\ (k = n \/ line k = false).
(** Reading threw: at a line it got but could not copy. *)
Definition threw_at (line copy : nat -> bool) (n k : nat) : Prop :=
  k < n /\ (forall i, i < k -> line i = true /\ copy i = true) /\ line k = true /\ copy k = false.

(** Sessions ending one after another. *)
Record end_m := mkEnd { en_line : nat -> bool; en_copy : nat -> bool; en_insert : bool; en_max : nat; en_cmds : list str }.
Fixpoint ends (es : list end_m) (f : file) : list bool * file :=
  match es with
  | [] => ([], f)
  | e :: es' =>
      let (b, f1) := store_m (en_line e) (en_copy e) (en_insert e) (en_max e) f (en_cmds e) in
      let (bs, f2) := ends es' f1 in (b :: bs, f2)
  end.
(** The commands of those sessions whose [Store] returned. *)
Fixpoint stored (bs : list bool) (es : list end_m) : list str :=
  match bs, es with
  | b :: bs', e :: es' => (if b then en_cmds e else []) ++ stored bs' es'
  | _, _ => []
  end.
(** [l] is what is left when some elements are left out. *)
Inductive part {A} : list A -> list A -> Prop :=
| part_nil : part [] []
| part_out x l l' : part l l' -> part l (x :: l')
| part_in x l l' : part l l' -> part (x :: l) (x :: l').
