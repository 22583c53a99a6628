(** * Specification of the history storages *)

From Verif Require Import Base StorageModel.

(** Calls on a storage; for files the calls may come from objects with different
    limits. *)
Inductive sop := SStore (max : nat) (cmds : list str) | SClear.

(** The ideal storage: a list, cut to the last [max] commands by each store. *)
Definition ideal_step (l : list str) (o : sop) : list str :=
  match o with SStore max cmds => lastn max (l ++ cmds) | SClear => [] end.
Definition ideal (l : list str) (os : list sop) : list str := fold_left ideal_step os l.

Definition v_step (st : list str) (o : sop) : list str :=
  match o with SStore max cmds => v_store max st cmds | SClear => v_clear st end.
Definition f_step (f : file) (o : sop) : file :=
  match o with SStore max cmds => f_store max f cmds | SClear => f_clear f end.

(** Everything stored since the last Clear. *)
Fixpoint since_clear (acc : list str) (os : list sop) : list str :=
  match os with
  | [] => acc
  | SStore _ cmds :: os' => since_clear (acc ++ cmds) os'
  | SClear :: os' => since_clear [] os'
  end.
Definition limit_is (max : nat) (o : sop) : Prop :=
  match o with SStore m _ => m = max | SClear => True end.

Definition one_line (s : str) : Prop := ~ In "010"%char s.
Definition op_one_line (o : sop) : Prop :=
  match o with SStore _ cmds => Forall one_line cmds | SClear => True end.

(** [cut l l']: [l'] is a prefix of [l] whose last element may be shortened. *)
Definition cut (l l' : list str) : Prop :=
  exists n, l' = firstn n l \/
    exists x p, nth_error l n = Some x /\ p <> [] /\ (exists r, x = p ++ r) /\ l' = firstn n l ++ [p].
