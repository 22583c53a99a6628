(** * Specification of the longest common prefix *)

From Verif Require Import Base.

Definition is_prefix (p s : str) : Prop := exists r, s = p ++ r.
Definition prefix_of_all (p : str) (v : list str) : Prop := forall x, In x v -> is_prefix p x.

(** [p] is a prefix of all and every prefix of all is a prefix of [p]. *)
Definition longest_common_prefix (v : list str) (p : str) : Prop :=
  prefix_of_all p v /\ forall q, prefix_of_all q v -> is_prefix q p.
