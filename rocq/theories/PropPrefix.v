(** * C23: the longest common prefix *)

From Verif Require Import Base PrefixModel PrefixSpec PrefixProofs.

(** C23: for a non-empty list the result is the longest common prefix (and no
    access is out of range). *)
Theorem C23_common_prefix : forall v, v <> [] ->
  exists p, common_prefix v = Some p /\ longest_common_prefix v p.
Proof. exact common_prefix_spec. Qed.
Print Assumptions C23_common_prefix.

Example C23_nonvacuous :
  [lit "help me"; lit "hello"; lit "helm"] <> [] /\
  common_prefix [lit "help me"; lit "hello"; lit "helm"] = Some (lit "hel").
Proof. split; [discriminate|reflexivity]. Qed.

(** The empty list is outside the function's precondition. *)
Theorem C23_empty_ub : common_prefix [] = None.
Proof. exact eq_refl. Qed.
Print Assumptions C23_empty_ub.
