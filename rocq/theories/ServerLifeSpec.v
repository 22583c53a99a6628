(** * Specification of the end of a telnet server *)

From Verif Require Import Base ServerModel ServerLifeModel.
Open Scope nat_scope.
Open Scope list_scope.

(** The scheduler runs a handler. *)
Definition is_run (i : linput) : bool := match i with LIn IRun => true | _ => false end.
