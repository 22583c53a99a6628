(** * Specification of sessions that could not be constructed *)

From Verif Require Import Base OutStreamModel OutStreamSpec ConstructModel.
Open Scope nat_scope.
Open Scope list_scope.

(** There was memory for the stages before this one. *)
Definition came_to (n : nat) (ok : stages) : Prop := forall m, m < n -> ok m = true.
(** All eight stages; failed at one of the first four; failed at one of the last four. *)
Definition whole (ok : stages) : Prop := came_to 8 ok.
Definition early (ok : stages) : Prop := exists n, n < 4 /\ came_to n ok /\ ok n = false.
Definition late (ok : stages) : Prop := exists n, 4 <= n < 8 /\ came_to n ok /\ ok n = false.

(** [os'] is [os] with the constructions that failed late being sessions that are
    never closed, and those that failed early left out. *)
Inductive taken_as : list xop -> list oop -> Prop :=
| ta_nil : taken_as [] []
| ta_op o os os' : taken_as os os' -> taken_as (XOp o :: os) (o :: os')
| ta_made i ok os os' : whole ok -> taken_as os os' -> taken_as (XNew i ok :: os) (Open i :: os')
| ta_late i ok os os' : late ok -> taken_as os os' -> taken_as (XNew i ok :: os) (Open i :: os')
| ta_early i ok os os' : early ok -> taken_as os os' -> taken_as (XNew i ok :: os) os'.

(** As [proper]: streams exist while the sessions on them do, and no two sessions are
    on one stream.  Nothing is asked for sessions that could not be constructed. *)
Inductive careful : list nat -> list nat -> list xop -> Prop :=
| cf_nil opens alive : careful opens alive []
| cf_made opens alive i ok os : whole ok -> ~ In i opens -> In i alive -> careful (i :: opens) alive os ->
    careful opens alive (XNew i ok :: os)
| cf_failed opens alive i ok os : ~ whole ok -> ~ In i opens -> In i alive -> careful opens alive os ->
    careful opens alive (XNew i ok :: os)
| cf_close opens alive i os : In i opens -> careful (remove Nat.eq_dec i opens) alive os ->
    careful opens alive (XOp (Close i) :: os)
| cf_create opens alive i os : ~ In i alive -> careful opens (i :: alive) os -> careful opens alive (XOp (Create i) :: os)
| cf_destroy opens alive i os : In i alive -> ~ In i opens -> careful opens (remove Nat.eq_dec i alive) os ->
    careful opens alive (XOp (Destroy i) :: os)
| cf_own opens alive i s os : In i alive -> careful opens alive os -> careful opens alive (XOp (Own i s) :: os)
| cf_format opens alive i g w f l os : In i alive -> careful opens alive os -> careful opens alive (XOp (Format i g w f l) :: os)
| cf_sputn opens alive s os : careful opens alive os -> careful opens alive (XOp (Sputn s) :: os)
| cf_sputc opens alive c os : careful opens alive os -> careful opens alive (XOp (Sputc c) :: os).
