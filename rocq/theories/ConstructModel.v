(** * Model of the construction of sessions when memory runs out

    Source: /repo/include/cli/cli.h:879-910, the constructor of [CliSession].  What
    it allocates, in this order: the global menu (line 883; with it the global stream, when
    it is the first session, line 881), the commands stored (line 887), the history (line
    887), the entry in the list of streams (lines 889 and 97-100), the four commands of
    the global menu (lines 890-909).  Each may throw [std::bad_alloc].  The object then
    never existed: its members are destroyed, its destructor (lines 976-979), which would
    unregister the stream, is not run.  [push_back] has no effect if it throws.

    The commands, the history and the menu of such an object are gone with it; what
    stays is in the list of streams (OutStreamModel.v). *)

From Verif Require Import Base OutStreamModel.
Open Scope nat_scope.
Open Scope list_scope.

(** [ok n]: the allocations of stage [n] succeed. *)
Definition stages := nat -> bool.

(** The session is there, or an exception left its constructor. *)
Inductive built := Made (y : osys) | Failed (y : osys).

(** cli.h:890-909 the four [Insert], stages [n], [n+1], ... *)
Fixpoint insert_all (k n : nat) (ok : stages) (y : osys) : built :=
  match k with
  | O => Made y
  | S k' => if ok n then insert_all k' (S n) ok y else Failed y
  end.
(** cli.h:879-910 *)
Definition construct (i : nat) (ok : stages) (y : osys) : built :=
  if negb (ok 0) then Failed y          (* 881, 883 *)
  else if negb (ok 1) then Failed y     (* 887 cli.GetCommands() *)
  else if negb (ok 2) then Failed y     (* 887 history.LoadCommands *)
  else if negb (ok 3) then Failed y     (* 889 *)
  else insert_all 4 4 ok (register i y).

(** As [oop] of OutStreamModel.v, where constructions succeed; [XNew]: a construction that
    may fail. *)
Inductive xop := XOp (o : oop) | XNew (i : nat) (ok : stages).
Definition x_step (y : osys) (o : xop) : option osys :=
  match o with
  | XOp o => o_step y o
  | XNew i ok => match construct i ok y with Made y' | Failed y' => Some y' end
  end.
Fixpoint x_run (y : osys) (os : list xop) : option osys :=
  match os with [] => Some y | o :: os' => match x_step y o with Some y' => x_run y' os' | None => None end end.
