(** * Specification of the history file when reading or writing fails *)

From Verif Require Import Base StorageModel StorageSpec SessionModel FaultModel.
Open Scope nat_scope.
Open Scope list_scope.

(** [salvaged n l l']: [l'] is what is left of [l] after some elements were lost and [n] were
    shortened, not to nothing; the others are unchanged, and all are in order. *)
Inductive salvaged : nat -> list str -> list str -> Prop :=
| sv_nil : salvaged 0 [] []
| sv_lost n x l l' : salvaged n l l' -> salvaged n (x :: l) l'
| sv_kept n x l l' : salvaged n l l' -> salvaged n (x :: l) (x :: l')
| sv_short n p r l l' : p <> [] -> salvaged n l l' -> salvaged (S n) ((p ++ r) :: l) (p :: l').

(** What was stored since the file was last cleared. *)
Fixpoint entered (acc : list str) (os : list xop) : list str :=
  match os with
  | [] => acc
  | XStore _ _ _ cmds :: os' => entered (acc ++ cmds) os'
  | XClear WNoOpen :: os' => entered acc os'
  | XClear _ :: os' => entered [] os'
  end.
(** How many calls could not write everything. *)
Definition incomplete (o : xop) : nat := match o with XStore _ (WError _) _ _ => 1 | _ => 0 end.
Fixpoint write_errors (os : list xop) : nat :=
  match os with [] => 0 | o :: os' => incomplete o + write_errors os' end.
Definition xop_one_line (o : xop) : Prop := match o with XStore _ _ _ cmds => Forall one_line cmds | _ => True end.

(** The call without failures. *)
Definition intended (o : xop) : sop := match o with XStore _ _ max cmds => SStore max cmds | XClear _ => SClear end.
Definition fault_free (o : xop) : Prop := match o with XStore r w _ _ => r = ROk /\ w = WOk | XClear w => w = WOk end.

(** The file cannot be opened for writing. *)
Definition unwritable (o : xop) : Prop := match o with XStore _ w _ _ => w = WNoOpen | XClear w => w = WNoOpen end.

(** Two results of a call of a session that differ in the storage only. *)
Definition but_storage (a b : hres) : Prop :=
  match a, b with
  | HOk v, HOk w => exists st, set_store st v = w
  | HExc x v, HExc y w => x = y /\ exists st, set_store st v = w
  | HUB, HUB | HFuel, HFuel => True
  | _, _ => False
  end.
