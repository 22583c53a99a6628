(** * Vocabulary for [Exit] when memory runs out *)

From Verif Require Import Base StorageModel MenuModel SessionModel AllocExitModel.
Open Scope nat_scope.
Open Scope list_scope.

(** [n] times [Exit] was tried, and there was no memory for the commands. *)
Inductive tried (E : env) : nat -> world -> world -> Prop :=
| tried_0 : forall w, tried E 0 w w
| tried_S : forall n w w1 w2 left, tried E n w w1 -> exit_m E false left w1 = XThrew w2 -> tried E (S n) w w2.

(** The session is where it was: only output, hooks and what they do to menus was added. *)
Definition same_place (w w' : world) : Prop :=
  w_exit w' = w_exit w /\ w_hist w' = w_hist w /\ w_cur w' = w_cur w /\ w_sid w' = w_sid w.

Definition bad_alloc : exn := XStd (lit "std::bad_alloc").
(** User code whose last exit action, instead of returning, throws [std::bad_alloc]. *)
Definition last_action (E : env) (k : hook) : bool :=
  match k with KCliExit => true | KSesExit => negb (e_has E KCliExit) | _ => false end.
Definition starved (E : env) : env :=
  mkEnv (e_plat E) (e_real E) (e_custom E) (e_handler E)
    (fun sid k args tr =>
       let r := e_hook E sid k args tr in
       if last_action E k then mkURes (ur_ops r) (match ur_end r with UReturn => UThrow bad_alloc | x => x end) else r)
    (e_has E).
