(** * Specification of the end of the schedulers based on asio *)

From Verif Require Import Base SchedulerModel AsioSchedModel AsioSchedSpec AsioEndModel.
Open Scope nat_scope.
Open Scope list_scope.

Definition ereaches (old owned : bool) (ops n : nat) (l : list eact) (x : aend) : Prop := erun old owned l (e_init owned ops n) = AEOk x.

(** A thread that is in no function of the scheduler or the context, and in no task called by them. *)
Definition outside (t : athread) : Prop := at_pc t = QUser /\ at_frames t = [].

(** A thread in [Stop], which uses the members of the scheduler. *)
Definition stopping (t : athread) : Prop := at_pc t = QStop0 \/ at_pc t = QStop1 \/ at_pc t = QStop2 \/ at_pc t = QStop3.

(** What was given to the scheduler or the context, in order. *)
Definition e_submitted (l : list eact) : list job :=
  flat_map (fun a => match a with EAct (BCall _ (DPost j)) | EAct (BReady j) | ECtxPost _ j => [j] | _ => [] end) l.

(** Actions that use the context, but not the scheduler; what they do to the context. *)
Definition context_only (a : eact) : Prop :=
  match a with EAct (BCall _ (DPost _)) | EAct (BCall _ DStop) | EAct (BCall _ (DRun _)) | EDestroy _ | EDelete => False | _ => True end.
Definition on_context (l : list eact) : list aact :=
  flat_map (fun a => match a with EAct a => [a] | ECtxPost i j => [BCall i (DPost j)] | ECtxRun i h => [BCall i (DRun h)] | _ => [] end) l.
