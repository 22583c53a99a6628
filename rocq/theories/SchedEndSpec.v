(** * Specification of the end of a LoopScheduler *)

From Verif Require Import Base SchedulerModel SchedulerSpec SchedEndModel.

(** The executions without undefined behaviour. *)
Definition zreaches (n : nat) (l : list zact) (x : ending) : Prop := zrun l (z_init n) = ZOk x.

(** A thread that is not done with the scheduler: it is in one of its functions, before the call of a task, or in a task
    [Run] called: [Run] will go on with the next. *)
Definition involved (t : thread) : Prop :=
  match th_pc t with
  | PUser => In (FExec ByRun) (th_frames t)
  | PExec3 ByUser _ | PPoll3 _ => In (FExec ByRun) (th_frames t)
  | _ => True
  end.

(** Nobody calls the scheduler (or destroys it). *)
Definition silent (l : list zact) : Prop :=
  forall a, In a l -> match a with ZAct (ACall _ _) | ZDestroy _ => False | _ => True end.
