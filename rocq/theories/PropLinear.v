(** * C82: LoopScheduler is linearizable *)

From Verif Require Import Base SchedulerModel SchedulerSpec LinearModel LinearSpec LinearProofs.

(** C82: whatever threads see of the scheduler, in any execution, they could also see of one whose
    functions act in one step between call and return; the queue and the flag are the same in the end. *)
Theorem C82_linearizable : forall n l s evs, observe l (sched_init n) = Some (evs, s) ->
  exists a, atomic_run atomic_init evs a /\ q_tasks a = s_tasks s /\ q_up a = s_running s.
Proof. exact linearizable. Qed.
Print Assumptions C82_linearizable.
(** Every execution is seen. *)
Theorem C82_observed : forall l s, sched_run l s = option_map snd (observe l s).
Proof. exact observe_run. Qed.
Print Assumptions C82_observed.
(** [Stopped] returns true only if [Stop] was called before, *)
Theorem C82_stopped_true : forall n l s evs p i m, observe l (sched_init n) = Some (evs, s) ->
  evs = p ++ VStopped i true :: m -> stop_called p.
Proof.
  intros n l s evs p i m H. destruct (linearizable n l s evs H) as (a & R & _). exact (proj1 (proj2 (run_calm _ _ _ R eq_refl)) p i m).
Qed.
Print Assumptions C82_stopped_true.
(** and false only if no call of [Stop] returned before it was called. *)
Theorem C82_stopped_false : forall n l s evs p i m r, observe l (sched_init n) = Some (evs, s) ->
  evs = p ++ VCall i CStopped :: m ++ VStopped i false :: r -> (forall c, ~ In (VCall i c) m) -> ~ stop_returned p.
Proof.
  intros n l s evs p i m r H. destruct (linearizable n l s evs H) as (a & R & _). exact (proj1 (proj2 (proj2 (run_calm _ _ _ R eq_refl))) p i m r).
Qed.
Print Assumptions C82_stopped_false.
(** After [Stop] returned the scheduler is stopped for good. *)
Theorem C82_stop_returned : forall n l s evs, observe l (sched_init n) = Some (evs, s) -> stop_returned evs -> s_running s = false.
Proof.
  intros n l s evs H Hr. destruct (linearizable n l s evs H) as (a & R & _ & <-). exact (proj1 (proj2 (proj1 (run_calm _ _ _ R eq_refl))) Hr).
Qed.
Print Assumptions C82_stop_returned.
(** [Run] returns only if [Stop] was called before, *)
Theorem C82_run_returns : forall n l s evs p i m, observe l (sched_init n) = Some (evs, s) ->
  evs = p ++ VRun i :: m -> stop_called p.
Proof.
  intros n l s evs p i m H. destruct (linearizable n l s evs H) as (a & R & _). exact (proj1 (proj2 (proj2 (proj2 (run_calm _ _ _ R eq_refl)))) p i m).
Qed.
Print Assumptions C82_run_returns.
(** and so does [ExecOne] with false, when the calls in between are other threads'. *)
Theorem C82_exec_false : forall n l s evs p i m r, observe l (sched_init n) = Some (evs, s) ->
  evs = p ++ VCall i CExec :: m ++ VOne i false :: r -> (forall c, ~ In (VCall i c) m) -> stop_called (p ++ VCall i CExec :: m).
Proof.
  intros n l s evs p i m r H. destruct (linearizable n l s evs H) as (a & R & _). exact (proj2 (proj2 (proj2 (proj2 (run_calm _ _ _ R eq_refl)))) p i m r).
Qed.
Print Assumptions C82_exec_false.

Definition one : job := mkJob 1 true.
Definition none : job := mkJob 2 false.
(** Thread 1 runs; thread 0 posts a task and an empty one, asks twice, the second time while thread 1, in the
    task, has called [Stop]; thread 1's call takes the mutex first; then thread 0
    calls [ExecOne] and [PollOne]. *)
Definition asking : list act :=
  [ACall 1 CRun; AGo 1; AGo 1; ACall 0 (CPost none); AGo 0; AGo 0; AGo 0; AGo 0; ACall 0 (CPost one); AGo 0; AGo 0; AGo 0; AGo 0;
   ACall 0 CStopped; AGo 0; AGo 0; AGo 1; AGo 1; AGo 1; AGo 1; AGo 1; AGo 1; AGo 1; AGo 1; ACall 0 CStopped; ACall 1 CStop; AGo 1; AGo 1; AGo 1; AGo 1;
   AGo 0; AGo 0; AReturn 1; AGo 1; AGo 1; AGo 1;
   ACall 0 CExec; AGo 0; AGo 0; AGo 0; ACall 0 CPoll; AGo 0; AGo 0; AGo 0].
Example C82_nonvacuous : exists s, observe asking (sched_init 2) = Some (
    [VCall 1 CRun; VCall 0 (CPost none); VDone 0; VCall 0 (CPost one); VDone 0; VCall 0 CStopped; VStopped 0 false;
     VBegin 1 one; VCall 0 CStopped; VCall 1 CStop; VDone 1; VStopped 0 true; VEnd 1; VRun 1;
     VCall 0 CExec; VOne 0 false; VCall 0 CPoll; VOne 0 false], s) /\ s_running s = false.
Proof. eexists. split; [vm_compute; reflexivity|reflexivity]. Qed.
Print Assumptions C82_nonvacuous.
