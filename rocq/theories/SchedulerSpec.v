(** * Specification of the scheduler *)

From Verif Require Import Base SchedulerModel.

(** The states reached by [n] threads doing the actions [l], in any order possible. *)
Definition reaches (n : nat) (l : list act) (s : sched) : Prop := sched_run l (sched_init n) = Some s.

(** The tasks started, in order. *)
Definition begun_of (l : list sevent) : list job := flat_map (fun e => match e with SBegin _ j => [j] | _ => [] end) l.
Definition begun (s : sched) : list job := begun_of (s_log s).
(** The tasks that a thread took from the queue and is about to start. *)
Definition flight (t : thread) : list job :=
  match th_pc t with PExec2 _ j | PExec3 _ j | PPoll2 j | PPoll3 j => [j] | _ => [] end.
Definition in_flight (s : sched) : list job := flat_map flight (s_thr s).

(** Only thread [i] takes tasks. *)
Definition executor (i : nat) (l : list act) : Prop :=
  forall j c, In (ACall j c) l -> match c with CExec | CRun | CPoll => j = i | _ => True end.

(** Threads that are in user code, sleeping in [ExecOne] or in [Run] or called by it. *)
Definition in_user (t : thread) : Prop := th_pc t = PUser.
Definition sleeping (t : thread) : Prop := exists c, th_pc t = PSleep c.
(** A thread that changed the state and will notify next. *)
Definition notifying (t : thread) : Prop := th_pc t = PPost2 \/ th_pc t = PStop2.

(** Steps inside the scheduler only. *)
Definition goes (is : list nat) : list act := map AGo is.

(** How often a thread's [ExecOne] or [PollOne] returned true, and [Run] returned. *)
Definition ret_true (i : nat) (l : list sevent) : nat :=
  length (filter (fun e => match e with SRet j true => Nat.eqb j i | _ => false end) l).
Definition run_rets (i : nat) (l : list sevent) : nat :=
  length (filter (fun e => match e with SRunRet j => Nat.eqb j i | _ => false end) l).
(** How often a thread called [Run]; how many of its calls have not returned. *)
Definition run_calls (i : nat) (l : list act) : nat :=
  length (filter (fun a => match a with ACall j CRun => Nat.eqb j i | _ => false end) l).
Definition open_pc (p : pc) : nat :=
  match p with PExec0 ByRun | PExec1 ByRun | PSleep ByRun | PWoke ByRun | PExecF ByRun | PExec2 ByRun _ | PExec3 ByRun _ => 1 | _ => 0 end.
Definition open_runs (t : thread) : nat :=
  open_pc (th_pc t) + length (filter (fun f => match f with FExec ByRun => true | _ => false end) (th_frames t)).

(** The tasks a thread posted, and those pushed by it. *)
Definition post_calls (i : nat) (l : list act) : list job :=
  flat_map (fun a => match a with ACall k (CPost j) => if Nat.eqb k i then [j] else [] | _ => [] end) l.
Definition posted_by (i : nat) (s : sched) : list job := map snd (filter (fun p => Nat.eqb (fst p) i) (s_posted s)).
