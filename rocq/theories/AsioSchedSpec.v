(** * Specification of the schedulers based on asio *)

From Verif Require Import Base SchedulerModel AsioSchedModel.
Open Scope nat_scope.
Open Scope list_scope.

(** The states reached by [n] threads doing the actions [l]. *)
Definition areaches (old owned : bool) (ops n : nat) (l : list aact) (s : asched) : Prop :=
  arun old l (asched_init owned ops n) = Some s.

(** The tasks started, in order; those taken by a thread that is about to start them. *)
Definition abegun_of (l : list aevent) : list job := flat_map (fun e => match e with QBegin _ j => [j] | _ => [] end) l.
Definition abegun (s : asched) : list job := abegun_of (a_log s).
Definition aflight (t : athread) : list job := match at_pc t with QTaken _ j => [j] | _ => [] end.
Definition a_flight (s : asched) : list job := flat_map aflight (a_thr s).

(** What was given to the scheduler or the context, in order. *)
Definition submitted (l : list aact) : list job :=
  flat_map (fun a => match a with BCall _ (DPost j) | BReady j => [j] | _ => [] end) l.

(** Only thread [i] runs tasks. *)
Definition aexecutor (i : nat) (l : list aact) : Prop := forall j h, In (BCall j (DRun h)) l -> j = i.
(** Nobody stops the scheduler or its context; nobody restarts the context. *)
Definition never_stopped (l : list aact) : Prop := forall i, ~ In (BCall i DStop) l /\ ~ In (BCall i DCtxStop) l.
Definition no_restart (l : list aact) : Prop := forall i, ~ In (BCall i DRestart) l.

(** What is left to do: operations pending, tasks queued, taken or running. *)
Definition busy (t : athread) : nat := length (aflight t) + length (at_frames t).
Definition left (s : asched) : nat := a_ops s + length (a_queue s) + list_sum (map busy (a_thr s)).

(** A thread can do nothing in [Run] or [ExecOne]. *)
Definition waits (t : athread) : Prop := at_pc t = QIn HRun \/ at_pc t = QIn HExec.
(** The calls of [Run] of a thread that returned normally. *)
Definition returned (i : nat) (h : how) (s : asched) : Prop := In (QRet i h) (a_log s).
Definition agoes (is : list nat) : list aact := map BGo is.
(** A thread is about to read or write the guard's flag without synchronisation. *)
Definition touches_guard (t : athread) : Prop := at_pc t = QStop0 \/ at_pc t = QStop1 \/ at_pc t = QStop2.
(** How often [ExecOne] of a thread returned normally; how many tasks it started. *)
Definition exec_rets (i : nat) (l : list aevent) : nat :=
  length (filter (fun e => match e with QRet j HExec => Nat.eqb j i | _ => false end) l).
Definition begun_by (i : nat) (l : list aevent) : nat :=
  length (filter (fun e => match e with QBegin j _ => Nat.eqb j i | _ => false end) l).
(** How often an exception left a run function of a thread; how many of its tasks threw;
    how many empty tasks it started. *)
Definition excs_by (i : nat) (empty : bool) (l : list aevent) : nat :=
  length (filter (fun e => match e with QExc j _ b => Nat.eqb j i && Bool.eqb b empty | _ => false end) l).
Definition throws_by (i : nat) (l : list aact) : nat :=
  length (filter (fun a => match a with BThrow j => Nat.eqb j i | _ => false end) l).
Definition empties_by (i : nat) (l : list aevent) : nat :=
  length (filter (fun e => match e with QBegin j t => Nat.eqb j i && negb (j_call t) | _ => false end) l).
(** Only thread [i] calls [Stop]; whether the guard still counts as work (the thread in
    [Stop] has not given it up). *)
Definition stopper (i : nat) (l : list aact) : Prop := forall j, In (BCall j DStop) l -> j = i.
Definition guarding (i : nat) (s : asched) : Prop :=
  a_guard s = true /\ forall t, nth_error (a_thr s) i = Some t -> at_pc t <> QStop2.
(** How often a thread called a run function; how often it ended, normally or by an
    exception; how many calls of it have not ended. *)
Definition how_eqb (a b : how) : bool := match a, b with HRun, HRun | HExec, HExec | HPoll, HPoll => true | _, _ => false end.
Definition run_calls (i : nat) (h : how) (l : list aact) : nat :=
  length (filter (fun a => match a with BCall j (DRun h') => Nat.eqb j i && how_eqb h' h | _ => false end) l).
Definition run_ends (i : nat) (h : how) (l : list aevent) : nat :=
  length (filter (fun e => match e with QRet j h' | QExc j h' _ => Nat.eqb j i && how_eqb h' h | _ => false end) l).
Definition run_inside (h : how) (t : athread) : nat :=
  match at_pc t with QEnter h' | QIn h' | QTaken h' _ => if how_eqb h' h then 1 else 0 | _ => 0 end + length (filter (fun h' => how_eqb h' h) (at_frames t)).
