(** * Model of LoopScheduler: threads, the mutex, the condition variable
    Source: /repo/include/cli/loopscheduler.h.  Any number of threads call the
    scheduler's functions; every step below is one access to the shared state, so an
    execution is any list of actions.  Memory orders: all accesses are under the
    mutex (RaceModel.v).  Not modelled: exceptions of the allocator.  The destructor: SchedEndModel.v. *)

From Verif Require Import Base.

(** A posted [std::function]; an empty one is not called (96, 113). *)
Record job := mkJob { j_id : nat; j_call : bool }.

(** Who called [ExecOne]: user code or [Run] (66-69). *)
Inductive caller := ByUser | ByRun.

(** Where a thread is: in user code; in [Post] (77-82), [Stop] (59-64), [Stopped]
    (71-75), [ExecOne] (84-100) or [PollOne] (102-117).  Number 0: before locking the
    mutex; then each step. *)
Inductive pc :=
| PUser
| PPost0 (j : job) | PPost1 (j : job) | PPost2 | PPost3
| PStop0 | PStop1 | PStop2 | PStop3
| PStopped0 | PStopped1
| PExec0 (c : caller)              (* before the lock of line 88 *)
| PExec1 (c : caller)              (* holds the mutex, evaluates the predicate of 89 *)
| PSleep (c : caller)              (* in [cv.wait], the mutex is released *)
| PWoke (c : caller)               (* in [cv.wait], notified or woken spuriously, before locking *)
| PExecF (c : caller)              (* 91, holds the mutex *)
| PExec2 (c : caller) (j : job)    (* has popped, holds the mutex *)
| PExec3 (c : caller) (j : job)    (* before 96 *)
| PPoll0 | PPoll1 | PPollF | PPoll2 (j : job) | PPoll3 (j : job).

(** The tasks a thread is running, innermost first: how they were started. *)
Inductive frame := FExec (c : caller) | FPoll.
Record thread := mkThr { th_pc : pc; th_frames : list frame }.

(** What happens outside: a thread starts a task (or skips an empty one), [ExecOne]
    or [PollOne] returns a value, [Run] returns. *)
Inductive sevent := SBegin (i : nat) (j : job) | SRet (i : nat) (b : bool) | SRunRet (i : nat).

(** The members (120-123), the threads, what has been pushed (and by whom) and popped
    so far, and what happened. *)
Record sched := mkSched {
  s_tasks : list job; s_running : bool; s_mtx : option nat; s_thr : list thread;
  s_posted : list (nat * job); s_taken : list job; s_log : list sevent }.

(** 120-123 and no call yet *)
Definition sched_init (n : nat) : sched := mkSched [] true None (repeat (mkThr PUser []) n) [] [] [].

Fixpoint put {A} (i : nat) (x : A) (l : list A) : list A :=
  match l, i with
  | [], _ => []
  | _ :: l', 0 => x :: l'
  | y :: l', S i' => y :: put i' x l'
  end.

(** What user code may call. *)
Inductive call := CPost (j : job) | CStop | CStopped | CExec | CRun | CPoll.
Definition enter (c : call) : pc :=
  match c with
  | CPost j => PPost0 j
  | CStop => PStop0
  | CStopped => PStopped0
  | CExec => PExec0 ByUser
  | CRun => PExec0 ByRun
  | CPoll => PPoll0
  end.

(** Actions: user code of a thread calls a function; a thread makes its next step in
    the scheduler; a spurious wake-up; the running task of a thread returns or throws. *)
Inductive act := ACall (i : nat) (c : call) | AGo (i : nat) | ASpurious (i : nat) | AReturn (i : nat) | AThrow (i : nat).

Definition set_thr (i : nat) (t : thread) (s : sched) : sched :=
  mkSched (s_tasks s) (s_running s) (s_mtx s) (put i t (s_thr s)) (s_posted s) (s_taken s) (s_log s).
Definition set_mtx (m : option nat) (s : sched) : sched :=
  mkSched (s_tasks s) (s_running s) m (s_thr s) (s_posted s) (s_taken s) (s_log s).
Definition add_log (l : list sevent) (s : sched) : sched :=
  mkSched (s_tasks s) (s_running s) (s_mtx s) (s_thr s) (s_posted s) (s_taken s) (s_log s ++ l).
(** [cv.notify_all] *)
Definition wake (t : thread) : thread :=
  match th_pc t with PSleep c => mkThr (PWoke c) (th_frames t) | _ => t end.
Definition notify_all (s : sched) : sched :=
  mkSched (s_tasks s) (s_running s) (s_mtx s) (map wake (s_thr s)) (s_posted s) (s_taken s) (s_log s).
Definition push (i : nat) (j : job) (s : sched) : sched :=
  mkSched (s_tasks s ++ [j]) (s_running s) (s_mtx s) (s_thr s) (s_posted s ++ [(i, j)]) (s_taken s) (s_log s).
Definition pop (s : sched) : option (job * sched) :=
  match s_tasks s with
  | [] => None
  | j :: q => Some (j, mkSched q (s_running s) (s_mtx s) (s_thr s) (s_posted s) (s_taken s ++ [j]) (s_log s))
  end.
Definition stop_running (s : sched) : sched :=
  mkSched (s_tasks s) false (s_mtx s) (s_thr s) (s_posted s) (s_taken s) (s_log s).

(** [ExecOne] or [PollOne] returns to its caller; [Run] calls [ExecOne] again or returns. *)
Definition ret (i : nat) (f : frame) (b : bool) (fs : list frame) (s : sched) : sched :=
  let next := match f, b with FExec ByRun, true => PExec0 ByRun | _, _ => PUser end in
  add_log (SRet i b :: match f, b with FExec ByRun, false => [SRunRet i] | _, _ => [] end) (set_thr i (mkThr next fs) s).

(** The next step of a thread inside the scheduler; [None]: it cannot move. *)
Definition go (i : nat) (t : thread) (s : sched) : option sched :=
  let fs := th_frames t in
  let at_ p := set_thr i (mkThr p fs) in
  let lock p := match s_mtx s with None => Some (at_ p (set_mtx (Some i) s)) | Some _ => None end in
  let unlock p := Some (at_ p (set_mtx None s)) in
  let begin f j :=
    if j_call j then Some (add_log [SBegin i j] (set_thr i (mkThr PUser (f :: fs)) s))
    else Some (ret i f true fs (add_log [SBegin i j] s)) in
  match th_pc t with
  | PUser => None
  | PPost0 j => lock (PPost1 j)
  | PPost1 j => Some (at_ PPost2 (push i j s))
  | PPost2 => Some (at_ PPost3 (notify_all s))
  | PPost3 => unlock PUser
  | PStop0 => lock PStop1
  | PStop1 => Some (at_ PStop2 (stop_running s))
  | PStop2 => Some (at_ PStop3 (notify_all s))
  | PStop3 => unlock PUser
  | PStopped0 => lock PStopped1
  | PStopped1 => unlock PUser
  | PExec0 c => lock (PExec1 c)
  | PExec1 c =>
      if s_running s then
        match pop s with
        | None => unlock (PSleep c)
        | Some (j, s') => Some (at_ (PExec2 c j) s')
        end
      else Some (at_ (PExecF c) s)
  | PSleep c => None
  | PWoke c => lock (PExec1 c)
  | PExecF c => Some (ret i (FExec c) false fs (set_mtx None s))
  | PExec2 c j => unlock (PExec3 c j)
  | PExec3 c j => begin (FExec c) j
  | PPoll0 => lock PPoll1
  | PPoll1 =>
      if s_running s then
        match pop s with
        | None => Some (at_ PPollF s)
        | Some (j, s') => Some (at_ (PPoll2 j) s')
        end
      else Some (at_ PPollF s)
  | PPollF => Some (ret i FPoll false fs (set_mtx None s))
  | PPoll2 j => unlock (PPoll3 j)
  | PPoll3 j => begin FPoll j
  end.

Definition sched_step (a : act) (s : sched) : option sched :=
  match a with
  | ACall i c =>
      match nth_error (s_thr s) i with
      | Some t => match th_pc t with PUser => Some (set_thr i (mkThr (enter c) (th_frames t)) s) | _ => None end
      | None => None
      end
  | AGo i => match nth_error (s_thr s) i with Some t => go i t s | None => None end
  | ASpurious i =>
      match nth_error (s_thr s) i with
      | Some t => match th_pc t with PSleep _ => Some (set_thr i (wake t) s) | _ => None end
      | None => None
      end
  | AReturn i =>
      match nth_error (s_thr s) i with
      | Some t => match th_pc t, th_frames t with PUser, f :: fs => Some (ret i f true fs s) | _, _ => None end
      | None => None
      end
  | AThrow i =>                       (* leaves [ExecOne], and [Run] if it called it *)
      match nth_error (s_thr s) i with
      | Some t => match th_pc t, th_frames t with PUser, f :: fs => Some (set_thr i (mkThr PUser fs) s) | _, _ => None end
      | None => None
      end
  end.
Fixpoint sched_run (l : list act) (s : sched) : option sched :=
  match l with
  | [] => Some s
  | a :: l' => match sched_step a s with Some s' => sched_run l' s' | None => None end
  end.
