(** * Model of the schedulers based on asio
    Source: /repo/include/cli/detail/genericasioscheduler.h 41-107, with the wrappers
    newboostasiolib.h, newstandaloneasiolib.h, oldboostasiolib.h, oldstandaloneasiolib.h
    (all in detail/).  Any number of threads call the scheduler's functions, and use the
    context itself; an execution is any list of actions.
    asio is not part of /repo; of its [io_context] (or [io_service]) the model has what
    its documentation says: the queue of ready handlers, the flag of [stop], and the
    count of outstanding work (guards, pending operations, handlers queued or being
    run), which stops the context when it falls to zero, or is zero when one of the
    run functions is called.  Each access to that state is one step.  A thread waiting
    in a run function goes on when there is something for it (asio wakes it up). *)

From Verif Require Import Base SchedulerModel.
Open Scope nat_scope.
Open Scope list_scope.

(** [Run] (78-81), [ExecOne] (88) and [PollOne] (90): [context->run()], [run_one()],
    [poll_one()]. *)
Inductive how := HRun | HExec | HPoll.

(** Where a thread is: in user code; before the test for outstanding work of a run
    function; in it, before or after taking a handler; in [Stop] (71-76): before testing
    whether the guard owns work, before giving it up, before clearing the guard, before
    [context->stop()]. *)
Inductive apc :=
| QUser
| QEnter (h : how) | QIn (h : how) | QTaken (h : how) (j : job)
| QStop0 | QStop1 | QStop2 | QStop3.
Record athread := mkAThr { at_pc : apc; at_frames : list how }.

(** What happens outside: a thread starts a task; a run function returns normally; an
    exception leaves it (the boolean: [std::bad_function_call] of an empty task). *)
Inductive aevent := QBegin (i : nat) (j : job) | QRet (i : nat) (h : how) | QExc (i : nat) (h : how) (empty : bool).

(** The context: ready handlers, stopped, outstanding work; the guard (106): whether it
    owns work; the pending operations of others; the threads, what was taken
    so far and what happened. *)
Record asched := mkASched {
  a_queue : list job; a_stopped : bool; a_work : Z; a_guard : bool; a_ops : nat; a_thr : list athread;
  a_taken : list job; a_log : list aevent }.

(** genericasioscheduler.h:49-56 the constructors: with a context of its own, and a
    guard; with a context of the application, which has [ops] pending operations. *)
Definition asched_init (owned : bool) (ops n : nat) : asched :=
  mkASched [] false (Z.of_nat (ops + if owned then 1 else 0)) owned ops (repeat (mkAThr QUser []) n) [] [].

Definition aset_thr (i : nat) (t : athread) (s : asched) : asched :=
  mkASched (a_queue s) (a_stopped s) (a_work s) (a_guard s) (a_ops s) (put i t (a_thr s)) (a_taken s) (a_log s).
Definition aset_stopped (b : bool) (s : asched) : asched :=
  mkASched (a_queue s) b (a_work s) (a_guard s) (a_ops s) (a_thr s) (a_taken s) (a_log s).
Definition aset_guard (b : bool) (s : asched) : asched :=
  mkASched (a_queue s) (a_stopped s) (a_work s) b (a_ops s) (a_thr s) (a_taken s) (a_log s).
Definition aset_ops (n : nat) (s : asched) : asched :=
  mkASched (a_queue s) (a_stopped s) (a_work s) (a_guard s) n (a_thr s) (a_taken s) (a_log s).
Definition alog (e : aevent) (s : asched) : asched :=
  mkASched (a_queue s) (a_stopped s) (a_work s) (a_guard s) (a_ops s) (a_thr s) (a_taken s) (a_log s ++ [e]).
(** A handler becomes ready; [work]: it is new work. *)
Definition aqueue (work : Z) (j : job) (s : asched) : asched :=
  mkASched (a_queue s ++ [j]) (a_stopped s) (a_work s + work) (a_guard s) (a_ops s) (a_thr s) (a_taken s) (a_log s).
Definition work_started (s : asched) : asched :=
  mkASched (a_queue s) (a_stopped s) (a_work s + 1) (a_guard s) (a_ops s) (a_thr s) (a_taken s) (a_log s).
Definition work_finished (s : asched) : asched :=
  let n := (a_work s - 1)%Z in
  mkASched (a_queue s) (a_stopped s || Z.eqb n 0) n (a_guard s) (a_ops s) (a_thr s) (a_taken s) (a_log s).
Definition atake (s : asched) : option (job * asched) :=
  match a_queue s with
  | [] => None
  | j :: q => Some (j, mkASched q (a_stopped s) (a_work s) (a_guard s) (a_ops s) (a_thr s) (a_taken s ++ [j]) (a_log s))
  end.

Section Asio.
(** Whether [ASIOLIB] is one of the old wrappers, whose [Reset] does nothing. *)
Context (old : bool).

(** A run function returns. *)
Definition aret (i : nat) (h : how) (fs : list how) (s : asched) : asched :=
  alog (QRet i h) (aset_thr i (mkAThr QUser fs) s).
(** A handler has returned: [run] goes on, the others return. *)
Definition adone (i : nat) (h : how) (fs : list how) (s : asched) : asched :=
  let s' := work_finished s in
  match h with HRun => aset_thr i (mkAThr (QIn HRun) fs) s' | _ => aret i h fs s' end.
(** A handler has thrown. *)
Definition athrown (i : nat) (h : how) (empty : bool) (fs : list how) (s : asched) : asched :=
  alog (QExc i h empty) (aset_thr i (mkAThr QUser fs) (work_finished s)).

(** The next step of a thread inside the scheduler; [None]: it cannot move. *)
Definition ago (i : nat) (t : athread) (s : asched) : option asched :=
  let fs := at_frames t in
  let at_ p := aset_thr i (mkAThr p fs) in
  match at_pc t with
  | QUser => None
  | QEnter h => if Z.eqb (a_work s) 0 then Some (aret i h fs (aset_stopped true s)) else Some (at_ (QIn h) s)
  | QIn h =>
      if a_stopped s then Some (aret i h fs s)
      else match atake s with
           | Some (j, s') => Some (at_ (QTaken h j) s')
           | None => match h with HPoll => Some (aret i h fs s) | _ => None end
           end
  | QTaken h j =>
      let s' := alog (QBegin i j) s in
      if j_call j then Some (aset_thr i (mkAThr QUser (h :: fs)) s')
      else Some (athrown i h true fs s')                       (* calling an empty [std::function] throws *)
  | QStop0 => Some (at_ (if a_guard s && negb old then QStop1 else QStop3) s)   (* 73-74 *)
  | QStop1 => Some (at_ QStop2 (work_finished s))
  | QStop2 => Some (at_ QStop3 (aset_guard false s))
  | QStop3 => Some (at_ QUser (aset_stopped true s))             (* 75 *)
  end.

(** What user code may call: the scheduler ([Stopped] changes nothing), and the context
    itself: start an operation, [stop], [restart]. *)
Inductive acall := DPost (j : job) | DStop | DRun (h : how) | DStart | DCtxStop | DRestart.
Definition acalled (i : nat) (c : acall) (t : athread) (s : asched) : asched :=
  match c with
  | DPost j => aqueue 1 j s                                      (* 92-95 *)
  | DStop => aset_thr i (mkAThr QStop0 (at_frames t)) s
  | DRun h => aset_thr i (mkAThr (QEnter h) (at_frames t)) s
  | DStart => work_started (aset_ops (S (a_ops s)) s)
  | DCtxStop => aset_stopped true s
  | DRestart => aset_stopped false s
  end.

(** Actions: user code of a thread calls a function; a thread makes its next step in the
    scheduler; the running task of a thread returns or throws; a pending operation
    completes, its handler is queued. *)
Inductive aact := BCall (i : nat) (c : acall) | BGo (i : nat) | BReturn (i : nat) | BThrow (i : nat) | BReady (j : job).

Definition astep (a : aact) (s : asched) : option asched :=
  match a with
  | BCall i c =>
      match nth_error (a_thr s) i with
      | Some t => match at_pc t with QUser => Some (acalled i c t s) | _ => None end
      | None => None
      end
  | BGo i => match nth_error (a_thr s) i with Some t => ago i t s | None => None end
  | BReturn i =>
      match nth_error (a_thr s) i with
      | Some t => match at_pc t, at_frames t with QUser, h :: fs => Some (adone i h fs s) | _, _ => None end
      | None => None
      end
  | BThrow i =>
      match nth_error (a_thr s) i with
      | Some t => match at_pc t, at_frames t with QUser, h :: fs => Some (athrown i h false fs s) | _, _ => None end
      | None => None
      end
  | BReady j => match a_ops s with S n => Some (aqueue 0 j (aset_ops n s)) | O => None end
  end.
Fixpoint arun (l : list aact) (s : asched) : option asched :=
  match l with
  | [] => Some s
  | a :: l' => match astep a s with Some s' => arun l' s' | None => None end
  end.
End Asio.
