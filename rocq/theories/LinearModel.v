(** * What threads see of LoopScheduler
    Source: /repo/include/cli/loopscheduler.h.  The calls and returns of the functions and the
    starts and ends of tasks, read off the steps of SchedulerModel.v; a return is seen when the mutex
    is released, as early as possible. *)

From Verif Require Import Base SchedulerModel.

(** A call; the return of [Post] or [Stop]; of [Stopped] with its value; of [ExecOne] or [PollOne]
    with theirs, to user code; of [Run]; a task starts, returns, throws. *)
Inductive vis :=
| VCall (i : nat) (c : call) | VDone (i : nat) | VStopped (i : nat) (b : bool) | VOne (i : nat) (b : bool) | VRun (i : nat)
| VBegin (i : nat) (j : job) | VEnd (i : nat) | VThrow (i : nat).

(** 66-69: [Run] goes on after true. *)
Definition back (i : nat) (f : frame) (b : bool) : list vis :=
  match f, b with
  | FExec ByRun, true => []
  | FExec ByRun, false => [VRun i]
  | _, _ => [VOne i b]
  end.
Definition seen_go (i : nat) (p : pc) (s : sched) : list vis :=
  match p with
  | PPost3 | PStop3 => [VDone i]                                                   (* 82, 64 *)
  | PStopped1 => [VStopped i (negb (s_running s))]                                  (* 74 *)
  | PExecF c => back i (FExec c) false                                              (* 91 *)
  | PPollF => back i FPoll false                                                    (* 108 *)
  | PExec3 c j => if j_call j then [VBegin i j] else back i (FExec c) true           (* 96-99 *)
  | PPoll3 j => if j_call j then [VBegin i j] else back i FPoll true                 (* 113-116 *)
  | _ => []
  end.
Definition seen (a : act) (s : sched) : list vis :=
  match a with
  | ACall i c => [VCall i c]
  | AGo i => match nth_error (s_thr s) i with Some t => seen_go i (th_pc t) s | None => [] end
  | ASpurious _ => []
  | AReturn i => VEnd i :: match nth_error (s_thr s) i with Some t => match th_frames t with f :: _ => back i f true | [] => [] end | None => [] end
  | AThrow i => [VThrow i]
  end.
Fixpoint observe (l : list act) (s : sched) : option (list vis * sched) :=
  match l with
  | [] => Some ([], s)
  | a :: l' =>
      match sched_step a s with
      | None => None
      | Some s' => match observe l' s' with Some (v, s'') => Some (seen a s ++ v, s'') | None => None end
      end
  end.
