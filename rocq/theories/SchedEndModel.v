(** * Model of the end of a LoopScheduler
    Source: /repo/include/cli/loopscheduler.h 50-53, 120-123: the destructor calls [Stop];
    then the members are destroyed.  Any thread may do this, also a task run by the
    scheduler itself; the other threads go on meanwhile.  Undefined behaviour: destroying
    the mutex while it is locked, destroying the condition variable while a thread waits
    that was not notified, and any use of a member, or call of a member function,
    afterwards.  Simplification: between the begin of the destructor and the end of [Stop]
    other threads may still call functions of the scheduler. *)

From Verif Require Import Base SchedulerModel.

(** Where the scheduler is: usable; thread [i] is in the destructor; the members are destroyed. *)
Inductive phase := Usable | Ending (i : nat) | Ended.
Record ending := mkEnding { z_s : sched; z_phase : phase }.
Inductive zres := ZOk (x : ending) | ZUB | ZNo.     (* [ZNo]: not possible now *)

(** Whether the next step of a thread uses a member: not when it calls the task, of which
    it has a copy (86, 96-97 and 104, 113-114). *)
Definition uses (p : pc) : bool := match p with PUser | PExec3 _ _ | PPoll3 _ => false | _ => true end.

(** Actions: those of SchedulerModel.v; a thread begins to destroy the scheduler; it destroys the members. *)
Inductive zact := ZAct (a : act) | ZDestroy (i : nat) | ZFree.

Definition actor (a : act) : nat := match a with ACall i _ | AGo i | ASpurious i | AReturn i | AThrow i => i end.
Definition is_user (i : nat) (s : sched) : bool :=
  match nth_error (s_thr s) i with Some t => match th_pc t with PUser => true | _ => false end | None => false end.
Definition asleep (t : thread) : bool := match th_pc t with PSleep _ => true | _ => false end.
Definition use_of (a : act) (s : sched) : bool :=
  match a with
  | ACall _ _ | ASpurious _ => true
  | AGo i => match nth_error (s_thr s) i with Some t => uses (th_pc t) | None => false end
  | AReturn _ | AThrow _ => false
  end.

Definition zlift (p : phase) (r : option sched) : zres := match r with Some s => ZOk (mkEnding s p) | None => ZNo end.
Definition zstep (a : zact) (x : ending) : zres :=
  let s := z_s x in
  match z_phase x, a with
  | Usable, ZAct a => zlift Usable (sched_step a s)
  | Usable, ZDestroy i =>                                              (* 50-52 *)
      if is_user i s then zlift (Ending i) (sched_step (ACall i CStop) s) else ZNo
  | Ending i, ZAct a =>                                                (* the thread itself is in [Stop] *)
      if Nat.eqb (actor a) i && is_user i s then ZNo else zlift (Ending i) (sched_step a s)
  | Ending i, ZFree =>                                                 (* 53, 120-123 *)
      if is_user i s then
        match s_mtx s with
        | Some _ => ZUB
        | None => if existsb asleep (s_thr s) then ZUB else ZOk (mkEnding s Ended)
        end
      else ZNo
  | Ended, ZAct a =>
      match sched_step a s with
      | Some s' => if use_of a s then ZUB else ZOk (mkEnding s' Ended)
      | None => if use_of a s && (match a with AGo _ => true | _ => false end) then ZUB else ZNo
      end
  | Ending _, ZDestroy j | Ended, ZDestroy j => if is_user j s then ZUB else ZNo
  | Usable, ZFree | Ended, ZFree => ZNo
  end.
Fixpoint zrun (l : list zact) (x : ending) : zres :=
  match l with
  | [] => ZOk x
  | a :: l' => match zstep a x with ZOk x' => zrun l' x' | r => r end
  end.
Definition z_init (n : nat) : ending := mkEnding (sched_init n) Usable.
