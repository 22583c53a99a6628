(** * Model of the end of the schedulers based on asio
    Source: /repo/include/cli/detail/genericasioscheduler.h 58-65 (the destructor), with
    the guards of the wrappers newboostasiolib.h, newstandaloneasiolib.h,
    oldboostasiolib.h, oldstandaloneasiolib.h (all in detail/): destroying a guard that
    owns work gives it up.  Besides the functions of the scheduler, threads use the context
    itself ([AsioContext()], or the application's own reference).  Of asio the model has
    what its documentation says: destroying a context destroys the handlers queued and
    those of pending operations without calling them; no thread may be in one of its
    functions then.  Simplification: calls of the scheduler by other threads while the
    destructor runs count as undefined behaviour. *)

From Verif Require Import Base SchedulerModel AsioSchedModel.
Open Scope nat_scope.
Open Scope list_scope.

(** Usable; thread [i] has destroyed the guard and is about to delete the context; destroyed. *)
Inductive aphase := AUsable | AEnding (i : nat) | AEnded.
(** [ae_dropped]: the handlers destroyed with the context. *)
Record aend := mkAEnd { ae_s : asched; ae_phase : aphase; ae_dropped : list job }.
Inductive aeres := AEOk (x : aend) | AEUB | AENo.        (* [AENo]: not possible now *)

(** Whether a thread is in [Stop]; in any function of the scheduler or the context, or in a task called by them. *)
Definition in_stop (t : athread) : bool := match at_pc t with QStop0 | QStop1 | QStop2 | QStop3 => true | _ => false end.
Definition inside (t : athread) : bool := match at_pc t, at_frames t with QUser, [] => false | _, _ => true end.
Definition a_user (i : nat) (s : asched) : bool :=
  match nth_error (a_thr s) i with Some t => match at_pc t with QUser => true | _ => false end | None => false end.
Definition of_sched (a : aact) : bool := match a with BCall _ (DPost _) | BCall _ DStop | BCall _ (DRun _) => true | _ => false end.
Definition aactor (a : aact) : option nat := match a with BCall i _ | BGo i | BReturn i | BThrow i => Some i | BReady _ => None end.
Definition by_other (i : nat) (a : aact) : bool := match aactor a with Some j => negb (Nat.eqb j i) | None => true end.

(** Actions: those of AsioSchedModel.v; a thread posts to the context, or calls a run function of the context; a thread begins
    to destroy the scheduler; it deletes the context. *)
Inductive eact := EAct (a : aact) | ECtxPost (i : nat) (j : job) | ECtxRun (i : nat) (h : how) | EDestroy (i : nat) | EDelete.

Section Asio.
Context (old owned : bool).

Definition elift (x : aend) (r : option asched) : aeres := match r with Some s => AEOk (mkAEnd s (ae_phase x) (ae_dropped x)) | None => AENo end.
(** 62: [~WorkGuard] *)
Definition drop_guard (s : asched) : asched := if a_guard s then aset_guard false (work_finished s) else s.
(** 63: [~ContextType] *)
Definition delete_context (x : aend) : aend :=
  let s := ae_s x in
  mkAEnd (mkASched [] (a_stopped s) (a_work s) (a_guard s) 0 (a_thr s) (a_taken s) (a_log s)) AEnded (ae_dropped x ++ a_queue s).

(** What an action on the context does, directly or by the scheduler. *)
Definition as_ctx (a : eact) : option aact :=
  match a with EAct a => Some a | ECtxPost i j => Some (BCall i (DPost j)) | ECtxRun i h => Some (BCall i (DRun h)) | _ => None end.

Definition estep (a : eact) (x : aend) : aeres :=
  let s := ae_s x in
  match a with
  | EDestroy i =>
      if negb (a_user i s) then AENo
      else match ae_phase x with
           | AUsable =>
               if existsb in_stop (a_thr s) then AEUB                  (* they use the members *)
               else if owned then AEOk (mkAEnd (drop_guard s) (AEnding i) (ae_dropped x))
               else AEOk (mkAEnd s AEnded (ae_dropped x))              (* 60 *)
           | _ => AEUB
           end
  | EDelete =>
      match ae_phase x with
      | AEnding _ =>                                                   (* a guard destroyed later (106) would use the context *)
          if existsb inside (a_thr s) || a_guard s then AEUB else AEOk (delete_context x)
      | _ => AENo
      end
  | _ =>
      match as_ctx a with
      | None => AENo
      | Some b =>
          match ae_phase x with
          | AUsable => elift x (astep old b s)
          | AEnding i =>
              if negb (by_other i b) then AENo
              else match astep old b s with
                   | None => AENo
                   | Some s' => match a with EAct b => if of_sched b then AEUB else elift x (Some s') | _ => elift x (Some s') end
                   end
          | AEnded =>
              match astep old b s with
              | None => AENo
              | Some s' =>
                  if owned then AEUB                                   (* there is no context *)
                  else match a with EAct b => if of_sched b then AEUB else elift x (Some s') | _ => elift x (Some s') end
              end
          end
      end
  end.
Fixpoint erun (l : list eact) (x : aend) : aeres :=
  match l with
  | [] => AEOk x
  | a :: l' => match estep a x with AEOk x' => erun l' x' | r => r end
  end.
Definition e_init (ops n : nat) : aend := mkAEnd (asched_init owned ops n) AUsable [].
End Asio.
