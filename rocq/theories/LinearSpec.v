(** * Specification of a scheduler whose functions act at once
    A queue and a flag; every call takes effect in one step between call and return. *)

From Verif Require Import Base SchedulerModel LinearModel.

(** A thread is in user code, has called a function that has not acted yet, or is about to return
    from one; and the tasks it is in, innermost first. *)
Inductive result := RDone | RSaid (b : bool) | RNo (f : frame) | RTask (f : frame) (j : job).
Inductive doing := Idle | Wants (c : call) | Has (r : result).
Record user := mkUser { u_doing : doing; u_in : list frame }.
Record atomic := mkAtomic { q_tasks : list job; q_up : bool; q_user : nat -> user }.
Definition atomic_init : atomic := mkAtomic [] true (fun _ => mkUser Idle []).

Definition takes (c : call) : option frame :=
  match c with CExec => Some (FExec ByUser) | CRun => Some (FExec ByRun) | CPoll => Some FPoll | _ => None end.
(** After a task: [Run] wants the next one. *)
Definition after (f : frame) : doing := match f with FExec ByRun => Wants CRun | _ => Idle end.

(** What the caller sees when it returns: [Run] returns after false only. *)
Definition hands (i : nat) (f : frame) (b : bool) : list vis :=
  match f with FExec ByRun => if b then [] else [VRun i] | _ => [VOne i b] end.

(** [local i u q up evs u' q' up']: a step of thread [i]. *)
Inductive local (i : nat) : user -> list job -> bool -> list vis -> user -> list job -> bool -> Prop :=
| l_call c fs q up : local i (mkUser Idle fs) q up [VCall i c] (mkUser (Wants c) fs) q up
| l_post j fs q up : local i (mkUser (Wants (CPost j)) fs) q up [] (mkUser (Has RDone) fs) (q ++ [j]) up
| l_stop fs q up : local i (mkUser (Wants CStop) fs) q up [] (mkUser (Has RDone) fs) q false
| l_stopped fs q up : local i (mkUser (Wants CStopped) fs) q up [] (mkUser (Has (RSaid (negb up))) fs) q up
| l_take c f j fs q : takes c = Some f -> local i (mkUser (Wants c) fs) (j :: q) true [] (mkUser (Has (RTask f j)) fs) q true
| l_refuse c f fs q : takes c = Some f -> local i (mkUser (Wants c) fs) q false [] (mkUser (Has (RNo f)) fs) q false
| l_empty fs : local i (mkUser (Wants CPoll) fs) [] true [] (mkUser (Has (RNo FPoll)) fs) [] true
| l_done fs q up : local i (mkUser (Has RDone) fs) q up [VDone i] (mkUser Idle fs) q up
| l_said b fs q up : local i (mkUser (Has (RSaid b)) fs) q up [VStopped i b] (mkUser Idle fs) q up
| l_no f fs q up : local i (mkUser (Has (RNo f)) fs) q up (hands i f false) (mkUser Idle fs) q up
| l_begin f j fs q up : j_call j = true -> local i (mkUser (Has (RTask f j)) fs) q up [VBegin i j] (mkUser Idle (f :: fs)) q up
| l_skip f j fs q up : j_call j = false -> local i (mkUser (Has (RTask f j)) fs) q up (hands i f true) (mkUser (after f) fs) q up
| l_end f fs q up : local i (mkUser Idle (f :: fs)) q up (VEnd i :: hands i f true) (mkUser (after f) fs) q up
| l_throw f fs q up : local i (mkUser Idle (f :: fs)) q up [VThrow i] (mkUser Idle fs) q up.

Definition atomic_step (s : atomic) (evs : list vis) (s' : atomic) : Prop :=
  exists i, local i (q_user s i) (q_tasks s) (q_up s) evs (q_user s' i) (q_tasks s') (q_up s') /\
    forall k, k <> i -> q_user s' k = q_user s k.
Inductive atomic_run : atomic -> list vis -> atomic -> Prop :=
| r_stay s : atomic_run s [] s
| r_step s evs s1 evs' s2 : atomic_run s evs s1 -> atomic_step s1 evs' s2 -> atomic_run s (evs ++ evs') s2.

(** ** What users can rely on *)
(** A call of [Stop] that has returned. *)
Definition stop_returned (evs : list vis) : Prop :=
  exists k a m b, evs = a ++ VCall k CStop :: m ++ VDone k :: b /\ forall c, ~ In (VCall k c) m.
Definition stop_called (evs : list vis) : Prop := exists k, In (VCall k CStop) evs.
