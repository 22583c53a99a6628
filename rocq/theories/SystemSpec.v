(** * Specification of a local session on LoopScheduler *)

From Verif Require Import Base FromStringModel HistoryModel StorageModel TerminalModel MenuModel SessionModel ProcessorModel KeyboardModel SchedulerModel LocalModel LocalSpec SystemModel.
Open Scope nat_scope.
Open Scope list_scope.

(** The states reached with [n] threads of the application, on a terminal of mode [m], by a session whose base
    class was initialised with the world [w]. *)
Definition yreaches E sgn fuel tty color (n : nat) (m junk : tmode) (w : world) (l : list yact) (s : sys) : Prop :=
  y_run E sgn fuel tty color l (sys_init n m junk w) = YOk s.

(** The keys among tasks *)
Definition keys_of (names : list task) (js : list job) : list key :=
  flat_map (fun j => match nth_error names (j_id j) with Some (TKey k) => [k] | _ => [] end) js.
(** The key thread 0 has taken from the queue, and not begun to handle *)
Definition waiting (s : sys) : list key :=
  match pc_of 0 s with
  | Some (PExec2 _ j) | Some (PExec3 _ j) | Some (PPoll2 j) | Some (PPoll3 j) => keys_of (y_names s) [j]
  | _ => match y_key s with Some (KTask k) => [k] | _ => [] end
  end.
(** The key whose line is being run *)
Definition running_key (s : sys) : list key := match y_key s with Some (KDeact k) => [k] | _ => [] end.
(** The key the keyboard is posting: it is in the queue, but [Post] has not returned *)
Definition pending (s : sys) : list key :=
  match pc_of 1 s, k_w (y_kbd s) with Some PPost2, WNotify k | Some PPost3, WNotify k => [k] | _, _ => [] end.

(** What was typed; what happened to the terminal *)
Definition ytyped (l : list yact) : str := flat_map (fun a => match a with YKbd (Type_ t) => t | _ => [] end) l.
Definition yundisturbed (l : list yact) : Prop := ~ In (YKbd Take) l /\ ~ In (YKbd Hangup) l /\ ~ In (YKbd WSignal) l.
Definition ymode_untouched (l : list yact) : Prop := forall x, ~ In (YKbd (SetMode x)) l.
(** Steps of the library only *)
Definition lib_step (a : yact) : Prop := match a with YMain | YWorker | YGo _ => True | _ => False end.
(** No thread can make a step in the library, and thread 0 is in it (in [Run], say). *)
Definition ysettled E sgn fuel tty color (s : sys) : Prop :=
  (forall a, lib_step a -> y_step E sgn fuel tty color a s = YNone) /\ pc_of 0 s <> Some PUser.
(** The calls of commands so far *)
Definition ycalled (s : sys) : list event :=
  filter (fun e => match e with EvCall _ _ _ => true | _ => false end) (w_trace (p_world (y_proc s))).
