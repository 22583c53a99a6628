(** * Model of a local session on LoopScheduler, step by step
    Source: /repo/include/cli/clilocalsession.h:63-76, detail/inputdevice.h:44-68,
    detail/commandprocessor.h:65-111, detail/linuxkeyboard.h, loopscheduler.h.
    As LocalModel.v, but with the scheduler of SchedulerModel.v, each access to it being a step, and
    with other threads and other tasks.  Thread 0 constructs the session, runs the scheduler and
    destroys the session, thread 1 is the keyboard's ([servant], linuxkeyboard.h:242), all
    others belong to the application and may post tasks, call [Stop] and [Stopped].
    Simplifications: only thread 0 executes tasks, and not while it handles a key (a command
    calling [ExecOne]); what the command processor does for a key is one step, as in LocalModel.v. *)

From Verif Require Import Base FromStringModel HistoryModel StorageModel TerminalModel MenuModel SessionModel ProcessorModel KeyboardModel SchedulerModel LocalModel.
Open Scope nat_scope.
Open Scope list_scope.

(** The function objects posted: of the keyboard, with a key (inputdevice.h:61), of the application.
    A [job]'s number is its place in the list of all. *)
Inductive task := TKey (k : key) | TApp.
(** The life of the session; what thread 0 does in a key's task: before it, in [DeactivateInput]
    (commandprocessor.h:106), in [ActivateInput] (109), after it. *)
Inductive life := SCtor | SLive | SDtor | SOver.
Inductive kpc := KTask (k : key) | KDeact (k : key) | KAct | KEnd.
Record sys := mkSys {
  y_sched : sched; y_names : list task; y_kbd : kbd; y_life : life; y_key : option kpc;
  y_proc : proc; y_done : list key; y_thrown : list exn }.
(** [n] threads of the application *)
Definition sys_init (n : nat) (m junk : tmode) (w : world) : sys :=
  mkSys (sched_init (2 + n)) [] (kbd_init m junk) SCtor None (mkProc w term_init) [] [].

Definition y_set_sched (c : sched) (s : sys) : sys := mkSys c (y_names s) (y_kbd s) (y_life s) (y_key s) (y_proc s) (y_done s) (y_thrown s).
Definition y_add_name (t : task) (s : sys) : sys := mkSys (y_sched s) (y_names s ++ [t]) (y_kbd s) (y_life s) (y_key s) (y_proc s) (y_done s) (y_thrown s).
Definition y_set_kbd (k : kbd) (s : sys) : sys := mkSys (y_sched s) (y_names s) k (y_life s) (y_key s) (y_proc s) (y_done s) (y_thrown s).
Definition y_set_life (x : life) (s : sys) : sys := mkSys (y_sched s) (y_names s) (y_kbd s) x (y_key s) (y_proc s) (y_done s) (y_thrown s).
Definition y_set_key (x : option kpc) (s : sys) : sys := mkSys (y_sched s) (y_names s) (y_kbd s) (y_life s) x (y_proc s) (y_done s) (y_thrown s).
Definition y_set_proc (p : proc) (s : sys) : sys := mkSys (y_sched s) (y_names s) (y_kbd s) (y_life s) (y_key s) p (y_done s) (y_thrown s).
Definition y_add_done (k : key) (s : sys) : sys := mkSys (y_sched s) (y_names s) (y_kbd s) (y_life s) (y_key s) (y_proc s) (y_done s ++ [k]) (y_thrown s).
Definition y_add_thrown (x : exn) (s : sys) : sys := mkSys (y_sched s) (y_names s) (y_kbd s) (y_life s) (y_key s) (y_proc s) (y_done s) (y_thrown s ++ [x]).

(** As [locres] in LocalModel.v *)
Inductive yres := YOk (s : sys) | YNone | YGone | YUB | YFuel.

Definition pc_of (i : nat) (s : sys) : option pc := match nth_error (s_thr (y_sched s)) i with Some t => Some (th_pc t) | None => None end.
(** A step of the scheduler *)
Definition in_sched (a : act) (s : sys) : yres := match sched_step a (y_sched s) with Some c => YOk (y_set_sched c s) | None => YNone end.
(** A task is called (loopscheduler.h:96-97, 113-114): a key's, or one of the application. *)
Definition begins (p : pc) (s : sys) : option kpc :=
  match p with
  | PExec3 _ j | PPoll3 j => if j_call j then match nth_error (y_names s) (j_id j) with Some (TKey k) => Some (KTask k) | _ => None end else None
  | _ => None
  end.

Section System.
Context (E : env) (sgn : bool) (fuel : nat) (tty : bool) (color : list event -> bool * bool).

(** As in LocalModel.v: thread 0 goes on inside the keyboard, or, when it is out of it, with [next]. *)
Definition y_in_kbd (s : sys) (next : yres) : yres :=
  match k_m (y_kbd s) with
  | MUser => next
  | _ => match k_step sgn MGo (y_kbd s) with Some k => YOk (y_set_kbd k s) | None => YNone end
  end.
Definition y_call_kbd (c : kcall) (s : sys) : yres :=
  match k_step sgn (MCall c) (y_kbd s) with Some k => YOk (y_set_kbd k s) | None => YNone end.
(** An exception leaves the task. *)
Definition y_throw (x : exn) (s : sys) : yres := in_sched (AThrow 0) (y_set_key None (y_add_thrown x s)).

(** Thread 0 in the session's code *)
Definition y_session (s : sys) : yres :=
  match y_life s, y_key s with
  | SCtor, _ =>                                                  (* clilocalsession.h:63-70 *)
      y_in_kbd s
        match open_local E tty (fst (color (w_trace (p_world (y_proc s))))) (p_world (y_proc s)) with
        | POk p => YOk (y_set_life SLive (y_set_proc p s))
        | PExc x p => y_call_kbd Destroy (y_set_life SDtor (y_add_thrown x (y_set_proc p s)))
        | PUB => YUB
        | PFuel => YFuel
        end
  | SLive, Some (KTask k) =>                                     (* inputdevice.h:61, commandprocessor.h:80-111 *)
      if is_command tty color k (y_proc s) then y_call_kbd Deactivate (y_set_key (Some (KDeact k)) s)
      else match l_press E fuel tty color k (y_proc s) with
           | POk p => YOk (y_set_key (Some KEnd) (y_add_done k (y_set_proc p s)))
           | PExc x p => y_throw x (y_add_done k (y_set_proc p s))
           | PUB => YUB
           | PFuel => YFuel
           end
  | SLive, Some (KDeact k) =>
      y_in_kbd s
        match l_press E fuel tty color k (y_proc s) with
        | POk p => y_call_kbd Activate (y_set_key (Some KAct) (y_add_done k (y_set_proc p s)))
        | PExc x p => y_throw x (y_add_done k (y_set_proc p s))
        | PUB => YUB
        | PFuel => YFuel
        end
  | SLive, Some KAct => y_in_kbd s (YOk (y_set_key (Some KEnd) s))
  | SLive, Some KEnd => in_sched (AReturn 0) (y_set_key None s)   (* loopscheduler.h:98-99 *)
  | SLive, None => YNone
  | SDtor, _ =>
      match k_m (y_kbd s) with
      | MGone => YOk (y_set_life SOver s)
      | _ => y_in_kbd s YNone
      end
  | SOver, Some (KTask _) => YGone                               (* the task's [this] is dangling *)
  | SOver, _ => YNone
  end.
(** The next step of thread 0 in the library: in the scheduler, or in the session *)
Definition y_main (s : sys) : yres :=
  match pc_of 0 s with
  | None => YNone
  | Some PUser => y_session s
  | Some p => in_sched (AGo 0) match begins p s with Some x => y_set_key (Some x) s | None => s end
  end.
(** The keyboard thread: [Notify] is [Post] (inputdevice.h:59-62). *)
Definition y_worker (s : sys) : yres :=
  match k_w (y_kbd s), pc_of 1 s with
  | WNotify k, Some PUser => in_sched (ACall 1 (CPost (mkJob (length (y_names s)) true))) (y_add_name (TKey k) s)
  | WNotify k, Some PPost3 =>
      match k_step sgn WGo (y_kbd s) with Some b => in_sched (AGo 1) (y_set_kbd b s) | None => YNone end
  | WNotify k, Some _ => in_sched (AGo 1) s
  | _, _ => match k_step sgn WGo (y_kbd s) with Some b => YOk (y_set_kbd b s) | None => YNone end
  end.

(** User code may call [Post] (of an empty function if not [b]), [Stop], [Stopped], and thread
    0, if it is not in the session's code, the functions that execute tasks. *)
Inductive ycall := YPost (b : bool) | YStop | YStopped | YExec | YRun | YPoll.
Definition outside (s : sys) : bool :=
  match y_life s, y_key s with SLive, None | SOver, None => true | _, _ => false end.
Definition y_call (i : nat) (c : ycall) (s : sys) : yres :=
  match c with
  | YPost b => in_sched (ACall i (CPost (mkJob (length (y_names s)) b))) (y_add_name TApp s)
  | YStop => in_sched (ACall i CStop) s
  | YStopped => in_sched (ACall i CStopped) s
  | YExec => if outside s then in_sched (ACall i CExec) s else YNone
  | YRun => if outside s then in_sched (ACall i CRun) s else YNone
  | YPoll => if outside s then in_sched (ACall i CPoll) s else YNone
  end.
Definition executes (c : ycall) : bool := match c with YExec | YRun | YPoll => true | _ => false end.

(** What can happen: a step of thread 0 or of the keyboard's thread in the library; of the keyboard's
    environment (as in LocalModel.v); a step of another thread inside the scheduler; a spurious
    wake-up; user code calls a function of the scheduler; a task of the application returns or throws;
    thread 0 destroys the session. *)
Inductive yact := YMain | YWorker | YKbd (a : kact) | YGo (i : nat) | YSpurious (i : nat) | YCall (i : nat) (c : ycall) | YReturn | YThrow | YDestroy.
Definition y_step (a : yact) (s : sys) : yres :=
  match a with
  | YMain => y_main s
  | YWorker => y_worker s
  | YKbd a =>
      match a with
      | WGo | MGo | MCall _ => YNone
      | _ => match k_step sgn a (y_kbd s) with Some b => YOk (y_set_kbd b s) | None => YNone end
      end
  | YGo i => match i with 0 | 1 => YNone | _ => in_sched (AGo i) s end
  | YSpurious i => in_sched (ASpurious i) s
  | YCall 1 _ => YNone
  | YCall i c => if executes c && negb (Nat.eqb i 0) then YNone else y_call i c s
  | YReturn => if outside s then in_sched (AReturn 0) s else YNone
  | YThrow => if outside s then in_sched (AThrow 0) s else YNone
  | YDestroy =>
      match y_life s, y_key s, pc_of 0 s with
      | SLive, None, Some PUser => y_call_kbd Destroy (y_set_life SDtor s)
      | _, _, _ => YNone
      end
  end.
Fixpoint y_run (l : list yact) (s : sys) : yres :=
  match l with
  | [] => YOk s
  | a :: l' => match y_step a s with YOk s' => y_run l' s' | r => r end
  end.
End System.
