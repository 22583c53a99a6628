(** * The accesses to memory of the scheduler, the keyboard and a local session
    Source: /repo/include/cli/loopscheduler.h, detail/linuxkeyboard.h, detail/inputdevice.h,
    clilocalsession.h.  What the steps of SchedulerModel.v, KeyboardModel.v and LocalModel.v read
    and write, and their synchronisation.  Not listed: what is constant after construction and
    before destruction ([scheduler], [this]), local variables, file descriptors and the terminal
    (objects of the kernel), and condition variables, which synchronise nothing by themselves. *)

From Verif Require Import Base FromStringModel HistoryModel StorageModel TerminalModel MenuModel SessionModel ProcessorModel KeyboardModel SchedulerModel LocalModel RaceSpec.
Open Scope nat_scope.
Open Scope list_scope.

Definition by_ (i : nat) (l : list op) : list ev := map (mkEv i) l.

(** ** LoopScheduler *)
(** 59-117: thread [i] at [p].  [ExecOne] evaluates [!running || !tasks.empty()] and then
    [!running] (89-91), [PollOne] [!running || tasks.empty()] (107). *)
Definition go_ops (i : nat) (p : pc) (s : sched) : list op :=
  match p with
  | PUser => []
  | PPost0 _ => [OAcq SchedM]
  | PPost1 j => [OWrite XTasks; OSend (length (s_posted s)) j]
  | PPost2 => []
  | PPost3 => [ORel SchedM]
  | PStop0 => [OAcq SchedM]
  | PStop1 => [OWrite XRunning]
  | PStop2 => []
  | PStop3 => [ORel SchedM]
  | PStopped0 => [OAcq SchedM]
  | PStopped1 => [ORead XRunning; ORel SchedM]
  | PExec0 _ | PWoke _ | PPoll0 => [OAcq SchedM]
  | PExec1 _ =>
      if s_running s then
        match s_tasks s with
        | [] => [ORead XRunning; ORead XTasks; ORel SchedM]
        | j :: _ => [ORead XRunning; ORead XTasks; ORead XRunning; ORead XTasks; OWrite XTasks; OTake (length (s_taken s)) j]
        end
      else [ORead XRunning; ORead XRunning]
  | PPoll1 =>
      if s_running s then
        match s_tasks s with
        | [] => [ORead XRunning; ORead XTasks]
        | j :: _ => [ORead XRunning; ORead XTasks; ORead XTasks; OWrite XTasks; OTake (length (s_taken s)) j]
        end
      else [ORead XRunning]
  | PSleep _ => []
  | PExecF _ | PPollF | PExec2 _ _ | PPoll2 _ => [ORel SchedM]
  | PExec3 _ j | PPoll3 j => [OBegin j]
  end.
Definition sched_events (a : act) (s : sched) : list ev :=
  match a with
  | AGo i => match nth_error (s_thr s) i with Some t => by_ i (go_ops i (th_pc t) s) | None => [] end
  | _ => []
  end.

(** What can happen: a step of SchedulerModel.v; user code of a thread (a task, say) reads or
    writes a variable of its own. *)
Inductive ract := RSched (a : act) | RUser (i x : nat) (w : bool).
Definition race_step (a : ract) (c : sched * list ev) : option (sched * list ev) :=
  let (s, t) := c in
  match a with
  | RSched a => match sched_step a s with Some s' => Some (s', t ++ sched_events a s) | None => None end
  | RUser i x w =>
      match nth_error (s_thr s) i with
      | Some th => match th_pc th with PUser => Some (s, t ++ by_ i [if w then OWrite (XUser x) else ORead (XUser x)]) | _ => None end
      | None => None
      end
  end.
Fixpoint race_run (l : list ract) (c : sched * list ev) : option (sched * list ev) :=
  match l with
  | [] => Some c
  | a :: l' => match race_step a c with Some c' => race_run l' c' | None => None end
  end.

(** ** LinuxKeyboard: thread 0 owns it, thread 1 is [servant] *)
(** inputdevice.h:59-62, loopscheduler.h:77-82 *)
Definition post_ops : list op := [OAcq SchedM; OWrite XTasks; ORel SchedM].
Definition w_ops (s : kbd) : list op :=
  match k_w s with
  | WLock | WWoke => [OAcq KbdM]
  | WCheck => ORead XEnabled :: (if k_enabled s then [] else [ORel KbdM])       (* 150 *)
  | WUnlock => [ORel KbdM]
  | WSelect => [ORead XReadPipe]                                               (* 70-76 *)
  | WNotify _ => post_ops
  | _ => []
  end.
(** In the end the life of the members is over (118). *)
Definition kbd_over : list op := map OFree [XEnabled; XOldt; XNewt; XShutdown; XReadPipe].
Definition m_ops (s : kbd) : list op :=
  match k_m s with
  | MAct0 => [OWrite XOldt]                                                    (* 222 *)
  | MAct1 => [ORead XOldt; OWrite XNewt; ORead XNewt]                          (* 223-225 *)
  | MAct2 | MDe1 => [OAcq KbdM]
  | MAct3 | MDe2 => [OWrite XEnabled]
  | MAct5 | MDe3 => [ORel KbdM]
  | MDe0 | MDt0 => [ORead XOldt]                                               (* 230 *)
  | MDt1 => [ORead XShutdown]                                                  (* 91 *)
  | MDt2 => [ORead XShutdown; OWrite XShutdown]                                (* 92-94 *)
  | MDt3 => OJoin 1 :: kbd_over
  | _ => []
  end.
Definition k_events (a : kact) (s : kbd) : list ev :=
  match a with
  | WGo => by_ 1 (w_ops s)
  | MGo => by_ 0 (m_ops s)
  | WSignal => by_ 1 [ORead XReadPipe]
  | _ => []
  end.
(** 107-110, 55-63, with the base classes: the members get their values, [servant] starts. *)
Definition ctor_events : list ev :=
  by_ 0 [OWrite XSession; OWrite XHandler; OWrite XEnabled; OWrite XShutdown; OWrite XReadPipe; OFork 1].

(** ** CliLocalTerminalSession, thread 0 running the scheduler *)
(** loopscheduler.h:84-94 *)
Definition take_ops : list op :=
  [OAcq SchedM; ORead XRunning; ORead XTasks; ORead XRunning; ORead XTasks; OWrite XTasks; ORel SchedM].
Definition main_ops (s : local) : list op :=
  let kbd := m_ops (lc_kbd s) in
  match lc_main s with
  | LCtor => match k_m (lc_kbd s) with MUser => [OWrite XHandler; OWrite XSession] | _ => kbd end   (* commandprocessor.h:70, clilocalsession.h:68-69 *)
  | LTask => take_ops ++ [ORead XHandler; OWrite XSession]                     (* inputdevice.h:61 *)
  | LDeact _ => match k_m (lc_kbd s) with MUser => [OWrite XSession] | _ => kbd end
  | LAct => match k_m (lc_kbd s) with MUser => [] | _ => kbd end
  | LDtor => match k_m (lc_kbd s) with MGone => map OFree [XHandler; XSession] | _ => kbd end
  | LOver => []
  end.
Definition l_events (a : lact) (s : local) : list ev :=
  match a with
  | LMain => by_ 0 (main_ops s)
  | LKbd a => k_events a (lc_kbd s)
  | LStop | LDestroy => []
  end.

(** What can happen: a step of LocalModel.v; [Stop] is called by a thread, though not by
    [servant]; thread 0 finds no task and waits (loopscheduler.h:88-89). *)
Inductive rlact := RStep (a : lact) | RStop (i : nat) | RWait.
Section Session.
Context (E : env) (sgn : bool) (fuel : nat) (tty : bool) (color : list event -> bool * bool).
Definition racel_step (a : rlact) (c : local * list ev) : option (local * list ev) :=
  let (s, t) := c in
  match a with
  | RStep LStop => None
  | RStep a => match l_step E sgn fuel tty color a s with LcOk s' => Some (s', t ++ l_events a s) | _ => None end
  | RStop 1 => None
  | RStop i => Some (set_stopped s, t ++ by_ i [OAcq SchedM; OWrite XRunning; ORel SchedM])
  | RWait => match lc_main s with LTask => Some (s, t ++ by_ 0 [OAcq SchedM; ORead XRunning; ORead XTasks; ORel SchedM]) | _ => None end
  end.
Fixpoint racel_run (l : list rlact) (c : local * list ev) : option (local * list ev) :=
  match l with
  | [] => Some c
  | a :: l' => match racel_step a c with Some c' => racel_run l' c' | None => None end
  end.
End Session.
Definition racel_init (m junk : tmode) (w : world) : local * list ev := (local_init m junk w, ctor_events).

(** ** The same, thread 2 running the scheduler while thread 0 constructs the session
    Only as far as the constructor goes and for keys that end no line; [o_stage]: the
    constructor's steps after that of the keyboard: [Register], then [Enter] and [Prompt]. *)
Inductive stage := SgKbd | SgEnter | SgReady.
Record other := mkOther { o_kbd : kbd; o_queue : list key; o_stage : stage }.
Inductive oact := OOwner | OKbd (a : kact) | ORunner.
Definition other_step (sgn : bool) (a : oact) (c : other * list ev) : option (other * list ev) :=
  let (s, t) := c in
  match a with
  | OOwner =>
      match o_stage s, k_m (o_kbd s) with
      | SgKbd, MUser => Some (mkOther (o_kbd s) (o_queue s) SgEnter, t ++ by_ 0 [OWrite XHandler])
      | SgKbd, _ => match k_step sgn MGo (o_kbd s) with Some k => Some (mkOther k (o_queue s) SgKbd, t ++ k_events MGo (o_kbd s)) | None => None end
      | SgEnter, _ => Some (mkOther (o_kbd s) (o_queue s) SgReady, t ++ by_ 0 [OWrite XSession])
      | SgReady, _ => None
      end
  | OKbd a =>
      match a with
      | MGo | MCall _ => None
      | _ => match k_step sgn a (o_kbd s) with
             | Some k => Some (mkOther k (o_queue s ++ posted (o_kbd s) k) (o_stage s), t ++ k_events a (o_kbd s))
             | None => None
             end
      end
  | ORunner =>
      match o_queue s with
      | KRet :: _ | KEof :: _ | [] => None
      | _ :: q => Some (mkOther (o_kbd s) q (o_stage s),
          t ++ by_ 2 (take_ops ++ ORead XHandler :: match o_stage s with SgKbd => [] | _ => [OWrite XSession] end))
      end
  end.
Fixpoint other_run (sgn : bool) (l : list oact) (c : other * list ev) : option (other * list ev) :=
  match l with
  | [] => Some c
  | a :: l' => match other_step sgn a c with Some c' => other_run sgn l' c' | None => None end
  end.
Definition other_init (m junk : tmode) : other * list ev := (mkOther (kbd_init m junk) [] SgKbd, ctor_events).
