(** * Model of a local session: keyboard, scheduler and command processor together
    Source: /repo/include/cli/clilocalsession.h:63-76, detail/inputdevice.h:44-68,
    detail/commandprocessor.h:65-111, detail/linuxkeyboard.h, loopscheduler.h.
    The main thread constructs the session, runs the scheduler and destroys the session;
    the keyboard thread posts the keys.  Simplifications: the queue of the scheduler is
    that of SchedulerModel.v seen from outside (C46 to C48), and has no tasks but keys;
    what the command processor does for a key, apart from the steps inside the keyboard,
    is one step (only the main thread sees that state); input is deactivated before the
    step, and activated after it, as seen from the keyboard. *)

From Verif Require Import Base FromStringModel HistoryModel StorageModel TerminalModel MenuModel SessionModel ProcessorModel KeyboardModel.
Open Scope nat_scope.
Open Scope list_scope.

(** Where the main thread is: in the constructor of the session; in the scheduler,
    between tasks; in [DeactivateInput] for a key (commandprocessor.h:106); in
    [ActivateInput] (109); in the destructor; after it. *)
Inductive lpc := LCtor | LTask | LDeact (k : key) | LAct | LDtor | LOver.

(** The keyboard; the tasks posted by it (inputdevice.h:61) and not taken; whether the
    scheduler was stopped; the main thread; the session with its terminal; the keys
    handled, and the exceptions that left the constructor or [Run]. *)
Record local := mkLocal {
  lc_kbd : kbd; lc_queue : list key; lc_stopped : bool; lc_main : lpc; lc_proc : proc; lc_done : list key; lc_thrown : list exn }.

(** Before the constructor's body; the base class was initialised with the world [w]. *)
Definition local_init (m junk : tmode) (w : world) : local :=
  mkLocal (kbd_init m junk) [] false LCtor (mkProc w term_init) [] [].

Definition set_kbd (k : kbd) (s : local) : local :=
  mkLocal k (lc_queue s) (lc_stopped s) (lc_main s) (lc_proc s) (lc_done s) (lc_thrown s).
Definition set_queue (q : list key) (s : local) : local :=
  mkLocal (lc_kbd s) q (lc_stopped s) (lc_main s) (lc_proc s) (lc_done s) (lc_thrown s).
Definition set_main (p : lpc) (s : local) : local :=
  mkLocal (lc_kbd s) (lc_queue s) (lc_stopped s) p (lc_proc s) (lc_done s) (lc_thrown s).
Definition set_proc (p : proc) (s : local) : local :=
  mkLocal (lc_kbd s) (lc_queue s) (lc_stopped s) (lc_main s) p (lc_done s) (lc_thrown s).
Definition add_done (k : key) (s : local) : local :=
  mkLocal (lc_kbd s) (lc_queue s) (lc_stopped s) (lc_main s) (lc_proc s) (lc_done s ++ [k]) (lc_thrown s).
Definition add_thrown (x : exn) (s : local) : local :=
  mkLocal (lc_kbd s) (lc_queue s) (lc_stopped s) (lc_main s) (lc_proc s) (lc_done s) (lc_thrown s ++ [x]).
Definition set_stopped (s : local) : local :=
  mkLocal (lc_kbd s) (lc_queue s) true (lc_main s) (lc_proc s) (lc_done s) (lc_thrown s).

(** Outcomes of a step: the next state; it is not possible; a destroyed session is used;
    other undefined behaviour; recursion too deep. *)
Inductive locres := LcOk (s : local) | LcNone | LcGone | LcUB | LcFuel.

Section Local.
(** [E]: user code; [sgn]: as for the keyboard; [color]: the global colour flag when a
    key is handled, before and after user code ran. *)
Context (E : env) (sgn : bool) (fuel : nat) (tty : bool) (color : list event -> bool * bool).

(** What the keyboard posted in a step. *)
Definition posted (k k' : kbd) : list key := skipn (length (k_keys k)) (k_keys k').

(** commandprocessor.h:80-84, for the colour flag of the moment *)
Definition l_stroke (k : key) (p : proc) : keystroke :=
  let (c1, c2) := color (w_trace (p_world p)) in mkStroke k c1 c2.
Definition l_press (k : key) (p : proc) : pres := press E fuel tty (l_stroke k p) p.
Definition is_command (k : key) (p : proc) : bool :=
  match keypressed tty (ks_color (l_stroke k p)) k (p_term p) with Some (_, SyCommand _, _) => true | _ => false end.

(** The main thread goes on inside the keyboard, or, when it is out of it, with [next]. *)
Definition in_kbd (s : local) (next : locres) : locres :=
  match k_m (lc_kbd s) with
  | MUser => next
  | _ => match k_step sgn MGo (lc_kbd s) with Some k => LcOk (set_kbd k s) | None => LcNone end
  end.
(** The main thread enters a function of the keyboard. *)
Definition call_kbd (c : kcall) (p : lpc) (s : local) : locres :=
  match k_step sgn (MCall c) (lc_kbd s) with Some k => LcOk (set_main p (set_kbd k s)) | None => LcNone end.

Definition l_main (s : local) : locres :=
  match lc_main s with
  | LCtor =>                                                     (* clilocalsession.h:63-70 *)
      in_kbd s
        match open_local E tty (fst (color (w_trace (p_world (lc_proc s))))) (p_world (lc_proc s)) with
        | POk p => LcOk (set_main LTask (set_proc p s))
        | PExc x p => call_kbd Destroy LDtor (add_thrown x (set_proc p s))
        | PUB => LcUB
        | PFuel => LcFuel
        end
  | LTask =>                                                     (* inputdevice.h:61 *)
      match lc_stopped s, lc_queue s with
      | false, k :: q =>
          let s1 := set_queue q s in
          if is_command k (lc_proc s) then call_kbd Deactivate (LDeact k) s1
          else match l_press k (lc_proc s) with
               | POk p => LcOk (add_done k (set_proc p s1))
               | PExc x p => LcOk (add_thrown x (add_done k (set_proc p s1)))
               | PUB => LcUB
               | PFuel => LcFuel
               end
      | _, _ => LcNone
      end
  | LDeact k =>
      in_kbd s
        match l_press k (lc_proc s) with
        | POk p => call_kbd Activate LAct (add_done k (set_proc p s))
        | PExc x p => LcOk (add_thrown x (set_main LTask (add_done k (set_proc p s))))
        | PUB => LcUB
        | PFuel => LcFuel
        end
  | LAct => in_kbd s (LcOk (set_main LTask s))
  | LDtor =>
      match k_m (lc_kbd s) with
      | MGone => LcOk (set_main LOver s)
      | _ => in_kbd s LcNone
      end
  | LOver =>                                                     (* the task's [this] is dangling *)
      match lc_stopped s, lc_queue s with
      | false, _ :: _ => LcGone
      | _, _ => LcNone
      end
  end.

(** What can happen: a step of the main thread; one of the keyboard's, its thread's and
    its environment's; somebody stops the scheduler; the main thread, having returned
    from the scheduler, destroys the session. *)
Inductive lact := LMain | LKbd (a : kact) | LStop | LDestroy.
Definition l_step (a : lact) (s : local) : locres :=
  match a with
  | LMain => l_main s
  | LKbd a =>
      match a with
      | MGo | MCall _ => LcNone
      | _ => match k_step sgn a (lc_kbd s) with
             | Some k => LcOk (set_queue (lc_queue s ++ posted (lc_kbd s) k) (set_kbd k s))
             | None => LcNone
             end
      end
  | LStop => LcOk (set_stopped s)
  | LDestroy => match lc_main s with LTask => call_kbd Destroy LDtor s | _ => LcNone end
  end.
Fixpoint l_run (l : list lact) (s : local) : locres :=
  match l with
  | [] => LcOk s
  | a :: l' => match l_step a s with LcOk s' => l_run l' s' | r => r end
  end.
End Local.
