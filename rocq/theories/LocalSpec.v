(** * Specification of local sessions *)

From Verif Require Import Base FromStringModel HistoryModel StorageModel TerminalModel TelnetSpec MenuModel SessionModel ProcessorModel KeyboardModel KeyboardSpec LocalModel.
Open Scope nat_scope.
Open Scope list_scope.

Section Spec.
Context (E : env) (sgn : bool) (fuel : nat) (tty : bool) (color : list event -> bool * bool).

(** The states reached by a local session on a terminal of mode [m], whose base class was
    initialised with the world [w]. *)
Definition lreaches (m junk : tmode) (w : world) (l : list lact) (s : local) : Prop :=
  l_run E sgn fuel tty color l (local_init m junk w) = LcOk s.

(** The session without threads: it is opened, and keys are pressed one after the other;
    an exception does not end it. *)
Definition opened_alone (w : world) : option proc :=
  match open_local E tty (fst (color (w_trace w))) w with POk p => Some p | _ => None end.
Fixpoint pressed_alone (ks : list key) (p : proc) : option proc :=
  match ks with
  | [] => Some p
  | k :: ks' =>
      match press E fuel tty (let (c1, c2) := color (w_trace (p_world p)) in mkStroke k c1 c2) p with
      | POk p' | PExc _ p' => pressed_alone ks' p'
      | _ => None
      end
  end.
End Spec.

(** What was typed. *)
Definition ltyped (l : list lact) : str := flat_map (fun a => match a with LKbd (Type_ t) => t | _ => [] end) l.
(** Nobody else reads the input, it does not end, no signal interrupts the keyboard
    thread. *)
Definition undisturbed (l : list lact) : Prop := ~ In (LKbd Take) l /\ ~ In (LKbd Hangup) l /\ ~ In (LKbd WSignal) l.
(** Neither thread of the library can make a step. *)
Definition settled E sgn fuel tty color (s : local) : Prop :=
  l_step E sgn fuel tty color LMain s = LcNone /\ l_step E sgn fuel tty color (LKbd WGo) s = LcNone.
(** Steps of the two threads only. *)
Definition own_step (a : lact) : Prop := match a with LMain | LKbd WGo => True | _ => False end.
(** The key the main thread has taken and not handled yet. *)
Definition taken (s : local) : list key := match lc_main s with LDeact k => [k] | _ => [] end.
(** The calls of commands so far. *)
Definition called (s : local) : list event :=
  filter (fun e => match e with EvCall _ _ _ => true | _ => false end) (w_trace (p_world (lc_proc s))).
(** No other code sets the mode of the terminal. *)
Definition mode_untouched (l : list lact) : Prop := forall x, ~ In (LKbd (SetMode x)) l.
