(** * Model of the example asyncsession.cpp
    Source: /repo/examples/asyncsession.cpp.  Its menus are those of simplelocalsession.cpp
    (asyncsession.cpp 67-106, simplelocalsession.cpp 41-80). *)

From Verif Require Import Base FromStringModel HistoryModel StorageModel TerminalModel MenuModel SessionModel ExampleModel AsyncModel.
Open Scope nat_scope.
Open Scope list_scope.

(** asyncsession.cpp 111, 115-121: the exit actions, of the [Cli] and of the session; the latter stops the scheduler. *)
Definition ap_hook (sid : nat) (k : hook) (args : list str) (tr : list event) : uresult :=
  match k with
  | KSesExit => mkURes [OOut (lit "Closing App..." ++ nl)] UReturn
  | _ => mkURes [OOut (lit "Goodbye and thanks for all the fish." ++ nl)] UReturn
  end.
Definition ap_env (P : platform) : env :=
  mkEnv P (fun _ _ => None) (fun _ _ => None) ex_handler ap_hook (fun k => match k with KCliExit | KSesExit => true | _ => false end).
Definition ap_stopped (tr : list event) : bool := existsb (fun e => match e with EvHook _ KSesExit _ => true | _ => false end) tr.

(** The program is inside [scheduler.Run()], or [main] has returned; undefined behaviour; recursion too deep. *)
Inductive aprog := PRuns (s : asess) | PReturned (code : Z) (s : asess) | PUndef | PDeep.
(** 122-124: [Run] returns when the scheduler is stopped (genericasioscheduler.h:80-83); [main] then destroys the
    session, and the scheduler with its context, whose handlers are dropped without being called.
    While the scheduler is not stopped its work guard keeps [Run] waiting (genericasioscheduler.h:50-55).
    126-134: exceptions; the message goes to [cerr]. *)
Definition ap_after (r : ares) : aprog :=
  match r with
  | AOk s => if ap_stopped (w_trace (as_world s)) then PReturned 0 s else PRuns s
  | AExc _ s => PReturned (-1) s
  | AGone | AUB => PUndef
  | AFuel => PDeep
  end.
(** Bytes arrive, the input ends, the thread in [Run] takes a handler that is ready. *)
Inductive apinput := NBytes (chunk : str) | NEnd | NRun.
Definition ap_input (i : apinput) : ainput := match i with NBytes c => IBytes c | NEnd => IEnd | NRun => IHandle end.

Section App.
Context (P : platform) (fuel : nat) (tty : bool).
Definition ap_step (i : apinput) (p : aprog) : aprog :=
  match p with
  | PRuns s => ap_after (as_step (ap_env P) fuel tty ex_color (ap_input i) s)
  | _ => p
  end.
Fixpoint ap_run (is : list apinput) (p : aprog) : aprog :=
  match is with [] => p | i :: is' => ap_run is' (ap_step i p) end.
(** 109-122 *)
Definition ap_main (is : list apinput) : aprog :=
  ap_run is (ap_after (as_start tty ex_color 0 ex_root 21 (StVolatile 1000 []) [])).
End App.
