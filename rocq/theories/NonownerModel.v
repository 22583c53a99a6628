(** * Model of the examples boostasio_nonowner_iocontext.cpp and standaloneasio_nonowner_iocontext.cpp
    Source: /repo/examples/boostasio_nonowner_iocontext.cpp; the other file differs in the names of the
    asio library only.  A line stands for the keys that make it: their handlers are taken together, and what the terminal
    echoes is left out (ProcessorModel.v).  Numbers of commands and functions are arbitrary. *)

From Verif Require Import Base FromStringModel HistoryModel StorageModel TerminalModel MenuModel SessionModel.
Open Scope nat_scope.
Open Scope list_scope.

(** 53-77 the menu *)
Definition no_root : cmd :=
  make_menu 10 (lit "cli") (lit "(menu)") [] [
    CFn 11 (lit "hello") true (lit "Print hello world") [] [] (HUser 0);
    CFn 12 (lit "color") true (lit "Enable colors in the cli") [] [] (HUser 1);
    CFn 13 (lit "nocolor") true (lit "Disable colors in the cli") [] [] (HUser 2) ].
(** 56, 60-66, 70-76: the functions *)
Definition no_handler (sid h : nat) (args : list value) (tr : list event) : uresult :=
  match h with
  | 0 => mkURes [OOut (lit "Hello, world" ++ nl)] UReturn
  | 1 => mkURes [OOut (lit "Colors ON" ++ nl); ODisable 12; OEnable 13] UReturn
  | 2 => mkURes [OOut (lit "Colors OFF" ++ nl); OEnable 12; ODisable 13] UReturn
  | _ => mkURes [] UReturn
  end.
(** 63, 73 [SetColor] and [SetNoColor] *)
Definition no_color (tr : list event) : bool :=
  fold_left (fun b e => match e with EvCall _ 1 _ => true | EvCall _ 2 _ => false | _ => b end) tr false.
(** 81 the exit action of the [Cli], 83-92 its handler of exceptions, 95-101 the exit action of the
    session *)
Definition no_hook (sid : nat) (k : hook) (args : list str) (tr : list event) : uresult :=
  let say l := mkURes (map OOut l) UReturn in
  match k, args with
  | KCliExit, _ => say [lit "Goodbye and thanks for all the fish." ++ nl]
  | KExcept, [cmd; what] => say [lit "Exception caught in cli handler: "; what; lit " handling command: "; cmd; lit "." ++ nl]
  | KSesExit, _ => say [lit "Closing App..." ++ nl]
  | _, _ => mkURes [] UReturn
  end.
Definition no_env (P : platform) : env :=
  mkEnv P (fun _ _ => None) (fun _ _ => None) no_handler no_hook (fun k => match k with KCliExit | KSesExit | KExcept => true | _ => false end).
(** 79, 94: the session has a history of 200 commands, the [Cli] its default storage (cli.h:139). *)
Definition no_open : world := open_session 0 200 no_root 14 (StVolatile 1000 []) [].
Definition no_text (evs : list event) : str := flat_map (fun e => match e with EvOut _ s => s | _ => [] end) evs.

(** ** The program
    The [io_context] of [main] (116) has a queue of handlers: of lines, posted by the thread that reads the
    keyboard, and that of the timer (117-118). *)
Inductive work := QLine (line : str) | QTimer.
(** [q_timer]: the timer is running; [q_out]: what was written to [std::cout]; [q_codes]: its [iword] (TerminalModel.v). *)
Record nprog := mkN { q_world : world; q_codes : bool; q_queue : list work; q_timer : bool; q_out : str }.
(** Inside [iocontext.run()] (129), [main] has returned 0 (131), undefined behaviour, an exception that leaves
    [run], recursion too deep. *)
Inductive nres := NRuns (p : nprog) | NReturned (o : str) | NUndef | NThrown | NDeep.
(** A line is typed, the timer expires, the thread in [run] takes the first handler. *)
Inductive ninput := ITyped (line : str) | IExpires | IRun.

Section Nonowner.
Context (P : platform) (tty : bool) (fuel : nat).
(** The prompt after a command *)
Definition no_prompt (w : world) (codes : bool) (queue : list work) (timer : bool) (o : str) : nres :=
  match prompt tty (no_color (w_trace w)) codes w with
  | Some (p, codes') => NRuns (mkN w codes' queue timer (o ++ p))
  | None => NUndef
  end.
(** The exit action calls [Stop] of the scheduler (99): it has no work guard of its own, and stops the [io_context]
    (genericasioscheduler.h:56, 71-76).  [run] returns without taking another handler, and [main]
    destroys everything; the timer's handler is dropped (116-132). *)
Definition no_take (x : work) (p : nprog) : nres :=
  match x with
  | QTimer => NRuns (mkN (q_world p) (q_codes p) (q_queue p) (q_timer p) (q_out p ++ lit "Timer expired!" ++ nl))
  | QLine line =>
      match feed (no_env P) fuel line (q_world p) with
      | FOk w =>
          let o := q_out p ++ no_text (skipn (length (w_trace (q_world p))) (w_trace w)) in
          if w_exit w then NReturned o else no_prompt w (q_codes p) (q_queue p) (q_timer p) o
      | FExc _ _ => NThrown
      | FUB => NUndef
      | FFuel => NDeep
      end
  end.
Definition no_step (i : ninput) (r : nres) : nres :=
  match r with
  | NRuns p =>
      match i with
      | ITyped line => NRuns (mkN (q_world p) (q_codes p) (q_queue p ++ [QLine line]) (q_timer p) (q_out p))
      | IExpires =>
          if q_timer p then NRuns (mkN (q_world p) (q_codes p) (q_queue p ++ [QTimer]) false (q_out p)) else r
      | IRun =>
          (** the work guard (124-128) keeps [run] waiting when there is no handler *)
          match q_queue p with
          | [] => r
          | x :: l => no_take x (mkN (q_world p) (q_codes p) l (q_timer p) (q_out p))
          end
      end
  | _ => r
  end.
Fixpoint no_run (is : list ninput) (r : nres) : nres :=
  match is with [] => r | i :: is' => no_run is' (no_step i r) end.
(** 111-142; the first prompt is printed when the session is made (94) *)
Definition no_main (is : list ninput) : nres := no_run is (no_prompt no_open false [] true []).
End Nonowner.
