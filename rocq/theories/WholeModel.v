(** * Model of the example program complete.cpp, key by key and byte by byte
    Source: /repo/examples/complete.cpp:240-298, with the parts of the library it uses: the local session
    (ProcessorModel.v), the telnet server (ServerModel.v) and the sockets (WireModel.v) on one asio
    context.  Simplifications: the local session's keyboard only posts its keys (KeyboardModel.v and
    LocalModel.v have the rest), and what follows [Run] (284-298) is left out. *)

From Verif Require Import Base FromStringModel HistoryModel StorageModel TerminalModel MenuModel SessionModel ProcessorModel TelnetModel ServerModel WireModel CompleteModel.
Open Scope nat_scope.
Open Scope list_scope.

(** What happens: a key is pressed at the computer, whose keyboard thread posts it
    (inputdevice.h:59-62); something of the server (ServerModel.v; [IRun]: the thread in [Run]
    takes the next handler, of whatever session). *)
Inductive winput := WKey (k : key) | WNet (i : input).

(** complete.cpp:270-276: the exit action of the local session stops the scheduler.  The handler being run is
    finished, no other one is started. *)
Definition stopped (tr : list event) : bool :=
  existsb (fun e => match e with EvHook 0 KSesExit _ => true | _ => false end) tr.

Section Whole.
(** [P], [rc], [pc]: as in CompleteModel.v; [net]: as in ServerModel.v; [tty]: [std::cout] is a terminal with
    colours. *)
Context (P : platform) (rc : str -> option (Z * str)) (pc : Z -> str) (net : nat -> list event -> bool) (fuel : nat) (tty : bool).
Notation E := (cx_env P rc pc).

(** Session 0 is the local one; the others are telnet sessions, whose streams are not terminals. *)
Definition env_of (sid : nat) : env := if Nat.eqb sid 0 then E else telnet_env E net.
Definition tty_of (sid : nat) : bool := if Nat.eqb sid 0 then tty else false.
(** The colour flag when nothing but the library runs *)
Definition flags (tr : list event) : bool * bool := (cx_color tr, cx_color tr).

(** Recursion is as deep as the line needs: completion (commandprocessor.h:125) recurses along it. *)
Definition depth (c : conn) : nat := fuel + (2 * length (get_line (c_term c)) + 2).

(** The handler of a key (inputdevice.h:61).  [c2]: the colour flag after the functions called by the line have
    run; what is printed does not change it.  An [int] that overflows is undefined behaviour. *)
Definition run_key (sid : nat) (k : key) (c : conn) (sv : server) : vres :=
  let p := proc_of sv sid c in
  let c1 := cx_color (sv_trace sv) in
  let c2 := match press (env_of sid) (depth c) (tty_of sid) (mkStroke k c1 c1) p with
            | POk p' | PExc _ p' => cx_color (w_trace (p_world p'))
            | _ => c1
            end in
  match press (env_of sid) (depth c) (tty_of sid) (mkStroke k c1 c2) p with
  | POk p' =>
      if existsb overflows (skipn (length (sv_trace sv)) (w_trace (p_world p'))) then VUB
      else VOk (after_key E net sv sid c p')
  | PExc x p' => VExc x (after_key E net sv sid c p')
  | PUB => VUB
  | PFuel => VFuel
  end.

(** 284: one thread runs all handlers. *)
Definition w_step (x : winput) (sv : server) : vres :=
  if stopped (sv_trace sv) then VOk sv else
  match x with
  | WKey k => VOk (set_conns (sv_conns sv) (sv_queue sv ++ [TkKey 0 k]) sv)
  | WNet i =>
      match i, sv_queue sv with
      | IRun, TkKey sid k :: q =>
          match sv_conns sv sid with
          | None => VGone
          | Some c => run_key sid k c (set_conns (sv_conns sv) q sv)
          end
      | _, _ => sv_step E net 100 fuel false flags i sv
      end
  end.
(** An exception leaves [Run] and ends the program (289-297). *)
Fixpoint w_run (xs : list winput) (sv : server) : vres :=
  match xs with
  | [] => VOk sv
  | x :: xs' => match w_step x sv with VOk sv' => w_run xs' sv' | r => r end
  end.

(** 244, 269, 280: the [Cli], its local session and the server are constructed. *)
Definition whole_start (f : file) : vres :=
  match open_local E tty false (open_session 0 200 cx_root 33 (StFile 1000 f) []) with
  | POk p =>
      let w := p_world p in
      VOk (mkServer (w_root w) (w_next w) (w_store w) (w_trace w)
        (upd_conn (fun _ => None) 0 (Some (mkConn dev_init (p_term p) (w_cur w) (w_hist w) (w_exit w) false))) 1 [] true)
  | PExc x p => VExc x (server_init cx_root 33 (StFile 1000 f))
  | PUB => VUB
  | PFuel => VFuel
  end.

(** The socket of telnet session [sid] *)
Definition w_wire_step (sid : nat) (x : winput) (sv sv' : server) (k : sock) : sock :=
  if stopped (sv_trace sv) then k else
  match x with WKey _ => k | WNet i => wire_step E net sid i sv sv' k end.
Fixpoint w_wire (sid : nat) (xs : list winput) (sv : server) (k : sock) : sock :=
  match xs with
  | [] => k
  | x :: xs' => match w_step x sv with VOk sv' => w_wire sid xs' sv' (w_wire_step sid x sv sv' k) | _ => k end
  end.
End Whole.
