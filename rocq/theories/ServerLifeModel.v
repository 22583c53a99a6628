(** * Model of the end of a telnet server
    Source: /repo/include/cli/detail/server.h:119-150, genericasioremotecli.h:550-586.
    The destructor of the server destroys its acceptor (server.h:149): a pending
    [async_accept] is cancelled, its handler becomes ready with an error.  The handler
    holds [this] (server.h:143).  Sessions hold references to the scheduler and the [Cli]
    and a copy of the exit action, not the server (genericasioremotecli.h:454-461). *)

From Verif Require Import Base FromStringModel HistoryModel StorageModel TerminalModel MenuModel SessionModel ProcessorModel TelnetModel ServerModel.
Open Scope nat_scope.
Open Scope list_scope.

Inductive linput := LIn (i : input) | LDestroy.
(** As in ServerModel.v; [LDead]: a handler used the destroyed server. *)
Inductive lres := LOk (alive : bool) (s : server) | LDead | LBad.

Section Life.
Context (E : env) (net : nat -> list event -> bool) (size fuel : nat) (tty : bool) (color : list event -> bool * bool).
Definition l_destroy (sv : server) : server :=
  mkServer (sv_root sv) (sv_next sv) (sv_store sv) (sv_trace sv) (sv_conns sv) (sv_sid sv)
    (sv_queue sv ++ if sv_accepting sv then [TkAccept false] else []) false.
Definition of_vres (alive : bool) (r : vres) : lres := match r with VOk sv | VExc _ sv => LOk alive sv | _ => LBad end.
(** server.h:141-148 [Accept] of the destroyed acceptor. *)
Definition l_step (i : linput) (alive : bool) (sv : server) : lres :=
  match i, alive, sv_queue sv with
  | LDestroy, true, _ => LOk false (l_destroy sv)
  | LDestroy, false, _ => LOk false sv
  | LIn IRun, false, TkAccept _ :: _ => LDead
  | LIn i, _, _ => of_vres alive (sv_step E net size fuel tty color i sv)
  end.
Fixpoint l_run (is : list linput) (alive : bool) (sv : server) : lres :=
  match is with
  | [] => LOk alive sv
  | i :: is' => match l_step i alive sv with LOk alive' sv' => l_run is' alive' sv' | r => r end
  end.
End Life.
