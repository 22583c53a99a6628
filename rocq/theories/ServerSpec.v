(** * Specification of the telnet server *)

From Verif Require Import Base FromStringModel HistoryModel StorageModel TerminalModel MenuModel SessionModel ProcessorModel TelnetModel ServerModel.
Open Scope nat_scope.
Open Scope list_scope.

(** The server's exit action is set and returns; the global one returns, if set. *)
Definition exits_return (E : env) : Prop :=
  e_has E KSesExit = true /\
  (forall sid args tr, ur_end (e_hook E sid KSesExit args tr) = UReturn) /\
  (forall sid args tr, ur_end (e_hook E sid KCliExit args tr) = UReturn).

(** A session was disconnected, and the rest of the server is as before, but for what
    the exit actions did to the menus and what was printed: the other sessions are the
    same, and the ready handlers too, but for the one of the cancelled read. *)
Definition disconnected (E : env) (net : nat -> list event -> bool) (sid : nat) (before : server) (after : server) : Prop :=
  closed E net sid (sv_trace after) = true /\
  (exists c, sv_conns after sid = Some c /\ c_exit c = true /\ c_reading c = false) /\
  (forall i, i <> sid -> sv_conns after i = sv_conns before i) /\
  sv_accepting after = sv_accepting before /\ sv_sid after = sv_sid before.

(** The tasks of a session. *)
Definition of_sid (sid : nat) (t : task) : bool :=
  match t with TkKey i _ | TkRead i _ => Nat.eqb i sid | TkAccept _ => false end.

(** Runs the first [n] handlers. *)
Definition runs (n : nat) : list input := repeat IRun n.

(** The keys of a session handled during a run, the bytes read from its client, and the
    replies to telnet commands among them. *)
Section Flow.
Context (E : env) (net : nat -> list event -> bool) (size fuel : nat) (tty : bool) (color : list event -> bool * bool).
Fixpoint handled (sid : nat) (is : list input) (sv : server) : list key :=
  match is with
  | [] => []
  | i :: is' =>
      match i, sv_queue sv with IRun, TkKey j k :: _ => if Nat.eqb j sid then [k] else [] | _, _ => [] end ++
      match sv_step E net size fuel tty color i sv with VOk sv' | VExc _ sv' => handled sid is' sv' | _ => [] end
  end.
Fixpoint delivered (sid : nat) (is : list input) (sv : server) : str :=
  match is with
  | [] => []
  | i :: is' =>
      match i with
      | IRead j (RData chunk) =>
          match sv_conns sv sid with Some c => if Nat.eqb j sid && c_reading c then chunk else [] | None => [] end
      | _ => []
      end ++
      match sv_step E net size fuel tty color i sv with VOk sv' | VExc _ sv' => delivered sid is' sv' | _ => [] end
  end.
(** The replies sent by the handler that is run, if it is that of a read. *)
Definition replies (sid : nat) (i : input) (sv : server) : list str :=
  match i, sv_queue sv, sv_conns sv sid with
  | IRun, TkRead j (RData chunk) :: _, Some c =>
      if Nat.eqb j sid && negb (closed E net sid (sv_trace sv)) then snd (snd (receive chunk (c_dev c))) else []
  | _, _, _ => []
  end.
Fixpoint replied (sid : nat) (is : list input) (sv : server) : list str :=
  match is with
  | [] => []
  | i :: is' =>
      replies sid i sv ++ match sv_step E net size fuel tty color i sv with VOk sv' | VExc _ sv' => replied sid is' sv' | _ => [] end
  end.
End Flow.
