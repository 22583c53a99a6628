(** * Model of what telnet clients are sent
    Source: /repo/include/cli/detail/server.h:55-59, 79-110, cli.h:76-109,
    detail/genericasioremotecli.h:454-461. *)

From Verif Require Import Base FromStringModel HistoryModel StorageModel TerminalModel MenuModel SessionModel ProcessorModel TelnetModel ServerModel.
Open Scope nat_scope.
Open Scope list_scope.

(** The socket of a session: the bytes written while it was open, and, if the session's
    exit action is closing it, how many more events happen before it is closed
    ([Some 0]: closed).  Bytes written to an open socket are counted as sent: they may
    still be lost when the connection breaks. *)
Record sock := mkSock { sk_sent : str; sk_left : option nat }.
Definition sock_init : sock := mkSock [] None.

(** server.h:79-87 [Send]: writing to a closed socket fails, and the error is ignored
    ([OnError] and [OnDisconnect] of telnet sessions do nothing). *)
Definition send (b : str) (k : sock) : sock :=
  match sk_left k with Some 0 => k | l => mkSock (sk_sent k ++ b) l end.

(** The operations of user code that are events (SessionModel.v, [apply_op]). *)
Definition noisy (o : op) : bool := match o with OOut _ | OBroadcast _ | OInsert _ _ => true | _ => false end.

Section Wire.
Context (E : env) (net : nat -> list event -> bool) (size fuel : nat) (tty : bool) (color : list event -> bool * bool) (sid : nat).

(** genericasioremotecli.h:454-461: after the server's exit action returned, the session
    disconnects (server.h:55-59). *)
Definition after_event (seen : list event) (e : event) (l : option nat) : option nat :=
  match l with
  | Some n => Some (pred n)
  | None =>
      match e with
      | EvHook i KSesExit args =>
          let r := e_hook E sid KSesExit args (seen ++ [e]) in
          if Nat.eqb i sid && e_has E KSesExit && returns r && net sid (seen ++ [e]) then Some (length (filter noisy (ur_ops r))) else None
      | _ => None
      end
  end.
(** What is written on the session's stream, and, as it is registered in [Cli::cout]
    (cli.h:84-95), what is broadcast; server.h:101-110: encoded. *)
Definition text_of (e : event) : str :=
  match e with EvOut i s => if Nat.eqb i sid then s else [] | EvBroadcast s => s | _ => [] end.
Fixpoint deliver (seen es : list event) (k : sock) : sock :=
  match es with
  | [] => k
  | e :: es' =>
      let k1 := send (encode (text_of e)) k in
      deliver (seen ++ [e]) es' (mkSock (sk_sent k1) (after_event seen e (sk_left k1)))
  end.

(** The session exists, or is the one being accepted. *)
Definition listens (i : input) (sv : server) : bool :=
  match sv_conns sv sid, i, sv_queue sv with
  | Some _, _, _ => true
  | None, IRun, TkAccept true :: _ => Nat.eqb (sv_sid sv) sid
  | _, _, _ => false
  end.
(** The handler of a read replies to telnet commands (TelnetModel.v) and prints nothing
    else. *)
Definition telnet_replies (i : input) (sv : server) : str :=
  match i, sv_queue sv, sv_conns sv sid with
  | IRun, TkRead j r :: _, Some c =>
      if Nat.eqb j sid then
        match closed E net sid (sv_trace sv), r with false, RData chunk => concat (snd (snd (receive chunk (c_dev c)))) | _, _ => [] end
      else []
  | _, _, _ => []
  end.
Definition wire_step (i : input) (sv sv' : server) (k : sock) : sock :=
  send (telnet_replies i sv)
    (if listens i sv then deliver (sv_trace sv) (skipn (length (sv_trace sv)) (sv_trace sv')) k else k).
Fixpoint wire_run (is : list input) (sv : server) (k : sock) : sock :=
  match is with
  | [] => k
  | i :: is' => match sv_step E net size fuel tty color i sv with VOk sv' | VExc _ sv' => wire_run is' sv' (wire_step i sv sv' k) | _ => k end
  end.
End Wire.
