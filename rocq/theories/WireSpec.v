(** * Specification: what telnet clients receive *)

From Verif Require Import Base FromStringModel HistoryModel StorageModel TerminalModel MenuModel SessionModel ProcessorModel TelnetModel ServerModel
  ServerSpec IsolationSpec TelnetSpec.
Open Scope nat_scope.
Open Scope list_scope.

(** The stream to a client consists of texts and replies to telnet commands; the lines
    of texts end with CR LF. *)
Inductive piece := Text (s : str) | Reply (b : str).
Definition crlf (s : str) : str := flat_map (fun c => if Ascii.eqb c "010" then ["013"; "010"]%char else [c]) s.
Definition piece_bytes (p : piece) : str := match p with Text s => crlf s | Reply b => b end.
Definition texts (ps : list piece) : str := flat_map (fun p => match p with Text s => s | Reply _ => [] end) ps.
Definition replies_in (ps : list piece) : list str := flat_map (fun p => match p with Text _ => [] | Reply b => [b] end) ps.

(** What a session's client should see of what happens: what is printed in the session,
    and what is broadcast. *)
Definition audible (sid : nat) (tr : list event) : str :=
  flat_map (fun e => match e with EvOut i s => if Nat.eqb i sid then s else [] | EvBroadcast s => s | _ => [] end) tr.
(** The events from the first one of the session on. *)
Fixpoint since (sid : nat) (tr : list event) : list event :=
  match tr with
  | [] => []
  | e :: tr' => match own sid [e] with [] => since sid tr' | _ => tr end
  end.

(** The events of an operation of user code in a session. *)
Definition does (sid : nat) (o : op) (e : event) : Prop :=
  match o, e with
  | OOut s, EvOut i t => i = sid /\ t = s
  | OBroadcast s, EvBroadcast t => t = s
  | OInsert pid _, EvInsert p _ => p = pid
  | _, _ => False
  end.
Definition shows (o : op) : bool := match o with OOut _ | OBroadcast _ | OInsert _ _ => true | _ => false end.
(** [tr] ends when the socket of the session is closed: right after the server's exit
    action, whose events are the last ones. *)
Definition closes (E : env) (net : nat -> list event -> bool) (sid : nat) (tr : list event) : Prop :=
  exists a args es, let call := EvHook sid KSesExit args in
  tr = a ++ call :: es /\ closed E net sid a = false /\ net sid (a ++ [call]) = true /\
  exists os, e_hook E sid KSesExit args (a ++ [call]) = mkURes os UReturn /\ Forall2 (does sid) (filter shows os) es.

(** The greeting as telnet commands (RFC 854, 857, 1184), the commands of a stream, and
    the command that replies to a request. *)
Definition hello_items : list item := [INeg Do "034"; ISub ["034"; "001"; "000"]; INeg Will "001"]%char.
Definition control (i : item) : bool := match i with IData _ => false | _ => true end.
Definition reply_item (q : verb * ascii) : item := INeg (reply_verb q) (snd q).
