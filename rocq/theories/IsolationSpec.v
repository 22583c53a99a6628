(** * Specification of sessions that do not interfere *)

From Verif Require Import Base FromStringModel HistoryModel StorageModel TerminalModel MenuModel SessionModel ProcessorModel TelnetModel ServerModel.
Open Scope nat_scope.
Open Scope list_scope.

(** What happened in a session: what was printed on its stream, the functions called in
    it, its input device.  (What is broadcast to all sessions is not its own.) *)
Definition own (sid : nat) : list event -> list event :=
  filter (fun e => match e with EvOut i _ | EvCall i _ _ | EvHook i _ _ | EvInput i _ => Nat.eqb i sid | _ => false end).

(** User code keeps no state common to several sessions: what it does in a session
    depends on what happened in that session.  So does the network. *)
Definition separate (E : env) (net : nat -> list event -> bool) : Prop :=
  (forall sid h args t t', own sid t = own sid t' -> e_handler E sid h args t = e_handler E sid h args t') /\
  (forall sid k args t t', own sid t = own sid t' -> e_hook E sid k args t = e_hook E sid k args t') /\
  (forall sid t t', own sid t = own sid t' -> net sid t = net sid t').
(** User code does not change the menus, which all sessions share. *)
Definition prints_only (o : op) : Prop := match o with OOut _ | OBroadcast _ => True | _ => False end.
Definition menus_fixed (E : env) : Prop :=
  (forall sid h args t, Forall prints_only (ur_ops (e_handler E sid h args t))) /\
  (forall sid k args t, Forall prints_only (ur_ops (e_hook E sid k args t))).

(** A session that is alone in the world: connecting, and then keys; exceptions do not
    end it. *)
Definition ended (r : pres) : option proc := match r with POk p | PExc _ p => Some p | _ => None end.
Definition alone_open (E : env) (tty color : bool) (sid size : nat) (root : cmd) (nxt : nat) (st : storage) : pres :=
  p_bind (of_hres (session_enter E (out (flat_map written greeting) (open_session sid size root nxt st []))) term_init) (p_prompt tty color).
Fixpoint typed (E : env) (fuel : nat) (tty : bool) (ks : list keystroke) (p : proc) : option proc :=
  match ks with
  | [] => Some p
  | k :: ks' => match ended (press E fuel tty k p) with Some p' => typed E fuel tty ks' p' | None => None end
  end.

(** [p] is the session [c] of a server. *)
Definition same_session (p : proc) (c : conn) : Prop :=
  p_term p = c_term c /\ w_cur (p_world p) = c_cur c /\ w_hist (p_world p) = c_hist c /\ w_exit (p_world p) = c_exit c.

(** The storage of commands when a session is opened. *)
Section Opened.
Context (E : env) (net : nat -> list event -> bool) (size fuel : nat) (tty : bool) (color : list event -> bool * bool).
Fixpoint opened_with (sid : nat) (is : list input) (sv : server) : option storage :=
  match is with
  | [] => None
  | i :: is' =>
      let later := match sv_step E net size fuel tty color i sv with VOk sv' | VExc _ sv' => opened_with sid is' sv' | _ => None end in
      match i, sv_queue sv with
      | IRun, TkAccept true :: _ => if Nat.eqb (sv_sid sv) sid then Some (sv_store sv) else later
      | _, _ => later
      end
  end.
End Opened.
