(** * Specification of colours: texts with and without colour codes *)

From Verif Require Import Base FromStringModel HistoryModel TerminalModel TerminalSpec MenuModel SessionModel
  ResolveSpec SessionSpec CompletionModel ProcessorModel ProcessorSpec.
Open Scope nat_scope.
Open Scope list_scope.

(** A colour code: ESC [ parameters m *)
Definition colour_code (s : str) : Prop :=
  exists ps, s = ["027"; "["]%char ++ ps ++ ["m"%char] /\ Forall (fun c => is_param c = true) ps.

(** The same text, of characters in [C], up to colour codes. *)
Inductive alike (C : ascii -> Prop) : str -> str -> Prop :=
| al_nil : alike C [] []
| al_char : forall c a b, C c -> alike C a b -> alike C (c :: a) (c :: b)
| al_left : forall k a b, colour_code k -> alike C a b -> alike C (k ++ a) b
| al_right : forall k a b, colour_code k -> alike C a b -> alike C a (k ++ b).

Definition alike_event (C : ascii -> Prop) (e e' : event) : Prop :=
  e = e' \/ exists sid a b, e = EvOut sid a /\ e' = EvOut sid b /\ alike C a b.

(** The same state, the same events up to the codes in what was printed. *)
Definition alike_world (C : ascii -> Prop) (w w' : world) : Prop :=
  w_root w = w_root w' /\ w_next w = w_next w' /\ w_store w = w_store w' /\ w_sid w = w_sid w' /\
  w_cur w = w_cur w' /\ w_hist w = w_hist w' /\ w_exit w = w_exit w' /\
  Forall2 (alike_event C) (w_trace w) (w_trace w').
Definition alike_proc (C : ascii -> Prop) (p p' : proc) : Prop :=
  alike_world C (p_world p) (p_world p') /\ tm_line (p_term p) = tm_line (p_term p') /\
  tm_pos (p_term p) = tm_pos (p_term p').
Definition alike_outcome (C : ascii -> Prop) (r r' : pres) : Prop :=
  match r, r' with
  | POk p, POk p' => alike_proc C p p'
  | PExc x p, PExc x' p' => x = x' /\ alike_proc C p p'
  | PUB, PUB | PFuel, PFuel => True
  | _, _ => False
  end.

(** User code that does not read colour codes back from the output. *)
Definition blind (C : ascii -> Prop) (E : env) : Prop :=
  (forall sid h args tr tr', Forall2 (alike_event C) tr tr' -> e_handler E sid h args tr = e_handler E sid h args tr') /\
  (forall sid k args tr tr', Forall2 (alike_event C) tr tr' -> e_hook E sid k args tr = e_hook E sid k args tr').

(** A local session and the keys pressed in it: [c] is the colour flag when it is
    opened, each key has its own. *)
Definition run_session (E : env) (fuel : nat) (tty c : bool) (ks : list keystroke) (w : world) : pres :=
  p_bind (open_local E tty c w) (presses E fuel tty ks).

Definition anything (c : ascii) : Prop := True.
Definition not_escape (c : ascii) : Prop := c <> "027"%char.

(** Text after which no escape sequence is open. *)
Definition whole (s : str) : Prop := forall sc, sc_esc sc = Ground -> sc_esc (display s sc) = Ground.

(** Texts: [C] for what is typed or shown with codes (names, prompts, lines), [N] for
    the rest. *)
Section Texts.
Context (C : ascii -> Prop) (N : str -> Prop).
Definition texts_in (c : cmd) : Prop :=
  Forall C (cmd_name c) /\
  match c with
  | CFn _ _ _ d ps pd _ => N d /\ Forall N pd /\ Forall (fun p => match p with PCustom _ t => N t | _ => True end) ps
  | CFree _ _ _ d pd _ => N d /\ Forall N pd
  | CMenu _ _ _ d p _ => N d /\ Forall C p
  end.
Definition op_in (o : op) : Prop :=
  match o with OOut s | OBroadcast s => N s | OInsert _ c => every texts_in c | _ => True end.
Definition exn_in (x : exn) : Prop := match x with XBadCast s | XStd s => N s | XOther => True end.
Definition result_in (r : uresult) : Prop :=
  Forall op_in (ur_ops r) /\ match ur_end r with UThrow x => exn_in x | UReturn => True end.
Definition code_in (E : env) : Prop :=
  (forall sid h args tr, result_in (e_handler E sid h args tr)) /\
  (forall sid k args tr, result_in (e_hook E sid k args tr)).
Definition world_in (w : world) : Prop :=
  every texts_in (w_root w) /\ Forall (Forall C) (h_buf (w_hist w)).
Definition key_in (k : key) : Prop := match k with KAscii c => C c | _ => True end.
End Texts.

(** Nothing but text, or the sequence clearing the screen. *)
Definition plain_event (e : event) : Prop :=
  match e with
  | EvOut _ s | EvBroadcast s => Forall not_escape s \/ s = clear_screen
  | _ => True
  end.
