(** * Specification of interactive sessions *)

From Verif Require Import Base FromStringModel HistoryModel PrefixSpec TerminalModel TerminalSpec MenuModel SessionModel
  ResolveSpec SessionSpec CompletionModel CompletionSpec ProcessorModel.
Open Scope nat_scope.
Open Scope list_scope.

(** ** Input activation: whether the device reads keys after the events [evs] *)
Definition input_on (sid : nat) (evs : list event) : bool :=
  fold_left (fun on e => match e with EvInput i b => if Nat.eqb i sid then b else on | _ => on end) evs true.

Definition no_input (e : event) : Prop := match e with EvInput _ _ => False | _ => True end.
Definition crlf : str := ["013"; "010"]%char.

(** ** What a terminal receives: what is written on the session's stream, also
    through [Cli::cout()]. *)
Definition received (sid : nat) (e : event) : str :=
  match e with
  | EvOut i s => if Nat.eqb i sid then s else []
  | EvBroadcast s => s
  | _ => []
  end.
Definition screen_of (sc : screen) (w : world) : screen :=
  display (flat_map (received (w_sid w)) (w_trace w)) sc.

(** The cursor is behind the last character of the last row. *)
Definition at_end (sc : screen) : Prop :=
  sc_col sc = length (sc_row sc) /\ sc_below sc = [] /\ sc_esc sc = Ground.
(** Text that leaves it there, e.g. printable characters, tabs and line ends. *)
Definition neat (s : str) : Prop := forall sc, at_end sc -> at_end (display s sc).

(** ** Texts of commands *)
(** [Q] holds of a command and of everything inside. *)
Fixpoint every (Q : cmd -> Prop) (c : cmd) : Prop :=
  Q c /\ match c with CMenu _ _ _ _ _ kids => fold_right (fun k P => every Q k /\ P) True kids | _ => True end.

Definition neat_type (p : ptype) : Prop := match p with PCustom _ d => neat d | _ => True end.
Definition neat_texts (c : cmd) : Prop :=
  Forall printable (cmd_name c) /\
  match c with
  | CFn _ _ _ d ps pd _ => neat d /\ Forall neat pd /\ Forall neat_type ps
  | CFree _ _ _ d pd _ => neat d /\ Forall neat pd
  | CMenu _ _ _ d p _ => neat d /\ Forall printable p
  end.
(** User code that prints only neat text, also through exceptions. *)
Definition neat_op (o : op) : Prop :=
  match o with OOut s | OBroadcast s => neat s | OInsert _ c => every neat_texts c | _ => True end.
Definition neat_exn (x : exn) : Prop := match x with XBadCast s | XStd s => neat s | XOther => True end.
Definition neat_result (r : uresult) : Prop :=
  Forall neat_op (ur_ops r) /\ match ur_end r with UThrow x => neat_exn x | UReturn => True end.
Definition neat_code (E : env) : Prop :=
  (forall sid h args tr, neat_result (e_handler E sid h args tr)) /\
  (forall sid k args tr, neat_result (e_hook E sid k args tr)).
Definition neat_world (w : world) : Prop :=
  every neat_texts (w_root w) /\ Forall (Forall printable) (h_buf (w_hist w)).

(** Keys that type printable text, not end of file. *)
Definition printable_key (k : key) : Prop :=
  match k with KAscii c => c = "009"%char \/ printable c | KEof => False | _ => True end.

(** What the prompt adds to the row. *)
Definition prompt_row (w : world) (r : str) : Prop :=
  (w_exit w = true /\ r = []) \/
  (w_exit w = false /\ exists m anc p, in_menu w (m :: anc) /\ menu_prompt m = Some p /\ r = p ++ lit "> ").

(** The terminal holds the editor [e]; the user sees, after some text [last], the
    prompt, the edited text and blanks, the cursor being on the editing position. *)
Definition displayed (sc : screen) (p : proc) (e : editor) (last : str) : Prop :=
  holds (p_term p) e /\ printable_ed e /\
  exists r, prompt_row (p_world p) r /\ shows (last ++ r) e (screen_of sc (p_world p)).

(** ** States that differ only in what the session printed *)
Definition only_printed (w w' : world) : Prop :=
  w_root w' = w_root w /\ w_next w' = w_next w /\ w_store w' = w_store w /\ w_sid w' = w_sid w /\
  w_cur w' = w_cur w /\ w_hist w' = w_hist w /\ w_exit w' = w_exit w /\
  exists evs, w_trace w' = w_trace w ++ evs /\ Forall (fun e => exists s, e = EvOut (w_sid w) s) evs.

(** Keys that only edit the line. *)
Definition editing (k : key) : bool :=
  match k with
  | KAscii c => negb (Ascii.eqb c "009")
  | KLeft | KRight | KBackspace | KCanc | KHome | KEnd | KIgnored => true
  | _ => false
  end.

(** ** TAB: the list of what is offered *)
Definition offers_list (w : world) (line : str) (l : list str) : Prop :=
  increasing l /\ forall c, In c l <-> offered w line c.
Definition tab_key (k : keystroke) : Prop := ks_key k = KAscii "009".

(** ** Trees where every typed text can be read in at most one way
    [branch ctx word t]: in the menu at the head of [ctx], [word] names a command
    ([t] is [None]) or leads to a menu. *)
Inductive branch : list cmd -> str -> option (list cmd) -> Prop :=
| br_leaf m anc k : In k (cmd_kids m) -> ~ is_menu k -> branch (m :: anc) (cmd_name k) None
| br_menu m anc k : In k (cmd_kids m) -> is_menu k -> branch (m :: anc) (cmd_name k) (Some (k :: m :: anc))
| br_parent m p anc : branch (m :: p :: anc) (cmd_name p) (Some (p :: anc))
| br_dots m p anc : branch (m :: p :: anc) (lit "..") (Some (p :: anc)).
(** No menu's name is the beginning of another name beside it (nor of a global
    command's). *)
Definition unambiguous (w : world) : Prop :=
  (forall ctx w1 ctx1 w2 t2, chain (w_root w) ctx -> branch ctx w1 (Some ctx1) -> branch ctx w2 t2 ->
     is_prefix w1 w2 -> w1 = w2 /\ t2 = Some ctx1) /\
  (forall ctx w1 ctx1 g, in_menu w ctx -> branch ctx w1 (Some ctx1) -> In g global_names -> ~ is_prefix w1 g).

(** ** Absence of undefined behaviour *)
(** Names the completion can handle; menus have names. *)
Definition legible_name (E : env) (c : cmd) : Prop :=
  legible E (cmd_name c) /\ (is_menu c -> cmd_name c <> []).
Definition legible_op (E : env) (o : op) : Prop :=
  match o with OInsert _ c => every (legible_name E) c | _ => True end.
Definition legible_code (E : env) : Prop :=
  (forall sid h args tr, Forall (legible_op E) (ur_ops (e_handler E sid h args tr))) /\
  (forall sid k args tr, Forall (legible_op E) (ur_ops (e_hook E sid k args tr))).
Definition legible_key (E : env) (k : key) : Prop :=
  match k with KAscii c => legible E [c] | _ => True end.

(** Running over the keys, Up is never pressed on a line that is a recall ([!n]), and
    no recall is entered before any command. *)
Fixpoint careful (E : env) (fuel : nat) (tty : bool) (ks : list keystroke) (p : proc) : Prop :=
  match ks with
  | [] => True
  | k :: ks' =>
      (recall E (tm_line (p_term p)) -> ks_key k <> KUp /\ (ks_key k = KRet -> used (p_world p))) /\
      match press E fuel tty k p with POk p' => careful E fuel tty ks' p' | _ => True end
  end.

Definition healthy_proc (E : env) (R : nat -> Prop) (size : nat) (p : proc) : Prop :=
  healthy E R size (p_world p) /\
  every (legible_name E) (w_root (p_world p)) /\
  (exists e, holds (p_term p) e) /\ legible E (tm_line (p_term p)).
Definition p_safe (P : proc -> Prop) (r : pres) : Prop :=
  match r with POk p => P p | PExc _ p => P p | PUB => False | PFuel => False end.
