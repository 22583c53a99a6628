(** * Specification of the keys that are undefined *)

From Verif Require Import Base FromStringModel HistoryModel HistorySpec TerminalModel TerminalSpec PrefixSpec MenuModel SessionModel ResolveSpec SessionSpec
  ConvTotalSpec CompletionSpec ProcessorModel ServerModel.
Open Scope nat_scope.
Open Scope list_scope.

(** The first character that is not white is a negative number. *)
Definition odd_start (P : platform) (s : str) : Prop :=
  char_signed P = true /\
  exists pre c rest, s = pre ++ c :: rest /\ Forall (fun x => CompletionSpec.white x = true) pre /\ negative_byte c.

(** Reading [line] from the left in the menu at the head of [ctx] (its ancestors follow), going into the menus it names, one comes
    to such a character.  The names need not be followed by a blank, and the menus need not be enabled. *)
Inductive meets (P : platform) : list cmd -> str -> Prop :=
| meets_here ctx line : odd_start P line -> meets P ctx line
| meets_inside m anc k line rest : In k (cmd_kids m) -> is_menu k -> trim line = cmd_name k ++ rest ->
    meets P (k :: m :: anc) rest -> meets P (m :: anc) line
| meets_parent m p anc line rest : trim line = cmd_name p ++ rest -> meets P (p :: anc) rest -> meets P (m :: p :: anc) line
| meets_dots m p anc line rest : ~ is_prefix (cmd_name p) (trim line) -> trim line = lit ".." ++ rest ->
    meets P (p :: anc) rest -> meets P (m :: p :: anc) line.

(** The session when a line is given to it: Return was echoed, and the input is off. *)
Definition handed (w : world) : world := log (EvInput (w_sid w) false) (out ["013"; "010"]%char w).

(** A key is undefined if it is
    - Return, and the line is undefined, or leaves a session that goes on in a menu that is not there any more;
    - Tab, when the current menu is not there, or the line leads to a negative character;
    - Ctrl-L, when the current menu is not there and the session goes on. *)
Definition undefined_key (E : env) (fuel : nat) (k : key) (line : str) (w : world) : Prop :=
  (k = KRet /\
     (feed E fuel line (handed w) = FUB \/
      exists w', feed E fuel line (handed w) = FOk w' /\ w_exit w' = false /\ ~ live w')) \/
  (k = KAscii "009" /\
     (~ live w \/ exists ctx, in_menu w ctx /\ meets (e_plat E) ctx line)) \/
  (k = KClear /\ w_exit w = false /\ ~ live w).

(** A tree a program can start with. *)
Definition tree_ok (root : cmd) (nxt : nat) : Prop := is_menu root /\ unique_ids root /\ Forall (fun i => i < nxt) (ids root).
(** The handler a telnet server runs next is that of an undefined key. *)
Definition undefined_next (E : env) (net : nat -> list event -> bool) (fuel : nat) (sv : server) : Prop :=
  exists sid k q c e, sv_queue sv = TkKey sid k :: q /\ sv_conns sv sid = Some c /\ holds (c_term c) e /\
    undefined_key (telnet_env E net) fuel k (ed_text e) (p_world (proc_of sv sid c)).
