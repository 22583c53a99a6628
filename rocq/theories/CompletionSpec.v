(** * Specification of completion *)

From Coq Require Import Sorted.
From Verif Require Import Base FromStringModel SplitSpec PrefixSpec MenuModel SessionModel ResolveSpec SessionSpec.
Open Scope nat_scope.
Open Scope list_scope.

(** ** Dictionary order of byte strings *)
Definition lex_lt (a b : str) : Prop :=
  (exists c r, b = a ++ c :: r) \/
  (exists p x y r s, a = p ++ x :: r /\ b = p ++ y :: s /\ (N_of_ascii x < N_of_ascii y)%N).
Definition increasing (l : list str) : Prop := StronglySorted lex_lt l.

(** ** Blanks *)
Definition white (c : ascii) : bool :=
  existsb (Ascii.eqb c) ["009"; "010"; "011"; "012"; "013"; " "]%char.
Fixpoint trim (s : str) : str :=
  match s with [] => [] | c :: s' => if white c then trim s' else s end.
(** The text without any blanks. *)
Definition squeeze (s : str) : str := filter (fun c => negb (white c)) s.

(** ** What is offered
    [offers ctx line c]: in the menu at the head of [ctx] (its ancestors follow), [c]
    completes [line]: it is the name of an enabled command extending the line, or
    the name of a submenu or of the parent (or two dots) with which the line starts,
    one space, and a completion of the rest inside that menu. *)
Inductive offers : list cmd -> str -> str -> Prop :=
| of_name m anc k line :
    In k (cmd_kids m) -> cmd_en k = true -> is_prefix line (cmd_name k) ->
    ~ (is_menu k /\ line = cmd_name k) ->
    offers (m :: anc) line (cmd_name k)
| of_inside m anc k line rest c :
    In k (cmd_kids m) -> is_menu k -> line = cmd_name k ++ rest ->
    offers (k :: m :: anc) (trim rest) c ->
    offers (m :: anc) line (cmd_name k ++ lit " " ++ c)
| of_parent_name m p anc line :
    cmd_en p = true -> is_prefix line (cmd_name p) -> line <> cmd_name p -> ~ is_prefix (lit "..") line ->
    offers (m :: p :: anc) line (cmd_name p)
| of_parent m p anc line rest c :
    line = cmd_name p ++ rest ->
    offers (p :: anc) (trim rest) c ->
    offers (m :: p :: anc) line (cmd_name p ++ lit " " ++ c)
| of_dots m p anc line rest c :
    ~ is_prefix (cmd_name p) line -> line = lit ".." ++ rest ->
    offers (p :: anc) (trim rest) c ->
    offers (m :: p :: anc) line (lit ".." ++ lit " " ++ c).

(** What a session offers: the global commands and those of the current menu. *)
Definition offered (w : world) (line c : str) : Prop :=
  offers [global_menu] (trim line) c \/
  exists ctx, in_menu w ctx /\ offers ctx (trim line) c.

(** ** Paths
    [leads ctx words k]: read one after the other, [words] lead from the menu at the
    head of [ctx] through menus to [k]. *)
Inductive leads : list cmd -> list str -> cmd -> Prop :=
| ld_kid m anc k : In k (cmd_kids m) -> leads (m :: anc) [cmd_name k] k
| ld_parent m p anc : leads (m :: p :: anc) [cmd_name p] p
| ld_inside m anc sub ws k :
    In sub (cmd_kids m) -> is_menu sub -> leads (sub :: m :: anc) ws k -> leads (m :: anc) (cmd_name sub :: ws) k
| ld_up m p anc word ws k :
    word = cmd_name p \/ word = lit ".." -> leads (p :: anc) ws k -> leads (m :: p :: anc) (word :: ws) k.

Fixpoint join (ws : list str) : str :=
  match ws with [] => [] | [w] => w | w :: r => w ++ lit " " ++ join r end.

(** [typed line ws part]: [line] is the words [ws] with any blanks (even none) between
    them, [part] being what was typed of the last one. *)
Inductive typed : str -> list str -> str -> Prop :=
| ty_last line w : is_prefix line w -> typed line [w] line
| ty_more line w rest ws part : line = w ++ rest -> typed (trim rest) ws part -> typed line (w :: ws) part.

(** A line that is part of the path to an enabled command (a menu's name typed in
    full asks for its contents instead), and the path. *)
Definition on_path (ctx : list cmd) (line c : str) : Prop :=
  exists words k part, leads ctx words k /\ typed line words part /\ cmd_en k = true /\
    ~ (is_menu k /\ part = cmd_name k) /\ c = join words.

(** The words [ws] followed by fitting arguments can be read as a call of [k] (or as
    entering the menu [k]). *)
Definition invocable (ctx : list cmd) (ws : list str) (k : cmd) : Prop :=
  match k with
  | CMenu i _ _ _ _ _ => exists path, reading ctx ws path (TGoto i)
  | CFn _ _ _ _ pars _ h =>
      forall args, length args = length pars -> exists path, reading ctx (ws ++ args) path (TRun h pars args)
  | CFree _ _ _ _ _ h => forall args, exists path, reading ctx (ws ++ args) path (TFree h args)
  end.

(** ** Restrictions on trees *)

(** No menu with an empty name directly contains another one. *)
Definition no_empty_pair (root : cmd) : Prop :=
  forall k p anc, chain root (k :: p :: anc) -> cmd_name k = [] -> cmd_name p = [] -> False.

(** No menu has an empty name or one starting with a dot. *)
Definition undotted (root : cmd) : Prop :=
  forall m anc, chain root (m :: anc) -> exists c r, cmd_name m = c :: r /\ c <> "."%char.

(** Every menu is enabled and every name is a plain word. *)
Definition plain_word (w : str) : Prop :=
  w <> [] /\ Forall (fun c => ~ blank c /\ ~ quote c /\ c <> backslash /\ c <> bang) w.
Definition open_tree (root : cmd) : Prop :=
  forall m anc, chain root (m :: anc) -> cmd_en m = true /\ Forall (fun k => plain_word (cmd_name k)) (m :: cmd_kids m).

(** The tree without its disabled commands; disabled menus stay. *)
Fixpoint drop_disabled (c : cmd) : cmd :=
  match c with
  | CMenu i n e d p kids =>
      CMenu i n e d p
        (flat_map (fun k => match k with
                            | CMenu _ _ _ _ _ _ => [drop_disabled k]
                            | _ => if cmd_en k then [k] else []
                            end) kids)
  | _ => c
  end.
