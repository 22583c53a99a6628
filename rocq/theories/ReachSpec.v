(** * Specification of what can be called

    Which commands a line can name from the menu one is in, and which values can be
    passed to their parameters. *)

From Verif Require Import Base FromStringModel FromStringSpec FromStringProofs MenuModel SessionModel SessionSpec ProcessorSpec.
Open Scope nat_scope.
Open Scope list_scope.

(** The names of the commands every session has. *)
Definition reserved : list str := [lit "help"; lit "exit"; lit "history"; lit "!"].

(** In every menu the names are different, not empty, not [..] and not reserved. *)
Definition names_ok (c : cmd) : Prop :=
  NoDup (map cmd_name (cmd_kids c)) /\
  Forall (fun k => cmd_name k <> [] /\ cmd_name k <> lit ".." /\ ~ In (cmd_name k) reserved) (cmd_kids c).
Definition well_named (c : cmd) : Prop := every names_ok c.

(** [named_by m ws c]: the names [ws] lead from the menu [m] down to the command [c], all enabled. *)
Inductive named_by : cmd -> list str -> cmd -> Prop :=
| named_kid m k : cmd_en m = true -> In k (cmd_kids m) -> cmd_en k = true -> named_by m [cmd_name k] k
| named_sub m s ws c : cmd_en m = true -> In s (cmd_kids m) -> is_menu s -> named_by s ws c -> named_by m (cmd_name s :: ws) c.

(** The values that can be passed for a parameter: all the values of the type, but the empty string; for floating point and
    user-defined types, those the extraction functions read from some text. *)
Definition passable (E : env) (t : ptype) (v : value) : Prop :=
  match t, v with
  | PInt i, VInt z => (fst (int_range i) <= z <= snd (int_range i))%Z
  | PBool, VBool _ => True
  | PChar, VChar _ => True
  | PString, VStr s => s <> []
  | PReal r, VReal x => exists s, s <> [] /\ readable (e_plat E) s /\ Forall (fun c => ~ white c) s /\ e_real E r s = Some (x, length s)
  | PCustom n _, VCustom x => exists s rest, s <> [] /\ e_custom E n s = Some (x, rest) /\ Forall white rest
  | _, _ => False
  end.

(** What functions are never called with: an empty string, alone or in the list of words of a free form command. *)
Definition no_empty (v : value) : Prop :=
  match v with VStr s => s <> [] | VList l => ~ In [] l | _ => True end.
Definition full_call (e : event) : Prop := match e with EvCall _ _ vs => Forall no_empty vs | _ => True end.
