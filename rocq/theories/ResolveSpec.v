(** * Specification of command resolution

    A command line can be read in several ways.  A reading is found by choosing a
    command of the menu one is in, then, if that is a menu and words are left, a
    command of that menu, and so on.  The choices are numbered: 0, 1, ... for the
    commands of a menu in insertion order, and last the parent menu.  Readings are
    tried in the dictionary order of their choices. *)

From Verif Require Import Base FromStringModel MenuModel SessionModel.
Open Scope nat_scope.
Open Scope list_scope.

(** What a line can ask for. *)
Inductive target :=
| TRun (h : hid) (pars : list ptype) (args : list str)   (* a function with parameters *)
| TFree (h : hid) (args : list str)                      (* a free form function *)
| TGoto (id : nat).                                      (* enter a menu *)

(** [reading ctx toks path t]: in the menu at the head of [ctx] (its ancestors
    follow), the words [toks] can be read as [t] by the choices [path]. *)
Inductive reading : list cmd -> list str -> list nat -> target -> Prop :=
| rd_fn m anc i id name desc pars pdesc h args :
    cmd_en m = true -> nth_error (cmd_kids m) i = Some (CFn id name true desc pars pdesc h) ->
    length args = length pars ->
    reading (m :: anc) (name :: args) [i] (TRun h pars args)
| rd_free m anc i id name desc pdesc h args :
    cmd_en m = true -> nth_error (cmd_kids m) i = Some (CFree id name true desc pdesc h) ->
    reading (m :: anc) (name :: args) [i] (TFree h args)
| rd_menu m anc i id name desc pr kids :
    cmd_en m = true -> nth_error (cmd_kids m) i = Some (CMenu id name true desc pr kids) ->
    reading (m :: anc) [name] [i] (TGoto id)
| rd_in_menu m anc i sub id name en desc pr kids rest path t :
    cmd_en m = true -> nth_error (cmd_kids m) i = Some sub -> sub = CMenu id name en desc pr kids ->
    reading (sub :: m :: anc) rest path t ->
    reading (m :: anc) (name :: rest) (i :: path) t
| rd_parent m p anc id name desc pr kids word :
    cmd_en m = true -> p = CMenu id name true desc pr kids -> word = name \/ word = lit ".." ->
    reading (m :: p :: anc) [word] [length (cmd_kids m)] (TGoto id)
| rd_in_parent m p anc id name en desc pr kids word rest path t :
    cmd_en m = true -> p = CMenu id name en desc pr kids -> word = name \/ word = lit ".." ->
    reading (p :: anc) rest path t ->
    reading (m :: p :: anc) (word :: rest) (length (cmd_kids m) :: path) t.

(** Dictionary order. *)
Inductive before : list nat -> list nat -> Prop :=
| before_hd i j a b : i < j -> before (i :: a) (j :: b)
| before_tl i a b : before a b -> before (i :: a) (i :: b).

Section Env.
Context (E : env).

(** The arguments are converted left to right; the first one that cannot be
    converted makes the reading unusable. *)
Inductive converts : list ptype -> list str -> list value -> Prop :=
| cv_nil : converts [] [] []
| cv_cons p ps s ss v vs : convert E p s = COk v -> converts ps ss vs -> converts (p :: ps) (s :: ss) (v :: vs).
Inductive mismatch : list ptype -> list str -> Prop :=
| mm_here p ps s ss : convert E p s = CBad -> mismatch (p :: ps) (s :: ss)
| mm_later p ps s ss v : convert E p s = COk v -> mismatch ps ss -> mismatch (p :: ps) (s :: ss).

Inductive unusable : target -> Prop :=
| un_run h pars args : mismatch pars args -> unusable (TRun h pars args).

(** No reading in this menu is usable. *)
Definition no_match (ctx : list cmd) (toks : list str) : Prop :=
  forall path t, reading ctx toks path t -> unusable t.
(** [t] is the first usable reading. *)
Definition first_match (ctx : list cmd) (toks : list str) (t : target) : Prop :=
  exists path, reading ctx toks path t /\ ~ unusable t /\
    forall path' t', reading ctx toks path' t' -> before path' path -> unusable t'.

(** Resolution of a line: the global commands, then the current menu. *)
Definition resolves (ctx : list cmd) (toks : list str) (t : target) : Prop :=
  first_match [global_menu] toks t \/
  (no_match [global_menu] toks /\ first_match ctx toks t).
Definition unresolved (ctx : list cmd) (toks : list str) : Prop :=
  no_match [global_menu] toks /\ no_match ctx toks.
End Env.
