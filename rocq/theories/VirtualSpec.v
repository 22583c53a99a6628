(** * Specification of menus with commands of any class
    Readings of a line as in ResolveSpec.v, but for commands that are not menus nothing is known
    about them: neither their names nor whether they are enabled. *)

From Coq Require Import Sorted.
From Verif Require Import Base FromStringModel PrefixSpec MenuModel SessionModel ResolveSpec CompletionSpec VirtualModel.
Open Scope nat_scope.
Open Scope list_scope.

Section Virtual.
Context {W : Type} (enter : nat -> W -> W).

(** What a line can be read as: offering some words to a command, or entering a menu. *)
Inductive vtarget := VOffer (o : object W) (words : list str) | VEnter (id : nat).

(** [vreading ctx toks path t]: in the menu at the head of [ctx] (the menus its parent
    pointers lead to follow), [toks] can be read as [t] by the choices [path]: the number
    of a command, and last the parent.  A menu inserted as a command has no parent. *)
Inductive vreading : list (vcmd W) -> list str -> list nat -> vtarget -> Prop :=
| vr_object m anc i o toks :
    v_en m = true -> nth_error (v_kids m) i = Some (VObj o) -> toks <> [] ->
    vreading (m :: anc) toks [i] (VOffer o toks)
| vr_menu m anc i id name desc pr linked kids :
    v_en m = true -> nth_error (v_kids m) i = Some (VMenu id name true desc pr linked kids) ->
    vreading (m :: anc) [name] [i] (VEnter id)
| vr_in_menu m anc i id name en desc pr kids rest path t :
    v_en m = true -> nth_error (v_kids m) i = Some (VMenu id name en desc pr true kids) ->
    vreading (VMenu id name en desc pr true kids :: m :: anc) rest path t ->
    vreading (m :: anc) (name :: rest) (i :: path) t
| vr_in_orphan m anc i id name en desc pr kids rest path t :
    v_en m = true -> nth_error (v_kids m) i = Some (VMenu id name en desc pr false kids) ->
    vreading [VMenu id name en desc pr false kids] rest path t ->
    vreading (m :: anc) (name :: rest) (i :: path) t
| vr_parent m anc id name desc pr linked kids word :
    v_en m = true -> word = name \/ word = lit ".." ->
    vreading (m :: VMenu id name true desc pr linked kids :: anc) [word] [length (v_kids m)] (VEnter id)
| vr_in_parent m anc id name en desc pr linked kids word rest path t :
    v_en m = true -> word = name \/ word = lit ".." ->
    vreading (VMenu id name en desc pr linked kids :: anc) rest path t ->
    vreading (m :: VMenu id name en desc pr linked kids :: anc) (word :: rest) (length (v_kids m) :: path) t.

(** Readings are tried one after the other: a command that returns false declines. *)
Fixpoint tried (l : list vtarget) (w : W) : vres W :=
  match l with
  | [] => VDone false w
  | VEnter id :: _ => VDone true (enter id w)
  | VOffer o words :: l' => match o_exec o words w with VDone false w' => tried l' w' | r => r end
  end.

(** All readings of a line, in dictionary order of their choices. *)
Definition all_readings (ctx : list (vcmd W)) (toks : list str) (l : list (list nat * vtarget)) : Prop :=
  StronglySorted before (map fst l) /\ forall path t, In (path, t) l <-> vreading ctx toks path t.

(** ** Completion *)
Inductive completes : list (vcmd W) -> str -> str -> Prop :=
| cp_object m anc o line c :
    In (VObj o) (v_kids m) -> In c (o_comp o line) -> completes (m :: anc) line c
| cp_name m anc id name desc pr linked kids line :
    In (VMenu id name true desc pr linked kids) (v_kids m) -> is_prefix line name -> line <> name ->
    completes (m :: anc) line name
| cp_inside m anc id name en desc pr kids rest c :
    In (VMenu id name en desc pr true kids) (v_kids m) ->
    completes (VMenu id name en desc pr true kids :: m :: anc) (trim rest) c ->
    completes (m :: anc) (name ++ rest) (name ++ lit " " ++ c)
| cp_inside_orphan m anc id name en desc pr kids rest c :
    In (VMenu id name en desc pr false kids) (v_kids m) ->
    completes [VMenu id name en desc pr false kids] (trim rest) c ->
    completes (m :: anc) (name ++ rest) (name ++ lit " " ++ c)
| cp_parent_name m anc id name desc pr linked kids line :
    is_prefix line name -> line <> name -> ~ is_prefix (lit "..") line ->
    completes (m :: VMenu id name true desc pr linked kids :: anc) line name
| cp_parent m anc id name en desc pr linked kids rest c :
    completes (VMenu id name en desc pr linked kids :: anc) (trim rest) c ->
    completes (m :: VMenu id name en desc pr linked kids :: anc) (name ++ rest) (name ++ lit " " ++ c)
| cp_dots m anc id name en desc pr linked kids rest c :
    ~ is_prefix name (lit ".." ++ rest) ->
    completes (VMenu id name en desc pr linked kids :: anc) (trim rest) c ->
    completes (m :: VMenu id name en desc pr linked kids :: anc) (lit ".." ++ rest) (lit ".." ++ lit " " ++ c).

(** The menus of a tree. *)
Fixpoint v_menus (c : vcmd W) : list nat :=
  match c with VObj _ => [] | VMenu id _ _ _ _ _ kids => id :: flat_map v_menus kids end.
Definition all_menus (ctx : list (vcmd W)) : Prop := Forall (fun c => exists id n e d p l k, c = VMenu id n e d p l k) ctx.
(** [inside m ctx]: the menu at the head of [ctx] is [m], having no parent, or in it. *)
Inductive inside (m : vcmd W) : list (vcmd W) -> Prop :=
| in_top : inside m [m]
| in_kid c anc k : inside m (c :: anc) -> In k (v_kids c) -> inside m (below k (c :: anc)).

(** Commands that decline everything, and menus without some commands. *)
Definition inert (o : object W) : Prop :=
  (forall words w, o_exec o words w = VDone false w) /\ o_help o = [] /\ forall line, o_comp o line = [].
Definition kept (f : object W -> bool) (c : vcmd W) : bool := match c with VObj o => negb (f o) | VMenu _ _ _ _ _ _ _ => true end.
Fixpoint prune (f : object W -> bool) (c : vcmd W) : vcmd W :=
  match c with
  | VObj o => VObj o
  | VMenu id name en desc pr linked kids => VMenu id name en desc pr linked (filter (kept f) (map (prune f) kids))
  end.
End Virtual.
