(** * Specification of menus as objects: the trees of MenuModel.v *)

From Verif Require Import Base FromStringModel StorageModel MenuModel SessionModel SessionSpec HeapModel.
Open Scope nat_scope.
Open Scope list_scope.

(** A forest: the menus owned, as trees, the commands of the handlers, and the menus that were
    inserted as commands. *)
Record forest := mkFor { f_trees : list cmd; f_next : nat; f_hand : list nat; f_alone : list nat }.
Definition f_init : forest := mkFor [] 0 [] [].

Definition leaf_cmd (i : nat) (l : leaf) : cmd :=
  match l with
  | FnLeaf n d p pd u => CFn i n true d p pd (HUser u)
  | FreeLeaf n d pd u => CFree i n true d pd (HUser u)
  end.
Fixpoint menus_of (c : cmd) : list nat :=
  match c with CMenu i _ _ _ _ kids => i :: flat_map menus_of kids | _ => [] end.
Definition all_ids (f : forest) : list nat := flat_map ids (f_trees f).
Definition all_menus (f : forest) : list nat := flat_map menus_of (f_trees f).
Definition is_root (m : nat) (c : cmd) : bool := Nat.eqb (cmd_id c) m.
Definition mem (x : nat) (l : list nat) : bool := if in_dec Nat.eq_dec x l then true else false.

(** The operations of the program on the forest; a handler is no more than the name of its
    command.  [None]: a menu that does not exist is used, a menu is moved that the
    program does not own, or into itself. *)
Definition f_step (o : hop) (f : forest) : option forest :=
  match o with
  | HNew n d p => Some (mkFor (f_trees f ++ [make_menu (f_next f) n d p []]) (S (f_next f)) (f_hand f) (f_alone f))
  | HInsert m l =>
      if mem m (all_menus f)
      then Some (mkFor (map (insert_cmd m (leaf_cmd (f_next f) l)) (f_trees f)) (S (f_next f)) (f_hand f ++ [f_next f]) (f_alone f))
      else None
  | HInsertMenu m x =>
      let rest := filter (fun c => negb (is_root x c)) (f_trees f) in
      match find (is_root x) (f_trees f) with
      | Some c => if mem m (flat_map menus_of rest)
                  then Some (mkFor (map (insert_cmd m c) rest) (f_next f) (f_hand f ++ [x]) (f_alone f))
                  else None
      | None => None
      end
  | HInsertCmd m x =>
      let rest := filter (fun c => negb (is_root x c)) (f_trees f) in
      match find (is_root x) (f_trees f) with
      | Some c => if mem m (flat_map menus_of rest)
                  then Some (mkFor (map (insert_cmd m c) rest) (f_next f) (f_hand f ++ [x]) (x :: f_alone f))
                  else None
      | None => None
      end
  | HSet m b => if mem m (all_menus f) then Some (mkFor (map (set_enabled m b) (f_trees f)) (f_next f) (f_hand f) (f_alone f)) else None
  | HHandSet k b =>
      match nth_error (f_hand f) k with
      | None => Some f
      | Some c => Some (mkFor (map (set_enabled c b) (f_trees f)) (f_next f) (f_hand f) (f_alone f))
      end
  | HHandRemove k =>
      match nth_error (f_hand f) k with
      | None => Some f
      | Some c => Some (mkFor (map (remove_cmd c) (f_trees f)) (f_next f) (f_hand f) (f_alone f))
      end
  | HDestroy m =>
      if existsb (is_root m) (f_trees f)
      then Some (mkFor (filter (fun c => negb (is_root m c)) (f_trees f)) (f_next f) (f_hand f) (f_alone f))
      else None
  end.
Fixpoint f_run (os : list hop) (f : forest) : option forest :=
  match os with
  | [] => Some f
  | o :: os' => match f_step o f with Some f' => f_run os' f' | None => None end
  end.

(** The objects of a tree, with the pointers they must have: a menu points to the one that holds
    it, unless it was inserted as a command. *)
Fixpoint rep (alone : list nat) (h : heap) (par : option nat) (c : cmd) {struct c} : Prop :=
  match c with
  | CFn i n e d p pd hh => h i = Some (BFn n e d p pd hh)
  | CFree i n e d pd hh => h i = Some (BFree n e d pd hh)
  | CMenu i n e d pr kids =>
      h i = Some (BMenu n e d pr (if mem i alone then None else par) (map cmd_id kids)) /\
      (fix all l := match l with [] => True | k :: l' => rep alone h (Some i) k /\ all l' end) kids
  end.
(** The memory holds the objects of the forest, and no others. *)
Definition represents (s : hstate) (f : forest) : Prop :=
  Forall (rep (f_alone f) (s_heap s) None) (f_trees f) /\
  (forall i, s_heap s i <> None <-> In i (all_ids f)) /\
  s_owned s = map cmd_id (f_trees f) /\ s_next s = f_next f /\ map fst (s_hand s) = f_hand f.

(** The menus inserted as commands. *)
Definition as_commands (os : list hop) : list nat := flat_map (fun o => match o with HInsertCmd _ x => [x] | _ => [] end) os.
