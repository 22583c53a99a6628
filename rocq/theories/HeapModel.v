(** * Menus as objects and pointers
    Source: /repo/include/cli/cli.h:247-303, 395-701, 943-958.  MenuModel.v has commands as trees;
    here they are objects in memory: a menu has a pointer to its parent and a vector of
    pointers to its commands, handlers have weak pointers. *)

From Verif Require Import Base FromStringModel StorageModel MenuModel SessionModel CompletionModel.
Open Scope nat_scope.
Open Scope list_scope.

(** The objects: cli.h:278-280, 811-813, 859-861, 693-700.  The vector [cmds] of a menu is an
    object of its own ([shared_ptr<Cmds>]), but it is created with the menu, and only the
    menu keeps it alive, except during [CmdHandler::Remove].  Addresses are numbers
    that are never used again. *)
Inductive obj :=
| BFn (name : str) (en : bool) (desc : str) (pars : list ptype) (pdesc : list str) (h : hid)
| BFree (name : str) (en : bool) (desc : str) (pdesc : list str) (h : hid)
| BMenu (name : str) (en : bool) (desc : str) (prompt : str) (parent : option nat) (cmds : list nat).
Definition heap : Type := nat -> option obj.
Definition put (i : nat) (o : option obj) (h : heap) : heap := fun j => if Nat.eqb j i then o else h j.

(** The object without its pointers: all that [Help], [Exec] of a command that is not
    a menu, and [Command::GetCompletionRecursive] look at. *)
Definition plain (i : nat) (o : obj) : cmd :=
  match o with
  | BFn n e d p pd hh => CFn i n e d p pd hh
  | BFree n e d pd hh => CFree i n e d pd hh
  | BMenu n e d p _ _ => CMenu i n e d p []
  end.

(** ** Building menus *)

(** What the program has: the memory, the next address, the menus it owns ([unique_ptr<Menu>] of
    the user, and [Cli::rootMenu], cli.h:240), and all handlers it got
    ([CmdHandler::Descriptor], cli.h:406-440: the command and, by its menu, the vector).
    Copies of a handler share its descriptor. *)
Record hstate := mkHS { s_heap : heap; s_next : nat; s_owned : list nat; s_hand : list (nat * nat) }.
Definition hs_init : hstate := mkHS (fun _ => None) 0 [] [].

(** A command of the user, but for a menu. *)
Inductive leaf := FnLeaf (name desc : str) (pars : list ptype) (pdesc : list str) (n : nat)
                | FreeLeaf (name desc : str) (pdesc : list str) (n : nat).
(** cli.h:252 (a command is enabled at first), 769-774, 827-832 *)
Definition leaf_obj (l : leaf) : obj :=
  match l with
  | FnLeaf n d p pd u => BFn n true d p pd (HUser u)
  | FreeLeaf n d pd u => BFree n true d pd (HUser u)
  end.

(** Destruction of a command that nobody owns any more: a menu releases its commands.
    [None]: the memory is freed already, or deeper than the fuel. *)
Fixpoint h_free (fuel : nat) (i : nat) (h : heap) : option heap :=
  match fuel with
  | O => None
  | S n =>
      match h i with
      | None => None
      | Some (BMenu _ _ _ _ _ cmds) =>
          match fold_left (fun acc k => match acc with Some h1 => h_free n k h1 | None => None end) cmds (Some h) with
          | None => None
          | Some h1 => Some (put i None h1)
          end
      | Some _ => Some (put i None h)
      end
  end.

(** cli.h:261-262 *)
Definition h_set (i : nat) (b : bool) (h : heap) : heap :=
  match h i with
  | None => h
  | Some (BFn n _ d p pd hh) => put i (Some (BFn n b d p pd hh)) h
  | Some (BFree n _ d pd hh) => put i (Some (BFree n b d pd hh)) h
  | Some (BMenu n _ d p par cmds) => put i (Some (BMenu n b d p par cmds)) h
  end.
(** [scmds->erase(i)] of the first one found, cli.h:429-435 *)
Fixpoint erase (x : nat) (l : list nat) : list nat :=
  match l with [] => [] | y :: l' => if Nat.eqb y x then l' else y :: erase x l' end.

Inductive hop :=
| HNew (name desc prompt : str)          (* make_unique<Menu>, cli.h:457-463 *)
| HInsert (m : nat) (l : leaf)           (* m->Insert(...), cli.h:465-488 *)
| HInsertMenu (m x : nat)                (* m->Insert(std::move(x)), cli.h:490-497 *)
| HInsertCmd (m x : nat)                 (* the same with x as a unique_ptr<Command>, cli.h:482-488 *)
| HSet (m : nat) (b : bool)              (* m->Enable(), m->Disable() *)
| HHandSet (k : nat) (b : bool)          (* the k-th handler: Enable, Disable, cli.h:413-422 *)
| HHandRemove (k : nat)                  (* the k-th handler: Remove, cli.h:423-437 *)
| HDestroy (m : nat).                    (* the owner of m, or the Cli object, is destroyed *)

(** [None]: undefined behaviour, or not something a program can do (moving from a menu it does
    not own). *)
Definition h_step (o : hop) (s : hstate) : option hstate :=
  let h := s_heap s in
  match o with
  | HNew n d p =>
      let i := s_next s in
      Some (mkHS (put i (Some (BMenu n true d (match p with [] => n | _ => p end) None [])) h) (S i)
                 (s_owned s ++ [i]) (s_hand s))
  | HInsert m l =>
      let i := s_next s in
      match h m with
      | Some (BMenu n e d p par cmds) =>
          Some (mkHS (put m (Some (BMenu n e d p par (cmds ++ [i]))) (put i (Some (leaf_obj l)) h)) (S i)
                     (s_owned s) (s_hand s ++ [(i, m)]))
      | _ => None
      end
  | HInsertMenu m x =>
      if existsb (Nat.eqb x) (s_owned s) then
        match h x with
        | Some (BMenu n e d p _ cmds) =>
            let h1 := put x (Some (BMenu n e d p (Some m) cmds)) h in
            match h1 m with
            | Some (BMenu n' e' d' p' par cmds') =>
                Some (mkHS (put m (Some (BMenu n' e' d' p' par (cmds' ++ [x]))) h1) (s_next s)
                           (erase x (s_owned s)) (s_hand s ++ [(x, m)]))
            | _ => None
            end
        | _ => None
        end
      else None
  | HInsertCmd m x =>
      if existsb (Nat.eqb x) (s_owned s) then
        match h x, h m with
        | Some (BMenu _ _ _ _ _ _), Some (BMenu n' e' d' p' par cmds') =>
            Some (mkHS (put m (Some (BMenu n' e' d' p' par (cmds' ++ [x]))) h) (s_next s)
                       (erase x (s_owned s)) (s_hand s ++ [(x, m)]))
        | _, _ => None
        end
      else None
  | HSet m b =>
      match h m with
      | Some (BMenu _ _ _ _ _ _) => Some (mkHS (h_set m b h) (s_next s) (s_owned s) (s_hand s))
      | _ => None
      end
  | HHandSet k b =>
      match nth_error (s_hand s) k with
      | None => Some s
      | Some (c, _) => Some (mkHS (h_set c b h) (s_next s) (s_owned s) (s_hand s))
      end
  | HHandRemove k =>
      match nth_error (s_hand s) k with
      | None => Some s
      | Some (c, m) =>
          match h c, h m with
          | Some _, Some (BMenu n e d p par cmds) =>
              if existsb (Nat.eqb c) cmds then
                match h_free (s_next s) c (put m (Some (BMenu n e d p par (erase c cmds))) h) with
                | None => None
                | Some h' => Some (mkHS h' (s_next s) (s_owned s) (s_hand s))
                end
              else Some s
          | _, _ => Some s
          end
      end
  | HDestroy m =>
      if existsb (Nat.eqb m) (s_owned s) then
        match h_free (s_next s) m h with
        | None => None
        | Some h' => Some (mkHS h' (s_next s) (erase m (s_owned s)) (s_hand s))
        end
      else None
  end.
Fixpoint h_run (os : list hop) (s : hstate) : option hstate :=
  match os with
  | [] => Some s
  | o :: os' => match h_step o s with Some s' => h_run os' s' | None => None end
  end.

(** ** Using menus *)

Section Exec.
Context (E : env) (bi : hid -> list value -> world -> hres) (h : heap).

(** [for (auto& cmd: *cmds) if (cmd->Exec(...)) return true;] *)
Fixpoint h_try (f : nat -> world -> eres) (l : list nat) (w : world) : eres :=
  match l with [] => EDone false w | k :: l' => e_bind (f k w) (h_try f l') end.

(** cli.h:499-507, 654-678 [Exec], [ExecParent], [HandleCommand] of the menu [i] *)
Fixpoint h_handle (toks : list str) (up : bool) (i : nat) (w : world) {struct toks} : eres :=
  match h i with
  | Some (BMenu name en _ _ parent cmds) =>
      if negb en then EDone false w
      else match toks with
           | [] => EUB
           | t :: rest =>
               if str_eqb name t || (up && str_eqb (lit "..") t) then
                 match rest with
                 | [] => EDone true (set_cur i w)
                 | _ =>
                     e_bind
                       (h_try (fun k w1 =>
                          match h k with
                          | None => EUB
                          | Some (BMenu _ _ _ _ _ _) => h_handle rest false k w1
                          | Some o => exec_leaf E bi (plain k o) rest w1
                          end) cmds w)
                       (fun w1 => match parent with None => EDone false w1 | Some p => h_handle rest true p w1 end)
                 end
               else EDone false w
           end
  | _ => EUB
  end.
(** cli.h:509-518 [ScanCmds] *)
Definition h_scan (toks : list str) (i : nat) (w : world) : eres :=
  match h i with
  | Some (BMenu _ en _ _ parent cmds) =>
      if negb en then EDone false w
      else e_bind
             (h_try (fun k w1 =>
                match h k with
                | None => EUB
                | Some (BMenu _ _ _ _ _ _) => h_handle toks false k w1
                | Some o => exec_leaf E bi (plain k o) toks w1
                end) cmds w)
             (fun w1 => match parent with None => EDone false w1 | Some p => h_handle toks true p w1 end)
  | _ => EUB
  end.
End Exec.

(** [cmd->Help(out)] for each command; [None]: a dangling pointer *)
Fixpoint h_help_lines (h : heap) (l : list nat) : option str :=
  match l with
  | [] => Some []
  | k :: l' =>
      match h k, h_help_lines h l' with
      | Some o, Some s => Some (help_line (plain k o) ++ s)
      | _, _ => None
      end
  end.
(** cli.h:525-532 [MainHelp] *)
Definition h_main_help (h : heap) (i : nat) : option str :=
  match h i with
  | Some (BMenu _ en _ _ parent cmds) =>
      if negb en then Some []
      else match h_help_lines h cmds, h_help_lines h (match parent with None => [] | Some p => [p] end) with
           | Some a, Some b => Some (a ++ b)
           | _, _ => None
           end
  | _ => None
  end.
(** cli.h:520-523 [Prompt] *)
Definition h_prompt (h : heap) (i : nat) : option str :=
  match h i with Some (BMenu _ _ _ p _ _) => Some p | _ => None end.

Section Completion.
Context (P : platform) (h : heap).
Fixpoint h_each (f : nat -> gres) (l : list nat) : gres :=
  match l with [] => GOk [] | k :: l' => g_app (f k) (h_each f l') end.
(** cli.h:570-629, as [menu_completion] in CompletionModel.v *)
Fixpoint h_completion (fuel : nat) (up : bool) (line : str) (i : nat) : gres :=
  match fuel with
  | O => GFuel
  | S n =>
      match h i with
      | Some (BMenu name en desc pr parent cmds) =>
          let inside (prefix : str) :=
            match trim_left P (skipn (length prefix) line) with
            | None => GUB
            | Some rest =>
                g_map (map (fun c => prefix ++ " "%char :: c))
                  (g_app
                     (h_each (fun k => match h k with
                                       | None => GUB
                                       | Some (BMenu _ _ _ _ _ _) => h_completion n false rest k
                                       | Some o => GOk (name_completion (plain k o) rest)
                                       end) cmds)
                     (match parent with None => GOk [] | Some p => h_completion n true rest p end))
            end in
          if starts_with name line then inside name
          else if up && starts_with (lit "..") line then inside (lit "..")
          else GOk (name_completion (plain i (BMenu name en desc pr parent cmds)) line)
      | _ => GUB
      end
  end.
(** cli.h:544-553, 286-303 *)
Definition h_completions (fuel : nat) (line : str) (i : nat) : gres :=
  match h i with
  | Some (BMenu _ _ _ _ parent cmds) =>
      g_app
        (h_each (fun k => match h k with
                          | None => GUB
                          | Some (BMenu _ _ _ _ _ _) => h_completion fuel false line k
                          | Some o => GOk (name_completion (plain k o) line)
                          end) cmds)
        (match parent with None => GOk [] | Some p => h_completion fuel true line p end)
  | _ => GUB
  end.
End Completion.
