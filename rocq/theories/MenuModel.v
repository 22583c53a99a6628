(** * Model of menus and commands
    Source: /repo/include/cli/cli.h, classes [Command], [CmdHandler], [Menu],
    [VariadicFunctionCommand], [FreeformCommand], [Select], [PrintDesc].

    Commands of user-defined classes derived from [Command]: VirtualModel.v. *)

From Verif Require Import Base FromStringModel StorageModel.
Open Scope nat_scope.
Open Scope list_scope.

(** Parameter types of command functions (cli.h:54-71, fromstring.h).  The last
    one stands for any other type read by its [operator>>]; [desc]: what the user's
    specialisation of [TypeDesc] gives (empty without one, cli.h:54). *)
Inductive realtype := RFloat | RDouble | RLongDouble.
Inductive ptype := PInt (t : inttype) | PBool | PChar | PString | PReal (r : realtype) | PCustom (n : nat) (desc : str).

(** Converted arguments.  Floating point and custom values are opaque codes
    chosen by the oracles that read them. *)
Inductive value :=
| VInt (z : Z) | VBool (b : bool) | VChar (c : ascii) | VStr (s : str)
| VReal (r : Z) | VCustom (z : Z) | VList (l : list str).

(** What a command runs: a user's function, or one of the functions of the global
    menu (cli.h:890-909). *)
Inductive hid := HUser (n : nat) | HHelp | HExit | HHistory | HBang.

(** Commands.  [id] stands for the address of the object; [en] is
    [Command::enabled] (cli.h:280).
    - [CFn]: [VariadicFunctionCommand] (cli.h:759-814);
    - [CFree]: [FreeformCommand] (cli.h:817-862);
    - [CMenu]: [Menu] (cli.h:446-701); the parent pointer is implicit. *)
Inductive cmd :=
| CFn (id : nat) (name : str) (en : bool) (desc : str) (pars : list ptype) (pdesc : list str) (h : hid)
| CFree (id : nat) (name : str) (en : bool) (desc : str) (pdesc : list str) (h : hid)
| CMenu (id : nat) (name : str) (en : bool) (desc : str) (prompt : str) (kids : list cmd).

Definition cmd_id (c : cmd) : nat :=
  match c with CFn i _ _ _ _ _ _ | CFree i _ _ _ _ _ | CMenu i _ _ _ _ _ => i end.
(** cli.h:276 [Name] *)
Definition cmd_name (c : cmd) : str :=
  match c with CFn _ n _ _ _ _ _ | CFree _ n _ _ _ _ | CMenu _ n _ _ _ _ => n end.
(** cli.h:277 [IsEnabled] *)
Definition cmd_en (c : cmd) : bool :=
  match c with CFn _ _ e _ _ _ _ | CFree _ _ e _ _ _ | CMenu _ _ e _ _ _ => e end.
Definition cmd_kids (c : cmd) : list cmd :=
  match c with CMenu _ _ _ _ _ k => k | _ => [] end.

(** cli.h:457-463: a menu without a prompt text shows its name. *)
Definition make_menu (id : nat) (name desc prompt : str) (kids : list cmd) : cmd :=
  CMenu id name true desc (match prompt with [] => name | _ => prompt end) kids.

(** ** Finding a menu
    Pointers to menus are ids; following one yields the menu and, through the
    parent pointers, the chain of menus up to the root (nearest first).
    [None]: no menu of the tree has that id (the pointer dangles). *)
Section Locate.
Context (id : nat).
Fixpoint locate (anc : list cmd) (c : cmd) {struct c} : option (list cmd) :=
  match c with
  | CMenu i _ _ _ _ kids =>
      if Nat.eqb i id then Some (c :: anc)
      else (fix go l := match l with
                        | [] => None
                        | k :: l' => match locate (c :: anc) k with Some p => Some p | None => go l' end
                        end) kids
  | _ => None
  end.
End Locate.

(** ** Changing the tree (cli.h:395-442 [CmdHandler]) *)

(** [Enable]/[Disable] (cli.h:413-422, 261-262): sets the flag of the command, if it
    still exists. *)
Fixpoint set_enabled (id : nat) (b : bool) (c : cmd) : cmd :=
  match c with
  | CFn i n e d p pd h => CFn i n (if Nat.eqb i id then b else e) d p pd h
  | CFree i n e d pd h => CFree i n (if Nat.eqb i id then b else e) d pd h
  | CMenu i n e d pr kids =>
      CMenu i n (if Nat.eqb i id then b else e) d pr (map (set_enabled id b) kids)
  end.

(** [Remove] (cli.h:423-437): erases the command from the menu holding it, if both
    still exist.  The root is in no menu. *)
Fixpoint remove_cmd (id : nat) (c : cmd) : cmd :=
  match c with
  | CMenu i n e d pr kids =>
      CMenu i n e d pr
        ((fix go l := match l with
                      | [] => []
                      | k :: l' => if Nat.eqb (cmd_id k) id then l' else remove_cmd id k :: go l'
                      end) kids)
  | _ => c
  end.

(** Numbering the objects of a new command: ids [n], [n+1], ... *)
Fixpoint relabel (n : nat) (c : cmd) : cmd * nat :=
  match c with
  | CFn _ nm e d p pd h => (CFn n nm e d p pd h, S n)
  | CFree _ nm e d pd h => (CFree n nm e d pd h, S n)
  | CMenu _ nm e d pr kids =>
      let (kids', n') :=
        (fix go n l := match l with
                       | [] => ([], n)
                       | k :: l' => let (k', n1) := relabel n k in
                                    let (r, n2) := go n1 l' in (k' :: r, n2)
                       end) (S n) kids in
      (CMenu n nm e d pr kids', n')
  end.

(** [Insert] (cli.h:482-497, 465-480): the new command is appended to the menu. *)
Fixpoint insert_cmd (pid : nat) (x : cmd) (c : cmd) : cmd :=
  match c with
  | CMenu i n e d pr kids =>
      let kids' := map (insert_cmd pid x) kids in
      CMenu i n e d pr (if Nat.eqb i pid then kids' ++ [x] else kids')
  | _ => c
  end.

(** ** Help *)

(** cli.h:54-71 [TypeDesc] *)
Definition type_desc (p : ptype) : str :=
  match p with
  | PInt SChar => lit "<signed char>"
  | PInt UChar => lit "<unsigned char>"
  | PInt Short => lit "<short>"
  | PInt UShort => lit "<unsigned short>"
  | PInt Int => lit "<int>"
  | PInt UInt => lit "<unsigned int>"
  | PInt Long => lit "<long>"
  | PInt ULong => lit "<unsigned long>"
  | PInt LLong => lit "<long long>"
  | PInt ULLong => lit "<unsigned long long>"
  | PBool => lit "<bool>"
  | PChar => lit "<char>"
  | PString => lit "<string>"
  | PReal RFloat => lit "<float>"
  | PReal RDouble => lit "<double>"
  | PReal RLongDouble => lit "<long double>"
  | PCustom _ d => d
  end.

Definition nl : str := ["010"%char].
Definition tab : str := ["009"%char].

(** cli.h:738-755 [PrintDesc] *)
Definition print_desc (pars : list ptype) : str :=
  flat_map (fun p => lit " " ++ type_desc p) pars.
(** cli.h:804-805, 852-853 *)
Definition print_pdesc (pdesc : list str) : str :=
  flat_map (fun s => lit " <" ++ s ++ lit ">") pdesc.

(** [Help] of a command: cli.h:534-538 (menu), 798-807 (function), 846-855 (free
    form). *)
Definition help_line (c : cmd) : str :=
  if negb (cmd_en c) then [] else
  match c with
  | CMenu _ name _ desc _ _ => lit " - " ++ name ++ nl ++ tab ++ desc ++ nl
  | CFn _ name _ desc pars pdesc _ =>
      lit " - " ++ name ++ (match pdesc with [] => print_desc pars | _ => [] end)
        ++ print_pdesc pdesc ++ nl ++ tab ++ desc ++ nl
  | CFree _ name _ desc pdesc _ =>
      lit " - " ++ name ++ (match pdesc with [] => lit " <list of strings>" | _ => [] end)
        ++ print_pdesc pdesc ++ nl ++ tab ++ desc ++ nl
  end.

(** cli.h:525-532 [MainHelp] of the menu at the head of the chain. *)
Definition main_help (ctx : list cmd) : str :=
  match ctx with
  | [] => []
  | m :: anc =>
      if negb (cmd_en m) then []
      else flat_map help_line (cmd_kids m) ++ match anc with [] => [] | p :: _ => help_line p end
  end.

(** The global menu of a session (cli.h:883, 890-909). *)
Definition global_menu : cmd :=
  CMenu 0 [] true [] [] [
    CFn 1 (lit "help") true (lit "This help message") [] [] HHelp;
    CFn 2 (lit "exit") true (lit "Quit the session") [] [] HExit;
    CFn 3 (lit "history") true (lit "Show the history") [] [] HHistory;
    CFn 4 (lit "!") true (lit "Exec a command by index in the history") [PInt UInt]
        [lit "history entry index"] HBang ].
