(** * Model of programs with several [Cli] objects
    Source: /repo/include/cli/cli.h: [Cli] (114-243, 869-875), the members and the
    constructor and destructor of [CliSession] (307-391, 879-910, 976-979), [CmdHandler]
    (395-437).  The functions of sessions are those of SessionModel.v. *)

From Verif Require Import Base FromStringModel HistoryModel StorageModel TerminalModel MenuModel SessionModel CompletionModel.
Open Scope nat_scope.
Open Scope list_scope.

(** ** Calls of a session's functions by the program *)
Inductive call :=
| CFeed (line : str) | CEnter | CExit | CPrompt (tty color force : bool)
| CHelp | CShowHistory | CPrevious (line : str) | CNext | CComplete (line : str).
(** What the caller gets: nothing, an exception, a line, completions. *)
Inductive ret := RNone | RExc (x : exn) | RLine (s : str) | RLines (l : list str).
Inductive cres := COkay (r : ret) (w : world) | CUndef | CDeep.
Definition of_h (r : hres) : cres :=
  match r with HOk w => COkay RNone w | HExc x w => COkay (RExc x) w | HUB => CUndef | HFuel => CDeep end.
Definition of_f (r : fres) : cres :=
  match r with FOk w => COkay RNone w | FExc x w => COkay (RExc x) w | FUB => CUndef | FFuel => CDeep end.
(** cli.h:320-378, 912-974 *)
Definition run_call (E : env) (fuel : nat) (c : call) (w : world) : cres :=
  match c with
  | CFeed line => of_f (feed E fuel line w)
  | CEnter => of_h (session_enter E w)
  | CExit => of_h (session_exit E w)
  | CPrompt tty color force =>
      match prompt tty color force w with Some (s, _) => COkay RNone (out s w) | None => CUndef end
  | CHelp => match help_text w with Some s => COkay RNone (out s w) | None => CUndef end
  | CShowHistory =>
      match show (w_hist w) with Some s => COkay RNone (out s w) | None => COkay (RExc out_of_range) w end
  | CPrevious line => match previous_cmd line w with Some (s, w') => COkay (RLine s) w' | None => CUndef end
  | CNext => match next_cmd w with Some (s, w') => COkay (RLine s) w' | None => CUndef end
  | CComplete line =>
      match get_completions (e_plat E) fuel line w with
      | GOk l => COkay (RLines l) w | GUB => CUndef | GFuel => CDeep
      end
  end.

(** ** Objects
    A root menu with all below it, and the next free id of commands. *)
Record tree := mkTree { t_root : cmd; t_next : nat }.
(** Actions and handlers: numbers of functions, [None] for empty ones. *)
Definition fns := hook -> option nat.
Definition no_fns : fns := fun _ => None.
(** cli.h:238-244: the storage and the root menu are [unique_ptr]s. *)
Record cliobj := mkCli { c_store : option storage; c_tree : option nat; c_fns : fns }.
(** cli.h:382-390; [s_cli]: the reference [cli]; [s_tree] and [s_cur]: the pointer
    [current] (the tree it points into and the id of the menu). *)
Record ses := mkSes { s_cli : nat; s_tree : nat; s_cur : nat; s_hist : history; s_exit : bool; s_fns : fns }.
(** Objects are known by names that are not used again. *)
Inductive life (A : Type) := Unborn | Live (a : A) | Dead.
Arguments Unborn {A}. Arguments Live {A} a. Arguments Dead {A}.
Record prog := mkProg {
  g_clis : nat -> life cliobj; g_trees : nat -> life tree; g_ses : nat -> life ses; g_trace : list event }.
Definition g_init : prog := mkProg (fun _ => Unborn) (fun _ => Unborn) (fun _ => Unborn) [].

Definition put {A} (m : nat -> A) (i : nat) (a : A) : nat -> A := fun j => if Nat.eqb j i then a else m j.
Definition set_clis (m : nat -> life cliobj) (g : prog) : prog := mkProg m (g_trees g) (g_ses g) (g_trace g).
Definition set_trees (m : nat -> life tree) (g : prog) : prog := mkProg (g_clis g) m (g_ses g) (g_trace g).
Definition set_ses (m : nat -> life ses) (g : prog) : prog := mkProg (g_clis g) (g_trees g) m (g_trace g).

(** ** What a program does
    Everything happens between calls of the library's functions: user functions that
    destroy or move objects while a session runs are not modelled; user functions change
    the menus of their own [Cli] only. *)
Inductive mop := MEnable (id : nat) | MDisable (id : nat) | MRemove (id : nat) | MInsert (pid : nat) (c : cmd).
Inductive lop :=
| LNew (c t : nat) (r : tree) (st : storage)     (* [Cli c(std::move(menu), std::move(storage))] *)
| LCliFn (c : nat) (k : hook) (f : option nat)      (* [EnterAction], [ExitAction], ... of a [Cli] *)
| LMove (c c' : nat)                             (* [Cli c'(std::move(c))] *)
| LAssign (c c' : nat)                           (* [c' = std::move(c)] *)
| LDelete (c : nat)                              (* [~Cli] *)
| LOpen (s c size : nat)                         (* [CliSession s(c, out, size)] *)
| LSesFn (s : nat) (k : hook) (f : option nat)   (* its [EnterAction] and [ExitAction] *)
| LCall (s : nat) (c : call)
| LClose (s : nat)                               (* [~CliSession] *)
| LMenu (t : nat) (o : mop).                     (* handles of commands, references to menus *)

(** [LIll]: a name is used again (no program does this). *)
Inductive lres := LOk (r : ret) (g : prog) | LUndef | LDeep | LIll.

(** The destructor of the [unique_ptr] of a root menu. *)
Definition drop_tree (o : option nat) (m : nat -> life tree) : nat -> life tree :=
  match o with Some t => put m t Dead | None => m end.
(** Actions and handlers of a session: its own and those of its [Cli] (cli.h:238-244, 387-388) *)
Definition pick (a b : fns) : fns := fun k => match k with KSesEnter | KSesExit => a k | _ => b k end.
Definition is_some {A} (o : option A) : bool := match o with Some _ => true | None => false end.

Section Run.
(** [fn n]: user function number [S n] for actions and handlers; number 0 does nothing.
    The hooks of [E] are not used. *)
Context (E : env) (fn : nat -> nat -> hook -> list str -> list event -> uresult) (fuel : nat).

Definition with_fns (a : fns) : env :=
  mkEnv (e_plat E) (e_real E) (e_custom E) (e_handler E)
    (fun sid k args tr => match a k with Some (S n) => fn n sid k args tr | _ => mkURes [] UReturn end)
    (fun k => is_some (a k)).

(** cli.h:387-388: the actions of a new session are functions doing nothing. *)
Definition new_fns : fns := fun k => match k with KSesEnter | KSesExit => Some 0 | _ => None end.

(** A call of a function of session [sid], on what its references and pointers refer to.
    - If the menus are gone, there is no menu [current] points to: using it is undefined
      (as in SessionModel.v), and [gone] stands for them.
    - If the [Cli] has no storage (it was moved from), [StoreCommands] (cli.h:228-231) uses
      a null pointer: [Exit] does this just before it sets [exit] (cli.h:343-346), by
      which it is found here.  ([exit] matters for prompts only.)
    - If the [Cli] is gone, any use of it is undefined: it is used for its actions and
      handlers, before anything else ([traps]). *)
Definition gone : tree := mkTree (CFree 0 [] false [] [] (HUser 0)) 0.
Definition traps : fns := fun _ => Some 0.
Definition exits (c : call) : bool := match c with CFeed _ | CExit => true | _ => false end.
Definition of_cli (sid : nat) (e : event) : bool :=
  match e with EvHook i (KWrong | KExcept | KCliEnter | KCliExit) _ => Nat.eqb i sid | _ => false end.
Definition call_ses (g : prog) (sid : nat) (s : ses) (c : call) : lres :=
  let o := match g_clis g (s_cli s) with Live o => Some o | _ => None end in
  let t := match g_trees g (s_tree s) with Live t => t | _ => gone end in
  let st := match o with Some o => c_store o | None => None end in
  let a := match o with Some o => c_fns o | None => traps end in
  let ex := match st with Some _ => s_exit s | None => s_exit s && negb (exits c) end in
  let w := mkWorld (t_root t) (t_next t) (match st with Some st => st | None => StVolatile 0 [] end) sid (s_cur s) (s_hist s) ex (g_trace g) in
  match run_call (with_fns (pick (s_fns s) a)) fuel c w with
  | COkay r w' =>
      let g' ex' := mkProg
        (match o with Some o => put (g_clis g) (s_cli s) (Live (mkCli (match st with Some _ => Some (w_store w') | None => None end) (c_tree o) (c_fns o))) | None => g_clis g end)
        (match g_trees g (s_tree s) with Live _ => put (g_trees g) (s_tree s) (Live (mkTree (w_root w') (w_next w'))) | _ => g_trees g end)
        (put (g_ses g) sid (Live (mkSes (s_cli s) (s_tree s) (w_cur w') (w_hist w') ex' (s_fns s))))
        (w_trace w') in
      match o, st with
      | Some _, Some _ => LOk r (g' (w_exit w'))
      | Some _, None => if exits c && w_exit w' then LUndef else LOk r (g' (s_exit s))
      | None, _ => if existsb (of_cli sid) (skipn (length (g_trace g)) (w_trace w')) then LUndef else LOk r (g' (s_exit s))
      end
  | CUndef => LUndef
  | CDeep => LDeep
  end.

(** Handles hold weak pointers (cli.h:401-434): on menus that are gone they do nothing.
    Inserting into such a menu is undefined. *)
Definition menu_op (g : prog) (t : nat) (o : mop) : lres :=
  match g_trees g t, o with
  | Live r, MEnable id => LOk RNone (set_trees (put (g_trees g) t (Live (mkTree (set_enabled id true (t_root r)) (t_next r)))) g)
  | Live r, MDisable id => LOk RNone (set_trees (put (g_trees g) t (Live (mkTree (set_enabled id false (t_root r)) (t_next r)))) g)
  | Live r, MRemove id => LOk RNone (set_trees (put (g_trees g) t (Live (mkTree (remove_cmd id (t_root r)) (t_next r)))) g)
  | Live r, MInsert pid c =>
      let (c', n) := relabel (t_next r) c in
      LOk RNone (set_trees (put (g_trees g) t (Live (mkTree (insert_cmd pid c' (t_root r)) n))) g)
  | Dead, MInsert _ _ | Unborn, _ => LUndef
  | Dead, _ => LOk RNone g
  end.

Definition l_step (g : prog) (o : lop) : lres :=
  match o with
  | LNew c t r st =>
      match g_clis g c, g_trees g t with
      | Unborn, Unborn => LOk RNone (set_clis (put (g_clis g) c (Live (mkCli (Some st) (Some t) no_fns)))
                                   (set_trees (put (g_trees g) t (Live r)) g))
      | _, _ => LIll
      end
  | LCliFn c k f =>
      match g_clis g c with
      | Live o => LOk RNone (set_clis (put (g_clis g) c (Live (mkCli (c_store o) (c_tree o) (fun j => if match j, k with
            KWrong, KWrong | KExcept, KExcept | KCliEnter, KCliEnter | KCliExit, KCliExit => true | _, _ => false end then f else c_fns o j)))) g)
      | _ => LUndef
      end
  (** cli.h:124: the default moves the members; moved-from [unique_ptr]s are null,
      moved-from [std::function]s empty (in libstdc++) *)
  | LMove c c' =>
      match g_clis g c, g_clis g c' with
      | Live o, Unborn => LOk RNone (set_clis (put (put (g_clis g) c (Live (mkCli None None no_fns))) c' (Live o)) g)
      | _, Unborn => LUndef
      | _, _ => LIll
      end
  (** cli.h:125; the old menu is destroyed; assigning an object to itself changes nothing
      (in libstdc++) *)
  | LAssign c c' =>
      match g_clis g c, g_clis g c' with
      | Live o, Live o' =>
          if Nat.eqb c c' then LOk RNone g
          else LOk RNone (set_clis (put (put (g_clis g) c (Live (mkCli None None no_fns))) c' (Live o))
                          (set_trees (drop_tree (c_tree o') (g_trees g)) g))
      | _, _ => LUndef
      end
  | LDelete c =>
      match g_clis g c with
      | Live o => LOk RNone (set_clis (put (g_clis g) c Dead) (set_trees (drop_tree (c_tree o) (g_trees g)) g))
      | _ => LUndef
      end
  (** cli.h:879-910: the commands of the storage are read (undefined if there is none) *)
  | LOpen s c size =>
      match g_ses g s with
      | Unborn =>
          match g_clis g c with
          | Live (mkCli (Some st) (Some t) _) =>
              match g_trees g t with
              | Live r =>
                  let w := open_session s size (t_root r) (t_next r) st (g_trace g) in
                  LOk RNone (set_ses (put (g_ses g) s (Live (mkSes c t (w_cur w) (w_hist w) (w_exit w) new_fns))) g)
              | _ => LUndef
              end
          | _ => LUndef
          end
      | _ => LIll
      end
  | LSesFn s k f =>
      match g_ses g s with
      | Live x => LOk RNone (set_ses (put (g_ses g) s (Live (mkSes (s_cli x) (s_tree x) (s_cur x) (s_hist x) (s_exit x)
            (fun j => if match j, k with KSesEnter, KSesEnter | KSesExit, KSesExit => true | _, _ => false end then f else s_fns x j)))) g)
      | _ => LUndef
      end
  | LCall s c => match g_ses g s with Live x => call_ses g s x c | _ => LUndef end
  (** cli.h:976-979: only the global stream is used, which the session keeps alive *)
  | LClose s => match g_ses g s with Live _ => LOk RNone (set_ses (put (g_ses g) s Dead) g) | _ => LUndef end
  | LMenu t o => menu_op g t o
  end.

(** The results of the calls, and the state at the end. *)
Inductive lend := LEnd (rs : list ret) (g : prog) | LEUndef | LEDeep | LEIll.
Fixpoint l_run (os : list lop) (g : prog) : lend :=
  match os with
  | [] => LEnd [] g
  | o :: os' =>
      match l_step g o with
      | LOk r g' => match l_run os' g' with LEnd rs g2 => LEnd (r :: rs) g2 | e => e end
      | LUndef => LEUndef | LDeep => LEDeep | LIll => LEIll
      end
  end.
End Run.
