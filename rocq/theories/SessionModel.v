(** * Model of a session
    Source: /repo/include/cli/cli.h, classes [Cli] and [CliSession], the [Exec]
    functions of commands and menus. *)

From Verif Require Import Base SplitModel FromStringModel HistoryModel StorageModel TerminalModel MenuModel.
Open Scope nat_scope.
Open Scope list_scope.

(** ** Observable events, in order *)
Inductive hook := KWrong | KExcept | KCliEnter | KCliExit | KSesEnter | KSesExit.
Inductive event :=
| EvOut (sid : nat) (text : str)                       (* written on a session's stream *)
| EvBroadcast (text : str)                             (* written on Cli::cout() *)
| EvCall (sid : nat) (h : nat) (args : list value)     (* a user's command function is called *)
| EvHook (sid : nat) (k : hook) (args : list str)      (* a user's hook is called *)
| EvInsert (pid : nat) (id : nat)                      (* a command was inserted *)
| EvInput (sid : nat) (on : bool).                     (* the input device is (de)activated *)

(** Exceptions: [std::bad_cast], another [std::exception], or anything else. *)
Inductive exn := XBadCast (what : str) | XStd (what : str) | XOther.

(** ** User code
    A user's function does some operations and then returns or throws.  It is an
    arbitrary function of the arguments and of everything that happened before.
    Functions calling back into the session object: ReentModel.v. *)
Inductive op :=
| OOut (s : str) | OBroadcast (s : str)
| OEnable (id : nat) | ODisable (id : nat) | ORemove (id : nat) | OInsert (pid : nat) (c : cmd).
Inductive uend := UReturn | UThrow (x : exn).
Record uresult := mkURes { ur_ops : list op; ur_end : uend }.

(** The environment: platform, conversions, user code, which hooks are non-empty
    functions (cli.h:146-177, 349-357; the hooks are not changed while running). *)
Record env := mkEnv {
  e_plat : platform;
  e_real : realtype -> str -> option (Z * nat);
  e_custom : nat -> str -> option (Z * str);
  e_handler : nat -> nat -> list value -> list event -> uresult;
  e_hook : nat -> hook -> list str -> list event -> uresult;
  e_has : hook -> bool
}.

(** ** History storage (historystorage.h, either implementation) *)
Inductive storage := StVolatile (max : nat) (cmds : list str) | StFile (max : nat) (f : file).
Definition st_commands (s : storage) : list str :=
  match s with StVolatile _ l => v_commands l | StFile _ f => f_commands f end.
Definition st_store (s : storage) (cmds : list str) : storage :=
  match s with
  | StVolatile max l => StVolatile max (v_store max l cmds)
  | StFile max f => StFile max (f_store max f cmds)
  end.

(** ** State: the [Cli] object (root menu, storage; [w_next] is the next free id),
    one [CliSession] (cli.h:382-390) and the events so far. *)
Record world := mkWorld {
  w_root : cmd;
  w_next : nat;
  w_store : storage;
  w_sid : nat;
  w_cur : nat;
  w_hist : history;
  w_exit : bool;
  w_trace : list event
}.

Definition set_root (r : cmd) (n : nat) (w : world) : world :=
  mkWorld r n (w_store w) (w_sid w) (w_cur w) (w_hist w) (w_exit w) (w_trace w).
Definition set_store (st : storage) (w : world) : world :=
  mkWorld (w_root w) (w_next w) st (w_sid w) (w_cur w) (w_hist w) (w_exit w) (w_trace w).
(** cli.h:324 [Current] *)
Definition set_cur (id : nat) (w : world) : world :=
  mkWorld (w_root w) (w_next w) (w_store w) (w_sid w) id (w_hist w) (w_exit w) (w_trace w).
Definition set_hist (h : history) (w : world) : world :=
  mkWorld (w_root w) (w_next w) (w_store w) (w_sid w) (w_cur w) h (w_exit w) (w_trace w).
Definition set_exit (b : bool) (w : world) : world :=
  mkWorld (w_root w) (w_next w) (w_store w) (w_sid w) (w_cur w) (w_hist w) b (w_trace w).
Definition log (e : event) (w : world) : world :=
  mkWorld (w_root w) (w_next w) (w_store w) (w_sid w) (w_cur w) (w_hist w) (w_exit w) (w_trace w ++ [e]).
Definition out (s : str) (w : world) : world := log (EvOut (w_sid w) s) w.

(** One operation of user code.  A command inserted into a menu that no longer
    exists is dropped (the user's pointer to the menu would dangle). *)
Definition apply_op (w : world) (o : op) : world :=
  match o with
  | OOut s => out s w
  | OBroadcast s => log (EvBroadcast s) w
  | OEnable id => set_root (set_enabled id true (w_root w)) (w_next w) w
  | ODisable id => set_root (set_enabled id false (w_root w)) (w_next w) w
  | ORemove id => set_root (remove_cmd id (w_root w)) (w_next w) w
  | OInsert pid c =>
      let (c', n) := relabel (w_next w) c in
      log (EvInsert pid (w_next w)) (set_root (insert_cmd pid c' (w_root w)) n w)
  end.
Definition apply_ops (os : list op) (w : world) : world := fold_left apply_op os w.

Definition is_tree_op (o : op) : bool :=
  match o with OOut _ | OBroadcast _ => false | _ => true end.

(** Outcomes of running code: normal, exception, undefined behaviour, recursion
    deeper than the fuel. *)
Inductive hres := HOk (w : world) | HExc (x : exn) (w : world) | HUB | HFuel.
(** Outcomes of [Exec]: the returned boolean. *)
Inductive eres := EDone (found : bool) (w : world) | EExc (x : exn) (w : world) | EUB | EFuel.
(** Outcomes of [Feed]. *)
Inductive fres := FOk (w : world) | FExc (x : exn) (w : world) | FUB | FFuel.

Definition h_bind (r : hres) (f : world -> hres) : hres :=
  match r with HOk w => f w | HExc x w => HExc x w | HUB => HUB | HFuel => HFuel end.
Definition e_bind (r : eres) (f : world -> eres) : eres :=   (* continue if not found *)
  match r with EDone false w => f w | _ => r end.

Section Run.
Context (E : env).

(** A hook that is set. *)
Definition run_hook (k : hook) (args : list str) (w : world) : hres :=
  let w1 := log (EvHook (w_sid w) k args) w in
  let r := e_hook E (w_sid w1) k args (w_trace w1) in
  let w2 := apply_ops (ur_ops r) w1 in
  match ur_end r with UReturn => HOk w2 | UThrow x => HExc x w2 end.

(** ** Parameter conversion: [from_string] (fromstring.h) for each type *)
Definition cmap {A B} (f : A -> B) (x : conv A) : conv B := cbind x (fun a => COk (f a)).
Definition convert (p : ptype) (s : str) : conv value :=
  match p with
  | PInt t => cmap VInt (int_from_string (e_plat E) t s)
  | PBool => cmap VBool (bool_from_string (e_plat E) s)
  | PChar => cmap VChar (char_from_string s)
  | PString => cmap VStr (string_from_string s)
  | PReal r => cmap VReal (float_from_string (e_plat E) (e_real E r) s)
  | PCustom n _ => cmap VCustom (custom_from_string (e_custom E n) s)
  end.

(** cli.h:705-736 [Select::Exec]: converts left to right; the lengths agree by the
    check on cli.h:781. *)
Fixpoint convert_all (ps : list ptype) (ss : list str) : conv (list value) :=
  match ps, ss with
  | p :: ps', s :: ss' => cbind (convert p s) (fun v => cmap (cons v) (convert_all ps' ss'))
  | _, _ => COk []
  end.

(** Calling a user's command function. *)
Definition call_user (n : nat) (args : list value) (w : world) : uresult * world :=
  let w1 := log (EvCall (w_sid w) n args) w in
  let r := e_handler E (w_sid w1) n args (w_trace w1) in
  (r, apply_ops (ur_ops r) w1).

Section Exec.
(** The functions of the global menu. *)
Context (builtin : hid -> list value -> world -> hres).

(** cli.h:784-793: runs the function; an escaping [std::bad_cast] makes [Exec]
    return false, and the loops over the commands go on: if the user's function
    changed a menu meanwhile, their iterators may be invalid (undefined behaviour).
    Changes of any menu, and of enabled flags, are counted here; LiveModel.v follows the
    loops one by one. *)
Definition run_fn (h : hid) (args : list value) (w : world) : eres :=
  match h with
  | HUser n =>
      let (r, w') := call_user n args w in
      match ur_end r with
      | UReturn => EDone true w'
      | UThrow (XBadCast _) => if existsb is_tree_op (ur_ops r) then EUB else EDone false w'
      | UThrow x => EExc x w'
      end
  | _ =>
      match builtin h args w with
      | HOk w' => EDone true w'
      | HExc (XBadCast _) w' => EDone false w'
      | HExc x w' => EExc x w'
      | HUB => EUB
      | HFuel => EFuel
      end
  end.
(** cli.h:841-842: no exception is caught. *)
Definition run_free (h : hid) (args : list str) (w : world) : eres :=
  match h with
  | HUser n =>
      let (r, w') := call_user n [VList args] w in
      match ur_end r with UReturn => EDone true w' | UThrow x => EExc x w' end
  | _ => EUB (* the global menu has no such command *)
  end.

(** [Exec] of a command that is not a menu: cli.h:777-796, 835-845.  [cmdLine[0]] of
    an empty line is undefined behaviour. *)
Definition exec_leaf (c : cmd) (toks : list str) (w : world) : eres :=
  match c with
  | CFn _ name en _ pars _ h =>
      if negb en then EDone false w
      else if negb (Nat.eqb (length toks) (length pars + 1)) then EDone false w
      else match toks with
           | [] => EUB
           | t :: args =>
               if str_eqb name t then
                 match convert_all pars args with
                 | COk vs => run_fn h vs w
                 | CBad => EDone false w
                 | CUB => EUB
                 end
               else EDone false w
           end
  | CFree _ name en _ _ h =>
      if negb en then EDone false w
      else match toks with
           | [] => EUB
           | t :: args => if str_eqb name t then run_free h args w else EDone false w
           end
  | CMenu _ _ _ _ _ _ => EDone false w
  end.

(** [for (auto& cmd: *cmds) if (cmd->Exec(...)) return true;] *)
Fixpoint try_all (f : cmd -> world -> eres) (l : list cmd) (w : world) : eres :=
  match l with
  | [] => EDone false w
  | k :: l' => e_bind (f k w) (try_all f l')
  end.

(** cli.h:654-678 [HandleCommand] on the menu at the head of [ctx] (followed by its
    ancestors); [up]: called through [ExecParent] (cli.h:504-507), otherwise through
    [Exec] (cli.h:499-502). *)
Fixpoint handle (toks : list str) (up : bool) (ctx : list cmd) (w : world) {struct toks} : eres :=
  match ctx with
  | CMenu id name en _ _ kids :: anc =>
      if negb en then EDone false w
      else match toks with
           | [] => EUB
           | t :: rest =>
               if str_eqb name t || (up && str_eqb (lit "..") t) then
                 match rest with
                 | [] => EDone true (set_cur id w)
                 | _ =>
                     e_bind
                       (try_all (fun k w1 =>
                          match k with
                          | CMenu _ _ _ _ _ _ => handle rest false (k :: ctx) w1
                          | _ => exec_leaf k rest w1
                          end) kids w)
                       (fun w1 => match anc with [] => EDone false w1 | _ => handle rest true anc w1 end)
                 end
               else EDone false w
           end
  | _ => EDone false w
  end.

(** [Exec] of any command of the menu [ctx]. *)
Definition exec (toks : list str) (ctx : list cmd) (k : cmd) (w : world) : eres :=
  match k with
  | CMenu _ _ _ _ _ _ => handle toks false (k :: ctx) w
  | _ => exec_leaf k toks w
  end.

(** cli.h:509-518 [ScanCmds] of the menu at the head of [ctx] *)
Definition scan (toks : list str) (ctx : list cmd) (w : world) : eres :=
  match ctx with
  | [] => EDone false w
  | m :: anc =>
      if negb (cmd_en m) then EDone false w
      else e_bind (try_all (exec toks ctx) (cmd_kids m) w)
             (fun w1 => match anc with [] => EDone false w1 | _ => handle toks true anc w1 end)
  end.
End Exec.

(** ** The functions of the global menu *)

(** cli.h:953-958 [Help]; [None]: the current menu is gone. *)
Definition help_text (w : world) : option str :=
  match locate (w_cur w) [] (w_root w) with
  | None => None
  | Some ctx => Some (lit "Commands available:" ++ nl ++ main_help [global_menu] ++ main_help ctx)
  end.

(** cli.h:338-347 [Exit].  The session's actions initially are functions doing
    nothing (cli.h:387-388), but they can be set to empty ones (cli.h:349-357, as the
    telnet server does, genericasioremotecli.h:576-584): calling an empty [exitAction]
    throws [std::bad_function_call]; an empty global one is skipped (cli.h:206-210). *)
Definition bad_function_call : exn := XStd (lit "bad_function_call").
Definition session_exit (w : world) : hres :=
  h_bind (if e_has E KSesExit then run_hook KSesExit [] w else HExc bad_function_call w) (fun w1 =>
  h_bind (if e_has E KCliExit then run_hook KCliExit [] w1 else HOk w1) (fun w2 =>
  match get_commands (w_hist w2) with
  | None => HUB
  | Some cmds => HOk (set_exit true (set_store (st_store (w_store w2) cmds) w2))
  end)).

(** cli.h:330-336 [Enter] (both actions optional, cli.h:200-204) *)
Definition session_enter (w : world) : hres :=
  h_bind (if e_has E KCliEnter then run_hook KCliEnter [] w else HOk w) (fun w1 =>
  if e_has E KSesEnter then run_hook KSesEnter [] w1 else HOk w1).

Definition out_of_range : exn := XStd (lit "Index not found in history").

(** cli.h:892-907 the four functions; [rec] is [Feed] for [ExecFromHistory]
    (cli.h:361-366). *)
Definition builtin (rec : str -> world -> fres) (h : hid) (args : list value) (w : world) : hres :=
  match h, args with
  | HHelp, _ => match help_text w with None => HUB | Some s => HOk (out s w) end
  | HExit, _ => session_exit w
  | HHistory, _ => match show (w_hist w) with None => HExc out_of_range w | Some s => HOk (out s w) end
  | HBang, [VInt n] =>
      match forget_latest (w_hist w) with
      | None => HUB
      | Some h' =>
          let w1 := set_hist h' w in
          match at_id h' n with
          | AtUB => HUB
          | AtExc => HExc out_of_range w1
          | AtOk line =>
              match rec line w1 with
              | FOk w2 => HOk w2
              | FExc x w2 => HExc x w2
              | FUB => HUB
              | FFuel => HFuel
              end
          end
      end
  | _, _ => HUB
  end.

(** cli.h:220-226 [WrongCommandHandler] *)
Definition wrong_command (line : str) (w : world) : hres :=
  if e_has E KWrong then run_hook KWrong [line] w
  else HOk (out (lit "wrong command: " ++ line ++ nl) w).
(** cli.h:212-218 [StdExceptionHandler] *)
Definition std_exception (line what : str) (w : world) : hres :=
  if e_has E KExcept then run_hook KExcept [line; what] w
  else HOk (out (what ++ nl) w).

(** The commands of the user's menus only have user functions. *)
Definition no_builtin (h : hid) (args : list value) (w : world) : hres := HUB.

(** cli.h:923-929 the body of the try block of [Feed] *)
Definition dispatch (bi : hid -> list value -> world -> hres) (toks : list str) (line : str) (w : world) : eres :=
  e_bind (scan bi toks [global_menu] w) (fun w1 =>
  match locate (w_cur w1) [] (w_root w1) with
  | None => EUB
  | Some ctx =>
      e_bind (scan no_builtin toks ctx w1) (fun w2 =>
      match wrong_command line w2 with
      | HOk w3 => EDone false w3
      | HExc x w3 => EExc x w3
      | HUB => EUB
      | HFuel => EFuel
      end)
  end).

Definition hres_fres (r : hres) : fres :=
  match r with HOk w => FOk w | HExc x w => FExc x w | HUB => FUB | HFuel => FFuel end.

(** cli.h:912-941 [Feed] *)
Definition feed_body (rec : str -> world -> fres) (line : str) (w : world) : fres :=
  match split line with
  | None => FUB
  | Some [] => FOk w
  | Some toks =>
      match new_command (w_hist w) line with
      | None => FUB
      | Some h =>
          match dispatch (builtin rec) toks line (set_hist h w) with
          | EDone _ w' => FOk w'
          | EExc (XBadCast what) w' | EExc (XStd what) w' => hres_fres (std_exception line what w')
          | EExc XOther w' =>
              FOk (out (lit "Cli. Unknown exception caught handling command line """ ++ line
                        ++ lit """" ++ nl) w')
          | EUB => FUB
          | EFuel => FFuel
          end
      end
  end.

(** The recursion of [Feed] through [!]: [FFuel] when it is deeper than [fuel]. *)
Fixpoint feed (fuel : nat) (line : str) (w : world) : fres :=
  match fuel with
  | O => FFuel
  | S n => feed_body (feed n) line w
  end.

End Run.

(** cli.h:943-951 [Prompt]: the bytes written and the colour state of the stream
    (TerminalModel.v); [None]: the current menu is gone. *)
Definition prompt_text (w : world) : option str :=
  match locate (w_cur w) [] (w_root w) with
  | Some (CMenu _ _ _ _ p _ :: _) => Some p
  | _ => None
  end.
Definition prompt (tty color force : bool) (w : world) : option (str * bool) :=
  if w_exit w then Some ([], force)
  else match prompt_text w with
       | None => None
       | Some p => let (b, force') := before_prompt color force in
                   Some (b ++ p ++ after_prompt tty force' ++ lit "> ", force')
       end.

(** cli.h:368-376 [PreviousCmd], [NextCmd] *)
Definition previous_cmd (line : str) (w : world) : option (str * world) :=
  match previous (w_hist w) line with None => None | Some (s, h) => Some (s, set_hist h w) end.
Definition next_cmd (w : world) : option (str * world) :=
  match next (w_hist w) with None => None | Some (s, h) => Some (s, set_hist h w) end.

(** cli.h:879-910 the constructor of [CliSession] *)
Definition open_session (sid size : nat) (root : cmd) (nxt : nat) (st : storage) (tr : list event) : world :=
  mkWorld root nxt st sid (cmd_id root) (load_commands (history_init size) (st_commands st)) false tr.
