(** * Model of the example program pluginmanager.cpp
    Source: /repo/examples/pluginmanager.cpp.  Numbers of commands (ids) and functions are arbitrary.
    The session is given whole lines; what the terminal echoes while they are typed is left out
    (ProcessorModel.v). *)

From Verif Require Import Base FromStringModel HistoryModel StorageModel CompletionModel TerminalModel MenuModel SessionModel ExampleModel CompleteModel.
Open Scope nat_scope.
Open Scope list_scope.

(** ** Plugins
    127-151 both plugins are registered before [main], in an order the language leaves open
    ([arith_first]); here after the registry was constructed (90). *)
Definition pm_plugins (arith_first : bool) : list str :=
  if arith_first then [lit "arithmetic"; lit "strings"] else [lit "strings"; lit "arithmetic"].
(** 165-191, 209-241: the menu of a plugin *)
Definition pm_menu (name : str) : cmd :=
  make_menu 0 name (lit "Enter the " ++ name ++ lit " plugin menu") []
    (if str_eqb name (lit "arithmetic") then
       [CFn 0 (lit "add") true (lit "Print the sum of the two numbers") [PInt Int; PInt Int] [lit "first_term"; lit "second_term"] (HUser 6);
        CFn 0 (lit "add") true (lit "Print the sum of the three numbers") [PInt Int; PInt Int; PInt Int] [] (HUser 7);
        CFn 0 (lit "sub") true (lit "Print the result of a subtraction") [PInt Int; PInt Int] [lit "subtrahend"; lit "minuend"] (HUser 8)]
     else
       [CFn 0 (lit "reverse") true (lit "Print the reverse string") [PString] [lit "string_to_revert"] (HUser 9);
        CFn 0 (lit "upper") true (lit "Print the string in uppercase") [PString] [] (HUser 10);
        CFree 0 (lit "sort") true (lit "Alphabetically sort a list of words") [lit "list of strings separated by space"] (HUser 11)]).
(** 92-125 the [PluginContainer]: the plugins loaded, oldest first, with the numbers of their menus;
    read off the events so far: the calls of [load] (function 2) and [unload] (3) and the
    insertions. *)
Definition pm_event (s : option str * list (str * nat)) (e : event) : option str * list (str * nat) :=
  match e, s with
  | EvCall _ 2 [VStr p], (_, l) => (Some p, l)
  | EvCall _ 3 [VStr p], (_, l) => (None, filter (fun x => negb (str_eqb (fst x) p)) l)
  | EvCall _ _ _, (_, l) => (None, l)
  | EvInsert _ id, (Some p, l) => (None, l ++ [(p, id)])
  | _, _ => s
  end.
Definition pm_loaded (tr : list event) : list (str * nat) := snd (fold_left pm_event tr (None, [])).
(** 59-60: a plugin's constructor and destructor print on [std::cout], the stream of the session. *)
Definition pm_hail (p : str) : str := lit "Plugin " ++ p ++ lit " loaded" ++ nl.
Definition pm_part (p : str) : str := lit "Plugin " ++ p ++ lit " unloaded" ++ nl.

(** 262-308 the main menu *)
Definition pm_root : cmd :=
  make_menu 10 (lit "cli") (lit "(menu)") [] [
    CFn 11 (lit "list") true (lit "Print the plugin list") [] [] (HUser 0);
    CFn 12 (lit "loaded") true (lit "Load the plugin specified") [] [] (HUser 1);
    CFn 13 (lit "load") true (lit "Load the plugin specified") [PString] [lit "plugin_name"] (HUser 2);
    CFn 14 (lit "unload") true (lit "Unload the plugin specified") [PString] [lit "plugin_name"] (HUser 3);
    CFn 15 (lit "color") true (lit "Enable colors in the cli") [] [] (HUser 4);
    CFn 16 (lit "nocolor") true (lit "Disable colors in the cli") [] [] (HUser 5) ].
Definition pm_names (l : list str) : list op := map (fun p => OOut (lit " - " ++ p ++ nl)) l.
(** [::toupper] in the "C" locale *)
Definition upper_char (c : ascii) : ascii :=
  let n := N_of_ascii c in if ((97 <=? n) && (n <=? 122))%N then ascii_of_N (n - 32) else c.

Section Plugins.
Context (P : platform) (arith_first : bool).
(** ** The functions
    [tr]: the events before the call, and the call.
    - [load] (97-102, 78-84): the first plugin registered with that name, if any, is created: it says so (59) and
      inserts its menu (190, 240);
    - [unload] (103-113): [remove_if] and [erase] destroy the plugins with that name, oldest first; each removes
      its menu (194, 244), then says so (60);
    - sums and differences (172, 179, 186) are unbounded here; see [pm_undefined]. *)
Definition pm_handler (sid h : nat) (args : list value) (tr : list event) : uresult :=
  let say l := mkURes (map OOut l) UReturn in
  match h, args with
  | 0, _ => mkURes (pm_names (pm_plugins arith_first)) UReturn
  | 1, _ => mkURes (pm_names (map fst (pm_loaded tr))) UReturn
  | 2, [VStr p] => mkURes (if existsb (str_eqb p) (pm_plugins arith_first) then [OOut (pm_hail p); OInsert 10 (pm_menu p)] else []) UReturn
  | 3, [VStr p] =>
      mkURes (flat_map (fun x => [ORemove (snd x); OOut (pm_part p)])
        (filter (fun x => str_eqb (fst x) p) (pm_loaded (removelast tr)))) UReturn
  | 4, _ => mkURes [OOut (lit "Colors ON" ++ nl); ODisable 15; OEnable 16] UReturn
  | 5, _ => mkURes [OOut (lit "Colors OFF" ++ nl); OEnable 15; ODisable 16] UReturn
  | 6, [VInt x; VInt y] => say [print_int x; lit " + "; print_int y; lit " = "; print_int (x + y); nl]
  | 7, [VInt x; VInt y; VInt z] =>
      say [print_int x; lit " + "; print_int y; lit " + "; print_int z; lit " = "; print_int (x + y + z); nl]
  | 8, [VInt x; VInt y] => say [print_int x; lit " - "; print_int y; lit " = "; print_int (x - y); nl]
  | 9, [VStr a] => say [rev a; nl]
  | 10, [VStr a] => say [map upper_char a; nl]
  | 11, [VList l] => say ([lit "sorted list: "] ++ map (fun s => s ++ lit " ") (sort l) ++ [nl])
  | _, _ => mkURes [] UReturn
  end.
(** An [int] that overflows is undefined behaviour, and so is [::toupper] (226) of a negative [char]
    other than [EOF]. *)
Definition pm_undefined (e : event) : bool :=
  match e with
  | EvCall _ 6 [VInt x; VInt y] => negb (is_int (x + y))
  | EvCall _ 7 [VInt x; VInt y; VInt z] => negb (is_int (x + y) && is_int (x + y + z))
  | EvCall _ 8 [VInt x; VInt y] => negb (is_int (x - y))
  | EvCall _ 10 [VStr a] => negb (forallb (ctype_ok P) a)
  | _ => false
  end.
(** 294, 304 [SetColor] and [SetNoColor] *)
Definition pm_color (tr : list event) : bool :=
  fold_left (fun b e => match e with EvCall _ 4 _ => true | EvCall _ 5 _ => false | _ => b end) tr false.

(** 313, 317-323: the exit actions; nothing else is set. *)
Definition pm_hook (sid : nat) (k : hook) (args : list str) (tr : list event) : uresult :=
  let say l := mkURes (map OOut l) UReturn in
  match k with
  | KCliExit => say [lit "Goodbye and thanks for all the fish." ++ nl]
  | KSesExit => say [lit "Closing App..." ++ nl]
  | _ => mkURes [] UReturn
  end.
Definition pm_env : env :=
  mkEnv P (fun _ _ => None) (fun _ _ => None) pm_handler pm_hook (fun k => match k with KCliExit | KSesExit => true | _ => false end).
(** 311, 316: the session has a history of 200 commands, the [Cli] its default storage (cli.h:139). *)
Definition pm_open : world := open_session 0 200 pm_root 17 (StVolatile 1000 []) [].

(** ** The program
    The prompt, and then for each line what its command prints and the prompt again.  [PDone]: the exit action stops
    the scheduler (321), [main] returns, and the [PluginContainer], a static object, is destroyed (125) with the plugins
    still loaded, oldest first (libstdc++); their menus are gone then, so that [Remove] does nothing (cli.h:423-437).  [tty]:
    [std::cout] is a terminal; [codes]: the [iword] of the stream (TerminalModel.v). *)
Inductive pres := PGo (w : world) (codes : bool) | PDone | PUB | PExc | PFuel.
Definition pm_text (evs : list event) : str := flat_map (fun e => match e with EvOut _ s => s | _ => [] end) evs.
Definition pm_prompt (tty : bool) (codes : bool) (text : str) (w : world) : str * pres :=
  match prompt tty (pm_color (w_trace w)) codes w with
  | Some (p, codes') => (text ++ p, PGo w codes')
  | None => ([], PUB)
  end.
Definition pm_line (tty : bool) (fuel : nat) (line : str) (codes : bool) (w : world) : str * pres :=
  match feed pm_env fuel line w with
  | FOk w' =>
      let evs := skipn (length (w_trace w)) (w_trace w') in
      if existsb pm_undefined evs then ([], PUB)
      else if w_exit w' then (pm_text evs ++ concat (map (fun x => pm_part (fst x)) (pm_loaded (w_trace w'))), PDone)
      else pm_prompt tty codes (pm_text evs) w'
  | FExc _ _ => ([], PExc)
  | FUB => ([], PUB)
  | FFuel => ([], PFuel)
  end.
Fixpoint pm_lines (tty : bool) (fuel : nat) (ls : list str) (r : pres) : list str * pres :=
  match ls, r with
  | line :: ls', PGo w codes =>
      let (t, r1) := pm_line tty fuel line codes w in
      let (l, r2) := pm_lines tty fuel ls' r1 in (t :: l, r2)
  | _, _ => ([], r)
  end.
Definition pm_main (tty : bool) (fuel : nat) (ls : list str) : list str * pres :=
  let (t, r) := pm_prompt tty false [] pm_open in
  let (l, r') := pm_lines tty fuel ls r in (t :: l, r').
End Plugins.
