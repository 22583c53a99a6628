(** * Model of the example program complete.cpp
    Source: /repo/examples/complete.cpp.  A [Cli] with a local session (number 0) and the sessions of
    a telnet server (1, 2, ...) which share it; one thread runs them all (284).  Here sessions
    are given whole lines, in any order: keys, prompts, echo and the network are in
    ProcessorModel.v, ServerModel.v and WireModel.v. *)

From Verif Require Import Base FromStringModel HistoryModel StorageModel CompletionModel TerminalModel MenuModel SessionModel ExampleModel.
Open Scope nat_scope.
Open Scope list_scope.

(** ** The menus (99-238).  Numbers of commands and functions are arbitrary. *)
Definition cx_subsub : cmd :=
  make_menu 31 (lit "subsub") (lit "Enter a submenu of second level") [] [
    CFn 32 (lit "hello") true (lit "Print hello world in the sub-submenu") [] [] (HUser 19) ].
Definition cx_sub : cmd :=
  make_menu 28 (lit "sub") (lit "Enter a submenu") (lit "submenu") [
    CFn 29 (lit "hello") true (lit "Print hello world in the submenu") [] [] (HUser 17);
    CFn 30 (lit "demo") true (lit "Print a demo string") [] [] (HUser 18);
    cx_subsub ].
(** 207: [nocolor] is disabled at first. *)
Definition cx_root : cmd :=
  make_menu 10 (lit "cli") (lit "(menu)") [] [
    CFn 11 (lit "free_function") true (lit "Call a free function that echoes the parameter passed") [PInt Int] [] (HUser 0);
    CFn 12 (lit "hello") true (lit "Print hello world") [] [] (HUser 1);
    CFn 13 (lit "hello_everysession") true (lit "Print hello everybody on all open sessions") [] [] (HUser 2);
    CFn 14 (lit "answer") true (lit "Print the answer to Life, the Universe and Everything") [PInt Int] [] (HUser 3);
    CFn 15 (lit "file") true (lit "Print the file descriptor specified") [PInt Int] [lit "file_descriptor"] (HUser 4);
    CFn 16 (lit "echo") true (lit "Print the string passed as parameter") [PString] [lit "string to echo"] (HUser 5);
    CFn 17 (lit "echo") true (lit "Print the strings passed as parameter") [PString; PString]
      [lit "first string to echo"; lit "second string to echo"] (HUser 6);
    CFn 18 (lit "error") true (lit "Throw an exception in the command handler") [] [] (HUser 7);
    CFn 19 (lit "reverse") true (lit "Print the reverse string") [PString] [lit "string_to_revert"] (HUser 8);
    CFn 20 (lit "add") true (lit "Print the sum of the two numbers") [PInt Int; PInt Int] [lit "first_term"; lit "second_term"] (HUser 9);
    CFn 21 (lit "add") true (lit "Print the sum of the three numbers") [PInt Int; PInt Int; PInt Int] [] (HUser 10);
    CFree 22 (lit "sort") true (lit "Alphabetically sort a list of words") [lit "list of strings separated by space"] (HUser 11);
    CFn 23 (lit "bar") true (lit "Custom type") [PCustom 0 (lit "<bar>")] [] (HUser 12);
    CFn 24 (lit "complex") true (lit "Print a complex number") [PCustom 1 (lit "<complex>")] [] (HUser 13);
    CFn 25 (lit "color") true (lit "Enable colors in the cli") [] [] (HUser 14);
    CFn 26 (lit "nocolor") false (lit "Disable colors in the cli") [] [] (HUser 15);
    CFn 27 (lit "removecmds") true (lit "Remove both color and nocolor commands from the menu") [] [] (HUser 16);
    cx_sub ].

(** ** The parameter types
    [in >> p.value] (77-81) of an [int] in the "C" locale: white space is skipped, then a sign and the
    digits are read; a number that is missing or out of range sets failbit. *)
Fixpoint skip_space (s : str) : str :=
  match s with [] => [] | c :: s' => if space_code c then skip_space s' else s end.
Definition digit_of (c : ascii) : option Z :=
  let n := Z.of_N (N_of_ascii c) in if ((48 <=? n) && (n <=? 57))%Z then Some (n - 48)%Z else None.
Fixpoint read_digits (acc : Z) (s : str) : Z * str :=
  match s with
  | [] => (acc, [])
  | c :: s' => match digit_of c with Some d => read_digits (10 * acc + d)%Z s' | None => (acc, s) end
  end.
Definition is_int (z : Z) : bool := ((-2147483648 <=? z) && (z <=? 2147483647))%Z.
Definition read_sign (s : str) : bool * str :=
  match s with
  | c :: r => if Ascii.eqb c "-" then (true, r) else if Ascii.eqb c "+" then (false, r) else (false, s)
  | [] => (false, [])
  end.
Definition bar_read (s : str) : option (Z * str) :=
  let (neg, s1) := read_sign (skip_space s) in
  match s1 with
  | c :: _ =>
      match digit_of c with
      | None => None
      | Some _ => let (n, rest) := read_digits 0 s1 in
                  let v := (if neg then - n else n)%Z in
                  if is_int v then Some (v, rest) else None
      end
  | [] => None
  end.

Section Complete.
(** [P]: the platform.  Reading and printing of [std::complex<double>] are left to the standard
    library: [rc] and [pc]. *)
Context (P : platform) (rc : str -> option (Z * str)) (pc : Z -> str).

(** ** The functions (67, 107-214, 224-235).  Sums are unbounded here; see [overflows]. *)
Definition cx_handler (sid h : nat) (args : list value) (tr : list event) : uresult :=
  let say l := mkURes (map OOut l) UReturn in
  match h, args with
  | 0, [VInt x] => say [print_int x; nl]
  | 1, _ => say [lit "Hello, world" ++ nl]
  | 2, _ => mkURes [OBroadcast (lit "Hello, everybody" ++ nl)] UReturn
  | 3, [VInt x] => say [lit "The answer is: "; print_int x; nl]
  | 4, [VInt x] => say [lit "file descriptor: "; print_int x; nl]
  | 5, [VStr a] => say [a; nl]
  | 6, [VStr a; VStr b] => say [a; lit " "; b; nl]
  | 7, _ => mkURes [] (UThrow (XStd (lit "Error in cmd")))
  | 8, [VStr a] => say [rev a; nl]
  | 9, [VInt x; VInt y] => say [print_int x; lit " + "; print_int y; lit " = "; print_int (x + y); nl]
  | 10, [VInt x; VInt y; VInt z] =>
      say [print_int x; lit " + "; print_int y; lit " + "; print_int z; lit " = "; print_int (x + y + z); nl]
  | 11, [VList l] => say ([lit "sorted list: "] ++ map (fun s => s ++ lit " ") (sort l) ++ [nl])
  | 12, [VCustom v] => say [lit "You entered bar: "; print_int v; nl]
  | 13, [VCustom v] => say [lit "You entered complex : "; pc v; nl]
  | 14, _ => mkURes [OOut (lit "Colors ON" ++ nl); ODisable 25; OEnable 26] UReturn
  | 15, _ => mkURes [OOut (lit "Colors OFF" ++ nl); OEnable 25; ODisable 26] UReturn
  | 16, _ => mkURes [ORemove 25; ORemove 26] UReturn
  | 17, _ => say [lit "Hello, submenu world" ++ nl]
  | 18, _ => say [lit "This is a sample!" ++ nl]
  | 19, _ => say [lit "Hello, subsubmenu world" ++ nl]
  | _, _ => mkURes [] UReturn
  end.
(** [x+y], [x+y+z] (159, 166): an [int] that overflows is undefined behaviour. *)
Definition overflows (e : event) : bool :=
  match e with
  | EvCall _ 9 [VInt x; VInt y] => negb (is_int (x + y))
  | EvCall _ 10 [VInt x; VInt y; VInt z] => negb (is_int (x + y) && is_int (x + y + z))
  | _ => false
  end.
(** 192, 202 [SetColor] and [SetNoColor] *)
Definition cx_color (tr : list event) : bool :=
  fold_left (fun b e => match e with EvCall _ 14 _ => true | EvCall _ 15 _ => false | _ => b end) tr false.

(** 246-266, 270-276, 282: actions and handlers.  The exit action of a telnet session then closes its
    socket (ServerModel.v). *)
Definition cx_hook (sid : nat) (k : hook) (args : list str) (tr : list event) : uresult :=
  let say l := mkURes (map OOut l) UReturn in
  match k, args with
  | KCliExit, _ => say [lit "Goodbye and thanks for all the fish." ++ nl]
  | KExcept, [cmd; what] => say [lit "Exception caught in CLI handler: "; what; lit " while handling command: "; cmd; lit "." ++ nl]
  | KWrong, [cmd] => say [lit "Unknown command or incorrect parameters: "; cmd; lit "." ++ nl]
  | KSesExit, _ => say [if Nat.eqb sid 0 then lit "Closing App..." ++ nl else lit "Terminating this session..." ++ nl]
  | _, _ => mkURes [] UReturn
  end.
Definition cx_env : env :=
  mkEnv P (fun _ _ => None) (fun n => match n with 0 => bar_read | _ => rc end) cx_handler cx_hook
    (fun k => match k with KCliEnter | KSesEnter => false | _ => true end).

(** ** The program.  244: the storage keeps 1000 commands (filehistorystorage.h:43); 269: the local
    session's history has 200 entries, those of telnet sessions 100 (genericasioremotecli.h:554).
    The exit action of the local session stops the scheduler (274): nothing runs any more. *)
Record sess := mkSess { n_cur : nat; n_hist : history }.
Record prog := mkApp {
  a_root : cmd; a_next : nat; a_store : storage; a_trace : list event;
  a_ses : nat -> option sess; a_count : nat; a_stopped : bool }.
Definition cx_start (f : file) : prog := mkApp cx_root 33 (StFile 1000 f) [] (fun _ => None) 0 false.
Definition size_of (sid : nat) : nat := if Nat.eqb sid 0 then 200 else 100.

(** The next session is opened; a line is given to a session; a session is lost (its connection). *)
Inductive act := AOpen | ALine (sid : nat) (line : str) | ALost (sid : nat).
Inductive ares := AOk (a : prog) | AExc | AUB | AFuel.
Definition put_ses (sid : nat) (s : option sess) (f : nat -> option sess) : nat -> option sess :=
  fun i => if Nat.eqb i sid then s else f i.
Definition world_of (a : prog) (sid : nat) (s : sess) : world :=
  mkWorld (a_root a) (a_next a) (a_store a) sid (n_cur s) (n_hist s) false (a_trace a).
Definition after (a : prog) (w : world) : prog :=
  mkApp (w_root w) (w_next w) (w_store w) (w_trace w)
    (put_ses (w_sid w) (if w_exit w then None else Some (mkSess (w_cur w) (w_hist w))) (a_ses a))
    (a_count a) (a_stopped a || w_exit w && Nat.eqb (w_sid w) 0).
Definition app_step (fuel : nat) (x : act) (a : prog) : ares :=
  if a_stopped a then AOk a else
  match x with
  | AOpen =>
      let sid := a_count a in
      match session_enter cx_env (open_session sid (size_of sid) (a_root a) (a_next a) (a_store a) (a_trace a)) with
      | HOk w =>
          AOk (mkApp (w_root w) (w_next w) (w_store w) (w_trace w) (put_ses sid (Some (mkSess (w_cur w) (w_hist w))) (a_ses a)) (S sid) false)
      | HExc _ _ => AExc
      | HUB => AUB
      | HFuel => AFuel
      end
  | ALine sid line =>
      match a_ses a sid with
      | None => AOk a
      | Some s =>
          match feed cx_env fuel line (world_of a sid s) with
          | FOk w => if existsb overflows (skipn (length (a_trace a)) (w_trace w)) then AUB else AOk (after a w)
          | FExc _ _ => AExc
          | FUB => AUB
          | FFuel => AFuel
          end
      end
  | ALost sid =>
      AOk (mkApp (a_root a) (a_next a) (a_store a) (a_trace a) (put_ses sid None (a_ses a)) (a_count a) false)
  end.

(** A run: the events of each step, and how it ended. *)
Fixpoint app_run (fuel : nat) (xs : list act) (a : prog) : list (list event) * ares :=
  match xs with
  | [] => ([], AOk a)
  | x :: xs' =>
      match app_step fuel x a with
      | AOk a' => let (l, r) := app_run fuel xs' a' in (skipn (length (a_trace a)) (a_trace a') :: l, r)
      | r => ([], r)
      end
  end.
End Complete.
