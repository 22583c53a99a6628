(** * The unit tests of /repo/test, run in the model
    Each file of /repo/test but those of the schedulers, test by test: the inputs and
    expected results are those of the C++ files.  These are tests of the model, not
    proofs of properties. *)

From Verif Require Import Base FromStringModel HistoryModel StorageModel TerminalModel MenuModel SessionModel CompletionModel PrefixModel FileModel FloatModel SplitModel.
Open Scope nat_scope.
Open Scope list_scope.

Fixpoint same (a b : list str) : bool :=
  match a, b with [], [] => true | x :: a', y :: b' => str_eqb x y && same a' b' | _, _ => false end.

(** test_split.cpp *)
Definition split_cases : list (string * list string) :=
  [("", []);
   (" ", []);
   ("  ", []);
   ("   ", []);
   ("	", []);
   ("		", []);
   (" 	 	      ", []);
   ("1234567890", ["1234567890"]);
   ("  foo ", ["foo"]);
   ("  foo 	 	 bar 	", ["foo"; "bar"]);
   ("""""", []);
   ("""foo bar""", ["foo bar"]);
   ("    		 ""foo 	bar""     	", ["foo 	bar"]);
   (" first   		 ""foo 	bar""     	 last", ["first"; "foo 	bar"; "last"]);
   ("first""foo 	bar""", ["first"; "foo 	bar"]);
   ("first ""'second' 'thirdh'""", ["first"; "'second' 'thirdh'"]);
   ("''", []);
   ("'foo bar'", ["foo bar"]);
   ("    		 'foo 	bar'     	", ["foo 	bar"]);
   (" first   		 'foo 	bar'     	 last", ["first"; "foo 	bar"; "last"]);
   ("first'foo 	bar'", ["first"; "foo 	bar"]);
   ("first '""second"" ""thirdh""'", ["first"; """second"" ""thirdh"""]);
   ("foo \""bar", ["foo"; """bar"]);
   ("foo \'bar\'", ["foo"; "'bar'"]);
   ("foo bar f\""oo", ["foo"; "bar"; "f""oo"]);
   ("""foo\""bar\'foo""", ["foo""bar'foo"]);
   ("'foo\'bar\""foo'", ["foo'bar""foo"]);
   ("""foo\bar""", ["foo\bar"]);
   ("""foo\\\""bar""", ["foo\""bar"]);
   ("!foo", ["!"; "foo"]);
   ("    !    foo    ", ["!"; "foo"]);
   ("!42!69!", ["!"; "42"; "!"; "69"; "!"]);
   (" 38!42!69! 72 ! 33", ["38"; "!"; "42"; "!"; "69"; "!"; "72"; "!"; "33"]);
   (" 38!""42!69""! ""72 ! 33"" ", ["38"; "!"; "42!69"; "!"; "72 ! 33"])]%string.
Example repo_split : forallb (fun '(i, o) => match split (lit i) with Some l => same l (map lit o) | None => false end) split_cases = true.
Proof. vm_compute; reflexivity. Qed.

(** test_commonprefix.cpp *)
Example repo_common_prefix :
  map common_prefix [[lit "foo"]; [lit "foo"; lit "bar"]; [lit "prefix_foo"; lit "prefix_bar"]; [lit "prefix foo"; lit "prefix bar"]]
  = [Some (lit "foo"); Some []; Some (lit "prefix_"); Some (lit "prefix ")].
Proof. vm_compute; reflexivity. Qed.

(** test_history.cpp: the calls on each object, with the expected results *)
Inductive tcall := TNew (s : string) | TNext (r : string) | TPrev (s r : string) | TAt (id : Z) (r : string) | TLoad (l : list string) | TGet (l : list string).
Fixpoint hist_ok (l : list tcall) (h : history) : bool :=
  match l with
  | [] => true
  | c :: l' =>
      match c with
      | TNew s => match new_command h (lit s) with Some h' => hist_ok l' h' | None => false end
      | TNext r => match next h with Some (s, h') => str_eqb s (lit r) && hist_ok l' h' | None => false end
      | TPrev s r => match previous h (lit s) with Some (x, h') => str_eqb x (lit r) && hist_ok l' h' | None => false end
      | TAt id r => match at_id h id with AtOk s => str_eqb s (lit r) && hist_ok l' h | _ => false end
      | TLoad v => hist_ok l' (load_commands h (map lit v))
      | TGet v => match get_commands h with Some x => same x (map lit v) && hist_ok l' h | None => false end
      end
  end.
Definition hist_cases : list (nat * list tcall) :=
  [(10, [TNew "item1"; TNew "item2"; TNew "item3"; TNew "item4"; TNext ""; TPrev "" "item4"; TNext ""; TPrev "" "item4"; TPrev "item4" "item3"; TPrev "item3" "item2"; TPrev "item2" "item1"; TPrev "item1" "item1"]);
   (3, [TNew "item1"; TNew "item2"; TNew "item3"; TNew "item4"; TPrev "" "item4"; TNext ""; TPrev "" "item4"; TPrev "item4" "item3"; TPrev "item3" "item3"; TPrev "item3" "item3"; TPrev "item3" "item3"; TNext "item4"; TNext ""]);
   (10, [TNew "item1"; TNew "item2"; TNew "item3"; TNew "item4"; TAt 0 "item1"; TAt 1 "item2"; TAt 2 "item3"; TAt 3 "item4"; TPrev "" "item4"; TPrev "item4" "item3"; TPrev "foo" "item2"; TNext "foo"; TNext "item4"; TPrev "item4" "foo"; TPrev "foo" "item2"; TNew "item5"; TAt 0 "item1"; TAt 1 "item2"; TAt 2 "foo"; TAt 3 "item4"; TAt 4 "item5"; TPrev "" "item5"; TPrev "item5" "item4"; TNext "item5"; TNext ""]);
   (10, [TNew "item1"; TNew "item2"; TNew "item2"; TNew "item1"; TNew "item1"; TNew "item3"; TNew "item3"; TNew "item3"; TNew "item1"; TNew "item1"; TNew "item1"; TPrev "" "item1"; TPrev "item1" "item3"; TPrev "item3" "item1"; TPrev "item1" "item2"; TPrev "item2" "item1"; TNext "item2"; TNext "item1"; TNext "item3"; TNext "item1"]);
   (10, [TNext ""; TPrev "" ""]);
   (10, [TPrev "" ""; TNext ""]);
   (10, [TPrev "" ""; TNew "item1"; TNext ""; TPrev "" "item1"]);
   (10, [TLoad ["item1"; "item2"; "item3"]; TAt 0 "item1"; TAt 1 "item2"; TAt 2 "item3"; TPrev "" "item3"; TPrev "item3" "item2"; TPrev "item2" "item1"; TPrev "item1" "item1"; TNew "itemA"; TNew "itemB"; TAt 0 "item1"; TAt 1 "item2"; TAt 2 "item3"; TAt 3 "itemA"; TAt 4 "itemB"; TPrev "" "itemB"; TPrev "itemB" "itemA"; TPrev "itemA" "item3"; TPrev "item3" "item2"; TPrev "item2" "item1"; TGet ["itemA"; "itemB"]]);
   (3, [TLoad ["item1"; "item2"; "item3"]; TAt 0 "item1"; TAt 1 "item2"; TAt 2 "item3"; TPrev "" "item3"; TPrev "item3" "item2"; TPrev "item2" "item2"; TNew "itemA"; TNew "itemB"; TAt 2 "item3"; TAt 3 "itemA"; TAt 4 "itemB"; TPrev "" "itemB"; TPrev "itemB" "itemA"; TPrev "itemA" "itemA"; TGet ["itemA"; "itemB"]]);
   (3, [TNew "itemA"; TNew "itemB"; TNew "itemC"; TNew "itemD"; TNew "itemE"; TAt 2 "itemC"; TAt 3 "itemD"; TAt 4 "itemE"; TGet ["itemC"; "itemD"; "itemE"]])]%string.
Example repo_history : forallb (fun '(n, l) => hist_ok l (history_init n)) hist_cases = true.
Proof. vm_compute; reflexivity. Qed.

(** test_volatilehistorystorage.cpp, test_filehistorystorage.cpp *)
Definition items : list str := map lit ["item1"; "item2"; "item3"; "item4"; "item5"; "item6"]%string.
Definition items2 : list str := map lit ["itemA"; "itemB"; "itemC"; "itemD"; "itemE"; "itemF"]%string.
Definition expected : list str := skipn 2 items ++ items2.
Example repo_volatile_storage :
  let s := v_store 10 [] items in let s2 := v_store 10 s items2 in
  v_commands [] = [] /\ v_commands s = items /\ v_commands s2 = expected /\ v_commands (v_clear s2) = [].
Proof. vm_compute; repeat split; reflexivity. Qed.
Example repo_file_storage : forall f,
  let s := f_store 10 (f_clear f) items in let s2 := f_store 10 s items2 in
  f_commands (f_clear f) = [] /\ f_commands s = items /\ f_commands s2 = expected /\ f_commands (f_clear s2) = [].
Proof. intros f; vm_compute; repeat split; reflexivity. Qed.

(** test_menu.cpp *)
Definition no_par (s : string) : cmd := CFn 0 (lit s) true [] [] [] (HUser 0).
Definition test_menu (name : string) (kids : list cmd) : cmd := make_menu 0 (lit name) (lit "(menu)") [] kids.
Definition menu_basics : cmd :=
  test_menu "menu" [no_par "aaa"; no_par "bbb"; no_par "aaa_bbb"; no_par "aaa_ccc";
                    test_menu "submenu" [test_menu "subsubmenu" [no_par "bar"]; no_par "foo"]].
Definition here : platform := mkPlatform true true.
Definition is_list (r : gres) (l : list string) : bool := match r with GOk x => same x (map lit l) | _ => false end.
Example repo_menu : forallb (fun '(line, l) => is_list (menu_completions here 20 (lit line) [menu_basics]) l)
  [("", ["aaa"; "bbb"; "aaa_bbb"; "aaa_ccc"; "submenu"]);
   ("aaa", ["aaa"; "aaa_bbb"; "aaa_ccc"]);
   ("aaa_b", ["aaa_bbb"]);
   ("b", ["bbb"]);
   ("submenu", ["submenu subsubmenu"; "submenu foo"; "submenu menu"])]%string = true.
Proof. vm_compute; reflexivity. Qed.
Example repo_menu_recursive : forallb (fun '(line, l) => is_list (menu_completion here 20 false (lit line) [menu_basics]) l)
  [("", ["menu"]);
   ("me", ["menu"]);
   ("menu", ["menu aaa"; "menu bbb"; "menu aaa_bbb"; "menu aaa_ccc"; "menu submenu"]);
   ("menu a", ["menu aaa"; "menu aaa_bbb"; "menu aaa_ccc"]);
   ("menu submenu", ["menu submenu subsubmenu"; "menu submenu foo"; "menu submenu menu"])]%string = true.
Proof. vm_compute; reflexivity. Qed.

(** ** test_cli.cpp *)

(** [find_first_of], [find_last_of] of a character: what is before, what is after *)
Fixpoint cut_first (c : ascii) (s : str) : str :=
  match s with [] => [] | x :: s' => if Ascii.eqb x c then [] else x :: cut_first c s' end.
Definition cut_last (c : ascii) (s : str) : str :=
  let r := rev s in if existsb (Ascii.eqb c) s then rev (skipn (S (length (cut_first c r))) r) else s.
Definition last_line (s : str) : str := rev (cut_first "010" (rev s)).
Fixpoint find (p s : str) : option nat :=
  if starts_with p s then Some 0 else match s with [] => None | _ :: s' => option_map S (find p s') end.
Definition first_prompt (s : str) : str := cut_first ">" s.
Definition last_prompt (s : str) : str := cut_last ">" (last_line s).
Definition content (s : str) : str :=
  let l := last_line s in let b := cut_last "010" s in
  match find l b with Some n => skipn (n + length l) b | None => [] end.
Inductive check := KFirst (s : string) | KLast (s : string) | KContent (s : string) | KFind (s : string) | KAll (s : string).
Definition holds (o : str) (k : check) : bool :=
  match k with
  | KFirst s => str_eqb (first_prompt o) (lit s)
  | KLast s => str_eqb (last_prompt o) (lit s)
  | KContent s => str_eqb (content o) (lit s)
  | KFind s => match find (lit s) (content o) with Some _ => true | None => false end
  | KAll s => str_eqb o (lit s)
  end.

(** Commands printing their parameters: function 0 puts the text of all of them on a line, 1
    puts a star after each string, 2 throws [std::logic_error], 3 an [int].  Numbers 0.1
    are printed as such: the value code is 1 (texts of floating point numbers are not
    modelled); FloatModel.v decides whether a text is accepted. *)
Definition text_of (v : value) : str :=
  match v with
  | VInt z => (if (z <? 0)%Z then lit "-" else []) ++ print_N (Z.abs_N z)
  | VChar c => [c] | VStr s => s | VReal _ => lit "0.1" | VList l => flat_map (fun s => s ++ lit "*") l | _ => []
  end.
Definition handlers (sid n : nat) (args : list value) (tr : list event) : uresult :=
  match n with
  | 2 => mkURes [] (UThrow (XStd (lit "myerror")))
  | 3 => mkURes [] (UThrow XOther)
  | _ => mkURes [OOut (flat_map text_of args ++ nl)] UReturn
  end.
Definition reals (r : realtype) (s : str) : option (Z * nat) :=
  match c_sto (match r with RFloat => Float | RDouble => Double | RLongDouble => LongDouble end) s with
  | Some (_, n) => Some (1%Z, n) | None => None
  end.
(** Arithmetic as the tested platform does it: two's complement, no traps. *)
Definition gcc : platform := mkPlatform true false.
Definition test_env (has : hook -> bool) : env :=
  mkEnv gcc reals (fun _ _ => None) handlers (fun _ _ _ _ => mkURes [] UReturn) has.
Definition printed (tr : list event) : str :=
  flat_map (fun e => match e with EvOut _ s | EvBroadcast s => s | _ => [] end) tr.
(** [UserInput]; the storage of the [Cli] is kept *)
Definition user_input (has : hook -> bool) (root : cmd) (st : storage) (input : str) : option (list event * storage) :=
  let (root', n) := relabel 1 root in
  match open_file (mkIn (input ++ nl) false false) true 0 root' n st [] with
  | None => None
  | Some s =>
      match fs_start (test_env has) true 5 false (fun _ => false) 10 s with
      | LOk s' => Some (w_trace (fs_world s'), w_store (fs_world s'))
      | _ => None
      end
  end.
Fixpoint all_ok (has : hook -> bool) (root : cmd) (st : storage) (l : list (string * list check)) : bool :=
  match l with
  | [] => true
  | (i, ks) :: l' =>
      match user_input has root st (lit i) with
      | Some (tr, st') => forallb (holds (printed tr)) ks && all_ok has root st' l'
      | None => false
      end
  end.
Definition start : storage := StVolatile 1000 [].
Definition no_hooks (k : hook) : bool := match k with KSesEnter | KSesExit => true | _ => false end.
Definition test_fn (name : string) (pars : list ptype) (pdesc : list string) : cmd :=
  CFn 0 (lit name) true (lit name ++ lit " help") pars (map lit pdesc) (HUser 0).
Definition basics : cmd :=
  test_menu "cli" [test_fn "int_cmd" [PInt Int] ["int_par"%string]; test_fn "string_cmd" [PString] ["string_par"%string]].

Example repo_cli_basics : all_ok no_hooks basics start
  [("help", [KFirst "cli"; KLast "cli"; KFind "int_cmd"; KFind "<int_par>"; KFind "string_cmd"; KFind "<string_par>"]);
   ("int_cmd 42", [KFirst "cli"; KLast "cli"; KContent "42"]);
   ("int_cmd wrong_int_parameter", [KFirst "cli"; KLast "cli"; KFind "wrong command:"]);
   ("int_cmd 42 0", [KFirst "cli"; KLast "cli"; KFind "wrong command:"]);
   ("string_cmd foo", [KFirst "cli"; KLast "cli"; KContent "foo"]);
   ("string_cmd ""foo 'bar' \""foo\\2""", [KFirst "cli"; KLast "cli"; KContent "foo 'bar' ""foo\2"])]%string = true.
Proof. vm_compute; reflexivity. Qed.
Example repo_cli_parameters : all_ok no_hooks
  (test_menu "cli" [test_fn "char_cmd" [PChar] ["char_par"]; test_fn "unsigned_char_cmd" [PInt UChar] ["unsigned_char_par"]; test_fn "signed_char_cmd" [PInt SChar] ["signed_char_par"]; test_fn "short_cmd" [PInt Short] ["short_par"]; test_fn "unsigned_short_cmd" [PInt UShort] ["unsigned_short_par"]; test_fn "int_cmd" [PInt Int] ["int_par"]; test_fn "unsigned_int_cmd" [PInt UInt] ["unsigned_int_par"]; test_fn "long_cmd" [PInt Long] ["long_par"]; test_fn "unsigned_long_cmd" [PInt ULong] ["unsigned_long_par"]; test_fn "long_long_cmd" [PInt LLong] ["long_long_par"]; test_fn "unsigned_long_long_cmd" [PInt ULLong] ["unsigned_long_long_par"]; test_fn "float_cmd" [PReal RFloat] ["float_par"]; test_fn "double_cmd" [PReal RDouble] ["double_par"]; test_fn "long_double_cmd" [PReal RLongDouble] ["long_double_par"]; test_fn "string_cmd" [PString] ["string_par"]]%string) start
  [("char_cmd a", [KContent "a"]);
   ("char_cmd ' '", [KContent " "]);
   ("char_cmd aa", [KFind "wrong command:"]);
   ("unsigned_char_cmd 42", [KContent "42"]);
   ("unsigned_char_cmd -42", [KFind "wrong command:"]);
   ("unsigned_char_cmd a", [KFind "wrong command:"]);
   ("unsigned_char_cmd 99999999999999999999999999999999999999999", [KFind "wrong command:"]);
   ("signed_char_cmd 42", [KContent "42"]);
   ("signed_char_cmd -42", [KContent "-42"]);
   ("signed_char_cmd a", [KFind "wrong command:"]);
   ("signed_char_cmd 99999999999999999999999999999999999999999", [KFind "wrong command:"]);
   ("short_cmd 42", [KContent "42"]);
   ("short_cmd -42", [KContent "-42"]);
   ("short_cmd a", [KFind "wrong command:"]);
   ("short_cmd 99999999999999999999999999999999999999999", [KFind "wrong command:"]);
   ("unsigned_short_cmd 42", [KContent "42"]);
   ("unsigned_short_cmd -42", [KFind "wrong command:"]);
   ("unsigned_short_cmd a", [KFind "wrong command:"]);
   ("unsigned_short_cmd 99999999999999999999999999999999999999999", [KFind "wrong command:"]);
   ("int_cmd 42", [KContent "42"]);
   ("int_cmd -42", [KContent "-42"]);
   ("int_cmd a", [KFind "wrong command:"]);
   ("int_cmd 99999999999999999999999999999999999999999", [KFind "wrong command:"]);
   ("unsigned_int_cmd 42", [KContent "42"]);
   ("unsigned_int_cmd -42", [KFind "wrong command:"]);
   ("unsigned_int_cmd a", [KFind "wrong command:"]);
   ("unsigned_int_cmd 99999999999999999999999999999999999999999", [KFind "wrong command:"]);
   ("long_cmd 42", [KContent "42"]);
   ("long_cmd -42", [KContent "-42"]);
   ("long_cmd a", [KFind "wrong command:"]);
   ("unsigned_long_cmd 42", [KContent "42"]);
   ("unsigned_long_cmd -42", [KFind "wrong command:"]);
   ("unsigned_long_cmd a", [KFind "wrong command:"]);
   ("long_long_cmd 42", [KContent "42"]);
   ("long_long_cmd -42", [KContent "-42"]);
   ("long_long_cmd a", [KFind "wrong command:"]);
   ("unsigned_long_long_cmd 42", [KContent "42"]);
   ("unsigned_long_long_cmd -42", [KFind "wrong command:"]);
   ("unsigned_long_long_cmd a", [KFind "wrong command:"]);
   ("float_cmd 0.1", [KContent "0.1"]);
   ("float_cmd a", [KFind "wrong command:"]);
   ("double_cmd 0.1", [KContent "0.1"]);
   ("double_cmd a", [KFind "wrong command:"]);
   ("long_double_cmd 0.1", [KContent "0.1"]);
   ("long_double_cmd a", [KFind "wrong command:"])]%string = true.
Proof. vm_compute; reflexivity. Qed.
Example repo_cli_freeform : all_ok no_hooks
  (test_menu "cli" [CFree 0 (lit "cmd_printer_by_ref") true (lit "cmd_printer help") [lit "<string values>"] (HUser 1);
                    CFree 0 (lit "cmd_printer_by_value") true (lit "cmd_printer help") [lit "<string values>"] (HUser 1)]) start
  [("cmd_printer_by_value a b 'c d e' f", [KFirst "cli"; KLast "cli"; KContent "a*b*c d e*f*"]);
   ("cmd_printer_by_ref a b 'c d e' f", [KFirst "cli"; KLast "cli"; KContent "a*b*c d e*f*"]);
   ("cmd_printer_by_value", [KFirst "cli"; KLast "cli"; KContent ""])]%string = true.
Proof. vm_compute; reflexivity. Qed.
Example repo_cli_border_line : all_ok no_hooks (test_menu "cli" []) start
  [("", [KAll "cli> cli> "]);
   ("	", [KAll "cli> cli> "])]%string = true.
Proof. vm_compute; reflexivity. Qed.
Example repo_cli_submenus : all_ok no_hooks
  (test_menu "cli" [test_menu "sub" [test_fn "int_cmd" [PInt Int] ["int_par"%string]; test_fn "string_cmd" [PString] ["string_par"%string];
     test_menu "subsub" [CFn 0 (lit "double_int_cmd") true [] [PInt Int; PInt Int] [] (HUser 0);
                         CFn 0 (lit "double_string_cmd") true [] [PString; PString] [] (HUser 0)]]]) start
  [("help", [KFirst "cli"; KLast "cli"; KFind "sub"; KFind "help"; KFind "exit"]);
   ("sub int_cmd 42", [KFirst "cli"; KLast "cli"; KContent "42"]);
   ("sub string_cmd foo", [KFirst "cli"; KLast "cli"; KContent "foo"]);
   ("sub subsub double_int_cmd 42 0", [KFirst "cli"; KLast "cli"; KContent "420"]);
   ("sub subsub double_string_cmd foo bar", [KFirst "cli"; KLast "cli"; KContent "foobar"]);
   ("sub
int_cmd 42", [KLast "sub"; KContent "42"]);
   ("sub
string_cmd foo", [KLast "sub"; KContent "foo"])]%string = true.
Proof. vm_compute; reflexivity. Qed.

Definition called (k : hook) (has : hook -> bool) (root : cmd) (i : string) : bool :=
  match user_input has root start (lit i) with
  | Some (tr, _) => existsb (fun e => match e, k with EvHook _ KCliEnter _, KCliEnter | EvHook _ KCliExit _, KCliExit | EvHook _ KExcept _, KExcept => true | _, _ => false end) tr
  | None => false
  end.
Definition with_hook (k : hook) (j : hook) : bool :=
  match j, k with KSesEnter, _ | KSesExit, _ | KCliEnter, KCliEnter | KCliExit, KCliExit | KExcept, KExcept => true | _, _ => false end.
Example repo_cli_enter_actions : called KCliEnter (with_hook KCliEnter) basics "exit" = true.
Proof. vm_compute; reflexivity. Qed.
Example repo_cli_exit_actions : called KCliExit (with_hook KCliExit) basics "exit" = true.
Proof. vm_compute; reflexivity. Qed.
Definition throwing : cmd :=
  test_menu "cli" [CFn 0 (lit "stdexception") true [] [] [] (HUser 2); CFn 0 (lit "customexception") true [] [] [] (HUser 3)].
Example repo_cli_exceptions :
  all_ok no_hooks throwing start [("stdexception", [KContent "myerror"])]%string = true /\
  called KExcept (with_hook KExcept) throwing "stdexception" = true /\
  all_ok (with_hook KExcept) throwing start [("customexception", [])]%string = true.
Proof. vm_compute; repeat split; reflexivity. Qed.
