(** * Model of the example programs
    Source: /repo/examples/simplelocalsession.cpp, filesession.cpp (the same menus and actions).
    Numbers of commands (ids) and functions are arbitrary. *)

From Verif Require Import Base FromStringModel HistoryModel StorageModel TerminalModel MenuModel SessionModel FileModel.
Open Scope nat_scope.
Open Scope list_scope.

(** [out << x] for an [int], with default formatting. *)
Definition print_int (x : Z) : str := if (x <? 0)%Z then "-"%char :: print_N (Z.to_N (- x)) else print_N (Z.to_N x).

(** ** simplelocalsession.cpp 41-80, filesession.cpp 42-81 *)
Definition ex_subsub : cmd :=
  CMenu 19 (lit "subsub") true (lit "(menu)") (lit "subsub") [
    CFn 20 (lit "hello") true (lit "Print hello world in the sub-submenu") [] [] (HUser 7) ].
Definition ex_sub : cmd :=
  CMenu 16 (lit "sub") true (lit "(menu)") (lit "sub") [
    CFn 17 (lit "hello") true (lit "Print hello world in the submenu") [] [] (HUser 5);
    CFn 18 (lit "demo") true (lit "Print a demo string") [] [] (HUser 6);
    ex_subsub ].
Definition ex_root : cmd :=
  CMenu 10 (lit "cli") true (lit "(menu)") (lit "cli") [
    CFn 11 (lit "hello") true (lit "Print hello world") [] [] (HUser 0);
    CFn 12 (lit "hello_everysession") true (lit "Print hello everybody on all open sessions") [] [] (HUser 1);
    CFn 13 (lit "answer") true (lit "Print the answer to Life, the Universe and Everything ") [PInt Int] [] (HUser 2);
    CFn 14 (lit "color") true (lit "Enable colors in the cli") [] [] (HUser 3);
    CFn 15 (lit "nocolor") true (lit "Disable colors in the cli") [] [] (HUser 4);
    ex_sub ].
Definition ex_handler (sid h : nat) (args : list value) (tr : list event) : uresult :=
  match h, args with
  | 0, _ => mkURes [OOut (lit "Hello, world" ++ nl)] UReturn
  | 1, _ => mkURes [OBroadcast (lit "Hello, everybody" ++ nl)] UReturn
  | 2, [VInt x] => mkURes [OOut (lit "The answer is: "); OOut (print_int x); OOut nl] UReturn
  | 3, _ => mkURes [OOut (lit "Colors ON" ++ nl)] UReturn
  | 4, _ => mkURes [OOut (lit "Colors OFF" ++ nl)] UReturn
  | 5, _ => mkURes [OOut (lit "Hello, submenu world" ++ nl)] UReturn
  | 6, _ => mkURes [OOut (lit "This is a sample!" ++ nl)] UReturn
  | 7, _ => mkURes [OOut (lit "Hello, subsubmenu world" ++ nl)] UReturn
  | _, _ => mkURes [] UReturn
  end.
(** simplelocalsession.cpp 83-85: the global exit action *)
Definition ex_hook (sid : nat) (k : hook) (args : list str) (tr : list event) : uresult :=
  mkURes [OOut (lit "Goodbye and thanks for all the fish." ++ nl)] UReturn.
Definition ex_env (P : platform) : env :=
  mkEnv P (fun _ _ => None) (fun _ _ => None) ex_handler ex_hook (fun k => match k with KCliExit => true | _ => false end).
(** [SetColor] and [SetNoColor], called by functions 3 and 4; off at first (colorprofile.h:37-40). *)
Definition ex_color (tr : list event) : bool :=
  fold_left (fun b e => match e with EvCall _ 3 _ => true | EvCall _ 4 _ => false | _ => b end) tr false.
(** [main]: a session of the [Cli] (whose default storage keeps 1000 commands, cli.h:139)
    over a stream; [n] rounds of its loop. *)
Definition ex_main (P : platform) (tty : bool) (n fuel : nat) (text : str) : lres :=
  match open_file (mkIn text false false) true 0 ex_root 21 (StVolatile 1000 []) [] with
  | None => LUB
  | Some s => fs_start (ex_env P) true fuel tty ex_color n s
  end.
