(** * A small application used in the examples *)

From Verif Require Import Base FromStringModel HistoryModel StorageModel MenuModel SessionModel.
Open Scope nat_scope.
Open Scope list_scope.

(** Functions: 0 prints and returns, 1 throws a [std::exception], 2 throws a
    [std::bad_cast], 3 removes the submenu, 4 disables [add] and inserts a command,
    others throw something else. *)
Definition demo_handler (sid h : nat) (args : list value) (tr : list event) : uresult :=
  match h with
  | 0 => mkURes [OOut (lit "hi")] UReturn
  | 1 => mkURes [] (UThrow (XStd (lit "boom")))
  | 2 => mkURes [OOut (lit "no")] (UThrow (XBadCast (lit "cast")))
  | 3 => mkURes [ORemove 13] UReturn
  | 4 => mkURes [ODisable 11; OInsert 10 (CFn 0 (lit "new") true [] [] [] (HUser 0))] UReturn
  | _ => mkURes [] (UThrow XOther)
  end.
Definition demo_hook (sid : nat) (k : hook) (args : list str) (tr : list event) : uresult :=
  mkURes [OBroadcast (lit "hook")] UReturn.
Definition demo_env (has : hook -> bool) : env :=
  mkEnv (mkPlatform true false) (fun _ _ => None) (fun _ _ => None) demo_handler demo_hook has.
Definition quiet_env : env := demo_env (fun _ => false).
Definition full_env : env := demo_env (fun _ => true).

Definition demo_sub : cmd :=
  CMenu 13 (lit "sub") true (lit "a menu") (lit "sub") [
    CFn 14 (lit "x") true (lit "throws") [] [] (HUser 1);
    CMenu 15 (lit "deep") true [] (lit "down here") [CFn 16 (lit "y") true [] [] [] (HUser 0)] ].
Definition demo_root : cmd :=
  CMenu 10 (lit "cli") true [] (lit "cli") [
    CFn 11 (lit "add") true (lit "adds") [PInt Int; PInt Int] [] (HUser 0);
    CFree 12 (lit "say") true (lit "says") [lit "words"] (HUser 0);
    demo_sub;
    CFn 17 (lit "hid") false [] [] [] (HUser 0);
    CFn 18 (lit "add") true (lit "adds strings") [PString; PString] [] (HUser 1);
    CFn 19 (lit "chg") true [] [] [] (HUser 4) ].

(** A program whose functions throw [bad_cast] (2) or remove their own menu (3). *)
Definition bad_root : cmd :=
  CMenu 10 (lit "cli") true [] (lit "cli") [
    CFn 11 (lit "go") true [] [] [] (HUser 2);
    CFn 12 (lit "go") true [] [] [] (HUser 0);
    CMenu 13 (lit "sub") true [] (lit "sub") [CFn 14 (lit "kill") true [] [] [] (HUser 3)] ].

Definition demo_world : world := open_session 0 5 demo_root 20 (StVolatile 10 [lit "old"; lit "add 1 2"]) [].
Definition fresh_world (size : nat) : world := open_session 0 size demo_root 20 (StVolatile 10 []) [].
Definition bad_world : world := open_session 0 5 bad_root 20 (StVolatile 10 []) [].
