(** * Specification of the examples boostasio_nonowner_iocontext.cpp and standaloneasio_nonowner_iocontext.cpp
    What their user sees, for all lines, with the timer expiring at any moment. *)

From Verif Require Import Base SplitSpec FromStringModel FromStringSpec HistorySpec MenuModel SessionModel ExampleSpec CompleteSpec NonownerModel.
Open Scope nat_scope.
Open Scope list_scope.

(** The last of the commands for colours that was used; the lines remembered (CompleteSpec.v; the place there plays no
    role). *)
Record board := mkBoard { b_paint : option bool; b_user : user }.
Definition fresh : board := mkBoard None (mkUser Main 0 [] 0).
(** [orders b ws text paint]: the words print [text], and set the colours. *)
Inductive orders (b : board) : list str -> str -> option bool -> Prop :=
| o_hello : orders b [lit "hello"] (lit "Hello, world" ++ nl) (b_paint b)
| o_color : b_paint b <> Some true -> orders b [lit "color"] (lit "Colors ON" ++ nl) (Some true)
| o_nocolor : b_paint b <> Some false -> orders b [lit "nocolor"] (lit "Colors OFF" ++ nl) (Some false).
Definition board_help (b : board) : str :=
  entry_text "hello" "Print hello world"
  ++ (match b_paint b with Some true => [] | _ => entry_text "color" "Enable colors in the cli" end)
  ++ (match b_paint b with Some false => [] | _ => entry_text "nocolor" "Disable colors in the cli" end).

Inductive reply := Reply (text : str) (b : board) (left_ : bool) | Broken.
Notation size := 200.
Notation keep line b := (mkBoard (b_paint b) (keeps size line (b_user b))).
Notation forget line b := (mkBoard (b_paint b) (forgets size line (b_user b))).
Inductive answers (b : board) (line : str) : reply -> Prop :=
| a_blank : words line [] -> answers b line (Reply [] b false)
| a_help : words line [lit "help"] -> answers b line (Reply (global_help ++ board_help b) (keep line b) false)
| a_exit : words line [lit "exit"] -> answers b line (Reply (lit "Closing App..." ++ nl ++ fish) (keep line b) true)
| a_history : words line [lit "history"] ->
    answers b line (Reply (listing (remembered (keeps size line (b_user b)))) (keep line b) false)
| a_recall_first ws : words line ws -> is_recall ws ->
    u_lines (forgets size line (b_user b)) = [] -> u_first (forgets size line (b_user b)) = 0%Z -> answers b line Broken
| a_recall_none s v : words line [lit "!"; s] -> int_text UInt s v ->
    ~ (u_lines (forgets size line (b_user b)) = [] /\ u_first (forgets size line (b_user b)) = 0%Z) ->
    (forall l, ~ In (v, l) (remembered (forgets size line (b_user b)))) ->
    answers b line (Reply (lit "Exception caught in cli handler: Index not found in history handling command: " ++ line ++ lit "." ++ nl) (forget line b) false)
| a_recall s v l r : words line [lit "!"; s] -> int_text UInt s v -> In (v, l) (remembered (forgets size line (b_user b))) ->
    answers (forget line b) l r -> answers b line r
| a_order ws text paint : words line ws -> orders b ws text paint ->
    answers b line (Reply text (mkBoard paint (keeps size line (b_user b))) false)
| a_wrong ws : words line ws -> ws <> [] -> ws <> [lit "help"] -> ws <> [lit "exit"] -> ws <> [lit "history"] -> ~ is_recall ws ->
    (forall text paint, ~ orders b ws text paint) ->
    answers b line (Reply (lit "wrong command: " ++ line ++ nl) (keep line b) false).

Definition painted (b : board) : bool := match b_paint b with Some c => c | None => false end.
(** The prompt; [codes]: colours were used before. *)
Definition asks (tty codes : bool) (b : board) : str :=
  (if painted b then esc "32" ++ esc "1" else []) ++ lit "cli" ++ (if painted b || codes || tty then esc "0" else []) ++ lit "> ".

(** ** The program *)
Inductive happening := Types (line : str) | Expires.
Inductive finish := Waits (b : board) | Leaves | Undef.
(** [talk tty codes b hs o f]: what is printed for what happens, after the prompt. *)
Inductive talk (tty : bool) : bool -> board -> list happening -> str -> finish -> Prop :=
| t_nil codes b : talk tty codes b [] [] (Waits b)
| t_timer codes b hs o f : talk tty codes b hs o f -> talk tty codes b (Expires :: hs) (lit "Timer expired!" ++ nl ++ o) f
| t_line codes b line hs text b' o f : answers b line (Reply text b' false) -> talk tty (painted b' || codes) b' hs o f ->
    talk tty codes b (Types line :: hs) (text ++ asks tty codes b' ++ o) f
| t_exit codes b line text b' : answers b line (Reply text b' true) -> talk tty codes b [Types line] text Leaves
| t_broken codes b line : answers b line Broken -> talk tty codes b [Types line] [] Undef.

(** What happens, in order; the timer expires once. *)
Fixpoint happens (timer : bool) (is : list ninput) : list happening :=
  match is with
  | [] => []
  | ITyped line :: is' => Types line :: happens timer is'
  | IExpires :: is' => if timer then Expires :: happens false is' else happens false is'
  | IRun :: is' => happens timer is'
  end.
