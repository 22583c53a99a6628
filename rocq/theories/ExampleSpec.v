(** * Specification of the example programs simplelocalsession.cpp and filesession.cpp
    What a user sees, for any input: three places with doors between them. *)

From Verif Require Import Base SplitSpec FromStringModel FromStringSpec MenuModel SessionModel.
Open Scope nat_scope.
Open Scope list_scope.

Inductive place := Main | Sub | SubSub.
Definition place_name (p : place) : str :=
  match p with Main => lit "cli" | Sub => lit "sub" | SubSub => lit "subsub" end.
(** [door p word q]: [word] leads from [p] to [q]. *)
Inductive door : place -> str -> place -> Prop :=
| down1 : door Main (lit "sub") Sub
| down2 : door Sub (lit "subsub") SubSub
| up1 : door Sub (lit "cli") Main
| up1' : door Sub (lit "..") Main
| up2 : door SubSub (lit "sub") Sub
| up2' : door SubSub (lit "..") Sub.

(** [does p ws text go col]: in place [p] the words [ws] print [text], lead to the place [go] if any, and set
    the colours to [col] if given. *)
Inductive does : place -> list str -> str -> option place -> option bool -> Prop :=
| d_hello : does Main [lit "hello"] (lit "Hello, world" ++ nl) None None
| d_every : does Main [lit "hello_everysession"] (lit "Hello, everybody" ++ nl) None None
| d_answer s v : int_text Int s v ->
    does Main [lit "answer"; s] (lit "The answer is: " ++ print_Z v ++ nl) None None
| d_color : does Main [lit "color"] (lit "Colors ON" ++ nl) None (Some true)
| d_nocolor : does Main [lit "nocolor"] (lit "Colors OFF" ++ nl) None (Some false)
| d_sub : does Sub [lit "hello"] (lit "Hello, submenu world" ++ nl) None None
| d_demo : does Sub [lit "demo"] (lit "This is a sample!" ++ nl) None None
| d_subsub : does SubSub [lit "hello"] (lit "Hello, subsubmenu world" ++ nl) None None
| d_enter p w q : door p w q -> does p [w] [] (Some q) None
| d_through p w q ws text go col : door p w q -> does q ws text go col -> does p (w :: ws) text go col.

Definition global_help : str :=
  lit "Commands available:" ++ nl ++
  lit " - help" ++ nl ++ tab ++ lit "This help message" ++ nl ++
  lit " - exit" ++ nl ++ tab ++ lit "Quit the session" ++ nl ++
  lit " - history" ++ nl ++ tab ++ lit "Show the history" ++ nl ++
  lit " - ! <history entry index>" ++ nl ++ tab ++ lit "Exec a command by index in the history" ++ nl.
Definition place_help (p : place) : str :=
  match p with
  | Main =>
      lit " - hello" ++ nl ++ tab ++ lit "Print hello world" ++ nl ++
      lit " - hello_everysession" ++ nl ++ tab ++ lit "Print hello everybody on all open sessions" ++ nl ++
      lit " - answer <int>" ++ nl ++ tab ++ lit "Print the answer to Life, the Universe and Everything " ++ nl ++
      lit " - color" ++ nl ++ tab ++ lit "Enable colors in the cli" ++ nl ++
      lit " - nocolor" ++ nl ++ tab ++ lit "Disable colors in the cli" ++ nl ++
      lit " - sub" ++ nl ++ tab ++ lit "(menu)" ++ nl
  | Sub =>
      lit " - hello" ++ nl ++ tab ++ lit "Print hello world in the submenu" ++ nl ++
      lit " - demo" ++ nl ++ tab ++ lit "Print a demo string" ++ nl ++
      lit " - subsub" ++ nl ++ tab ++ lit "(menu)" ++ nl ++
      lit " - cli" ++ nl ++ tab ++ lit "(menu)" ++ nl
  | SubSub =>
      lit " - hello" ++ nl ++ tab ++ lit "Print hello world in the sub-submenu" ++ nl ++
      lit " - sub" ++ nl ++ tab ++ lit "(menu)" ++ nl
  end.

(** The state: the place, the colours, whether codes were ever written, the command
    remembered and its number. *)
Record state := mkState { s_place : place; s_color : bool; s_codes : bool; s_last : option str; s_number : Z }.
Definition start : state := mkState Main false false None 0.

(** The words of a line. *)
Definition words (line : str) (ws : list str) : Prop :=
  exists l t, wf_line l t /\ line_src l t = line /\ line_tokens l t = ws.
Definition is_recall (ws : list str) : Prop := exists s v, ws = [lit "!"; s] /\ int_text UInt s v.

(** Only the latest line is remembered; lines equal to it are not counted. *)
Definition remember (line : str) (s : state) : state :=
  mkState (s_place s) (s_color s) (s_codes s) (Some line)
    (match s_last s with
     | Some l => if list_eq_dec ascii_dec l line then s_number s else (s_number s + 1)%Z
     | None => s_number s
     end).

(** [says s line text s']: a line that does not end the program. *)
Inductive says (s : state) (line : str) : str -> state -> Prop :=
| y_blank : words line [] -> says s line [] s
| y_help : words line [lit "help"] -> says s line (global_help ++ place_help (s_place s)) (remember line s)
| y_history : words line [lit "history"] ->
    says s line (nl ++ print_Z (s_number (remember line s)) ++ tab ++ line ++ nl ++ nl) (remember line s)
| y_recall ws : words line ws -> is_recall ws ->
    says s line (lit "Index not found in history" ++ nl)
      (mkState (s_place s) (s_color s) (s_codes s) None (s_number (remember line s)))
| y_does ws text go col : words line ws -> does (s_place s) ws text go col ->
    says s line text
      (mkState (match go with Some p => p | None => s_place s end) (match col with Some c => c | None => s_color s end)
         (s_codes s) (Some line) (s_number (remember line s)))
| y_wrong ws : words line ws -> ws <> [] -> ws <> [lit "help"] -> ws <> [lit "exit"] -> ws <> [lit "history"] -> ~ is_recall ws ->
    (forall text go col, ~ does (s_place s) ws text go col) ->
    says s line (lit "wrong command: " ++ line ++ nl) (remember line s).

(** The prompt; [tty]: the output is a terminal. *)
Definition esc (code : string) : str := "027"%char :: lit "[" ++ lit code ++ lit "m".
Definition shown_prompt (tty : bool) (s : state) : str :=
  (if s_color s then esc "32" ++ esc "1" else []) ++ place_name (s_place s)
  ++ (if s_color s || s_codes s || tty then esc "0" else []) ++ lit "> ".
Definition prompted (s : state) : state :=
  mkState (s_place s) (s_color s) (s_color s || s_codes s) (s_last s) (s_number s).
Definition goodbye : str := lit "Goodbye and thanks for all the fish." ++ nl.

(** The output for the lines of a text. *)
Inductive session (tty : bool) : state -> list str -> str -> Prop :=
| x_end s : session tty s [] (shown_prompt tty s ++ goodbye)
| x_exit s line ls : words line [lit "exit"] -> session tty s (line :: ls) (shown_prompt tty s ++ goodbye)
| x_line s line ls text s' rest : says (prompted s) line text s' -> session tty s' ls rest ->
    session tty s (line :: ls) (shown_prompt tty s ++ text ++ rest).

(** The first line with words, if any, is not a recall. *)
Fixpoint recall_first (ls : list str) : Prop :=
  match ls with
  | [] => False
  | l :: ls' => (exists ws, words l ws /\ is_recall ws) \/ (words l [] /\ recall_first ls')
  end.

(** All that is written on the stream of the only session. *)
Definition shown (evs : list event) : str :=
  flat_map (fun e => match e with EvOut _ s => s | EvBroadcast s => s | _ => [] end) evs.
