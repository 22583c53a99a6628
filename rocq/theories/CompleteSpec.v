(** * Specification of the example program complete.cpp
    What the users of its sessions see, for all lines. *)

From Coq Require Import Sorted Permutation.
From Verif Require Import Base SplitSpec FromStringModel FromStringSpec HistorySpec MenuModel SessionModel CompletionSpec ExampleSpec CompleteModel.
Open Scope nat_scope.
Open Scope list_scope.

(** ** What the words of a line do
    [colour]: the colours are on; [gone]: the commands for colours were removed. *)
Inductive effect :=
| Print (text : str)            (* for the user who typed the line *)
| Everyone (text : str)         (* for all users *)
| Throw (what : str)
| Enter (p : place)
| Paint (on : bool)             (* the colours go on or off *)
| Drop                          (* the commands for colours go *)
| Undefined.                    (* undefined behaviour *)

Definition fits (z : Z) : Prop := (-2147483648 <= z <= 2147483647)%Z.
(** A number between white space. *)
Definition bar_text (s : str) (v : Z) : Prop :=
  exists a t b, s = a ++ t ++ b /\ Forall FromStringSpec.white a /\ int_text Int t v /\ Forall FromStringSpec.white b.
Definition sum2 (x y : Z) : str := print_Z x ++ lit " + " ++ print_Z y ++ lit " = " ++ print_Z (x + y) ++ nl.
Definition sum3 (x y z : Z) : str :=
  print_Z x ++ lit " + " ++ print_Z y ++ lit " + " ++ print_Z z ++ lit " = " ++ print_Z (x + y + z) ++ nl.
(** In dictionary order; equal words are kept. *)
Definition in_order (l : list str) : Prop := StronglySorted (fun a b => a = b \/ lex_lt a b) l.

Section Words.
(** Reading ([complex s v]: the whole of [s] is read as [v]) and printing of complex numbers. *)
Context (complex : str -> Z -> Prop) (pc : Z -> str) (colour gone : bool).
Inductive effects : place -> list str -> effect -> Prop :=
| e_free s v : int_text Int s v -> effects Main [lit "free_function"; s] (Print (print_Z v ++ nl))
| e_hello : effects Main [lit "hello"] (Print (lit "Hello, world" ++ nl))
| e_every : effects Main [lit "hello_everysession"] (Everyone (lit "Hello, everybody" ++ nl))
| e_answer s v : int_text Int s v -> effects Main [lit "answer"; s] (Print (lit "The answer is: " ++ print_Z v ++ nl))
| e_file s v : int_text Int s v -> effects Main [lit "file"; s] (Print (lit "file descriptor: " ++ print_Z v ++ nl))
| e_echo s : effects Main [lit "echo"; s] (Print (s ++ nl))
| e_echo2 s t : effects Main [lit "echo"; s; t] (Print (s ++ lit " " ++ t ++ nl))
| e_error : effects Main [lit "error"] (Throw (lit "Error in cmd"))
| e_reverse s : effects Main [lit "reverse"; s] (Print (rev s ++ nl))
| e_add s x t y : int_text Int s x -> int_text Int t y -> fits (x + y) -> effects Main [lit "add"; s; t] (Print (sum2 x y))
| e_add_ub s x t y : int_text Int s x -> int_text Int t y -> ~ fits (x + y) -> effects Main [lit "add"; s; t] Undefined
| e_add3 s x t y u z : int_text Int s x -> int_text Int t y -> int_text Int u z -> fits (x + y) -> fits (x + y + z) ->
    effects Main [lit "add"; s; t; u] (Print (sum3 x y z))
| e_add3_ub s x t y u z : int_text Int s x -> int_text Int t y -> int_text Int u z -> ~ (fits (x + y) /\ fits (x + y + z)) ->
    effects Main [lit "add"; s; t; u] Undefined
| e_sort ws l : Permutation ws l -> in_order l ->
    effects Main (lit "sort" :: ws) (Print (lit "sorted list: " ++ concat (map (fun s => s ++ lit " ") l) ++ nl))
| e_bar s v : bar_text s v -> effects Main [lit "bar"; s] (Print (lit "You entered bar: " ++ print_Z v ++ nl))
| e_complex s v : complex s v -> effects Main [lit "complex"; s] (Print (lit "You entered complex : " ++ pc v ++ nl))
| e_color : gone = false -> colour = false -> effects Main [lit "color"] (Paint true)
| e_nocolor : gone = false -> colour = true -> effects Main [lit "nocolor"] (Paint false)
| e_remove : effects Main [lit "removecmds"] Drop
| e_sub : effects Sub [lit "hello"] (Print (lit "Hello, submenu world" ++ nl))
| e_demo : effects Sub [lit "demo"] (Print (lit "This is a sample!" ++ nl))
| e_subsub : effects SubSub [lit "hello"] (Print (lit "Hello, subsubmenu world" ++ nl))
| e_enter p w q : door p w q -> effects p [w] (Enter q)
| e_through p w q ws e : door p w q -> effects q ws e -> effects p (w :: ws) e.
End Words.

Definition entry_text (words desc : string) : str := lit " - " ++ lit words ++ nl ++ tab ++ lit desc ++ nl.
Definition menu_help (colour gone : bool) (p : place) : str :=
  match p with
  | Main =>
      entry_text "free_function <int>" "Call a free function that echoes the parameter passed"
      ++ entry_text "hello" "Print hello world"
      ++ entry_text "hello_everysession" "Print hello everybody on all open sessions"
      ++ entry_text "answer <int>" "Print the answer to Life, the Universe and Everything"
      ++ entry_text "file <file_descriptor>" "Print the file descriptor specified"
      ++ entry_text "echo <string to echo>" "Print the string passed as parameter"
      ++ entry_text "echo <first string to echo> <second string to echo>" "Print the strings passed as parameter"
      ++ entry_text "error" "Throw an exception in the command handler"
      ++ entry_text "reverse <string_to_revert>" "Print the reverse string"
      ++ entry_text "add <first_term> <second_term>" "Print the sum of the two numbers"
      ++ entry_text "add <int> <int> <int>" "Print the sum of the three numbers"
      ++ entry_text "sort <list of strings separated by space>" "Alphabetically sort a list of words"
      ++ entry_text "bar <bar>" "Custom type"
      ++ entry_text "complex <complex>" "Print a complex number"
      ++ (if gone then []
          else if colour then entry_text "nocolor" "Disable colors in the cli"
          else entry_text "color" "Enable colors in the cli")
      ++ entry_text "removecmds" "Remove both color and nocolor commands from the menu"
      ++ entry_text "sub" "Enter a submenu"
  | Sub =>
      entry_text "hello" "Print hello world in the submenu"
      ++ entry_text "demo" "Print a demo string"
      ++ entry_text "subsub" "Enter a submenu of second level"
      ++ entry_text "cli" "(menu)"
  | SubSub =>
      entry_text "hello" "Print hello world in the sub-submenu"
      ++ entry_text "sub" "Enter a submenu"
  end.
Definition prompt_of (p : place) : str := match p with Main => lit "cli" | Sub => lit "submenu" | SubSub => lit "subsub" end.

(** ** Users
    Where a user is, the lines remembered (oldest first) with the number of the first one, and how many lines
    were typed. *)
Record user := mkUser { u_place : place; u_first : Z; u_lines : list str; u_typed : nat }.
(** A line equal to the last one is not remembered again; the oldest one may have to go. *)
Definition keeps (size : nat) (line : str) (u : user) : user :=
  match rev (u_lines u) with
  | last :: _ =>
      if list_eq_dec ascii_dec last line then mkUser (u_place u) (u_first u) (u_lines u) (S (u_typed u))
      else if Nat.ltb size (S (length (u_lines u)))
           then mkUser (u_place u) (u_first u + 1) (tl (u_lines u) ++ [line]) (S (u_typed u))
           else mkUser (u_place u) (u_first u) (u_lines u ++ [line]) (S (u_typed u))
  | [] => mkUser (u_place u) (u_first u) [line] (S (u_typed u))
  end.
(** A line that recalls another one is forgotten. *)
Definition forgets (size : nat) (line : str) (u : user) : user :=
  let u' := keeps size line u in mkUser (u_place u') (u_first u') (removelast (u_lines u')) (u_typed u').
Definition goes (p : place) (u : user) : user := mkUser p (u_first u) (u_lines u) (u_typed u).
Definition remembered (u : user) : list entry := number (u_first u) (u_lines u).

(** ** Lines
    For the user (what is written on the session's stream: what follows the farewell of a telnet
    session comes after its socket was closed), for everyone, the user afterwards, the colours and their commands,
    whether the user has left. *)
Inductive reply := Reply (own all : str) (u : user) (colour gone : bool) (left_ : bool) | Broken.
Definition fish : str := lit "Goodbye and thanks for all the fish." ++ nl.
Definition caught (what line : str) : str :=
  lit "Exception caught in CLI handler: " ++ what ++ lit " while handling command: " ++ line ++ lit "." ++ nl.
(** What a user gets for an effect. *)
Definition replied (line : str) (e : effect) (u : user) (colour gone : bool) : reply :=
  match e with
  | Print t => Reply t [] u colour gone false
  | Everyone t => Reply [] t u colour gone false
  | Throw what => Reply (caught what line) [] u colour gone false
  | Enter p => Reply [] [] (goes p u) colour gone false
  | Paint true => Reply (lit "Colors ON" ++ nl) [] u true gone false
  | Paint false => Reply (lit "Colors OFF" ++ nl) [] u false gone false
  | Drop => Reply [] [] u colour true false
  | Undefined => Broken
  end.
Section Lines.
Context (complex : str -> Z -> Prop) (pc : Z -> str) (local : bool) (size : nat) (colour gone : bool).
Inductive answers (u : user) (line : str) : reply -> Prop :=
| a_blank : words line [] -> answers u line (Reply [] [] u colour gone false)
| a_help : words line [lit "help"] ->
    answers u line (Reply (global_help ++ menu_help colour gone (u_place u)) [] (keeps size line u) colour gone false)
| a_exit : words line [lit "exit"] ->
    answers u line (Reply ((if local then lit "Closing App..." ++ nl else lit "Terminating this session..." ++ nl) ++ fish) []
      (keeps size line u) colour gone true)
| a_history : words line [lit "history"] ->
    answers u line (Reply (listing (remembered (keeps size line u))) [] (keeps size line u) colour gone false)
| a_recall_first ws : words line ws -> is_recall ws ->
    u_lines (forgets size line u) = [] -> u_first (forgets size line u) = 0%Z -> answers u line Broken
| a_recall_none s v : words line [lit "!"; s] -> int_text UInt s v ->
    ~ (u_lines (forgets size line u) = [] /\ u_first (forgets size line u) = 0%Z) ->
    (forall l, ~ In (v, l) (remembered (forgets size line u))) ->
    answers u line (Reply (caught (lit "Index not found in history") line) [] (forgets size line u) colour gone false)
| a_recall s v l r : words line [lit "!"; s] -> int_text UInt s v -> In (v, l) (remembered (forgets size line u)) ->
    answers (forgets size line u) l r -> answers u line r
| a_effect ws e : words line ws -> effects complex pc colour gone (u_place u) ws e ->
    answers u line (replied line e (keeps size line u) colour gone)
| a_wrong ws : words line ws -> ws <> [] -> ws <> [lit "help"] -> ws <> [lit "exit"] -> ws <> [lit "history"] -> ~ is_recall ws ->
    (forall e, ~ effects complex pc colour gone (u_place u) ws e) ->
    answers u line (Reply (lit "Unknown command or incorrect parameters: " ++ line ++ lit "." ++ nl) [] (keeps size line u) colour gone false).
End Lines.

(** ** The house: all users, what they share, and the lines saved for later *)
Record house := mkHouse {
  o_colour : bool; o_gone : bool; o_saved : list str; o_users : nat -> option user; o_count : nat; o_closed : bool }.
Definition newcomer (size : nat) (saved : list str) : user :=
  mkUser Main (Z.of_nat (length saved - size)) (lastn size saved) 0.
Definition room (local : bool) : nat := if local then 200 else 100.
Definition place_user (i : nat) (u : option user) (f : nat -> option user) : nat -> option user :=
  fun j => if Nat.eqb j i then u else f j.
(** What happens: the next user comes (the first one at the computer, the others over the network); a user types a line; a
    user is lost. *)
Inductive happening := Comes | Types (i : nat) (line : str) | Leaves (i : nat).
(** The program can come to an end: undefined behaviour, an exception that is not caught, and recalls of lines that recall each
    other, for which there is no answer. *)
Inductive ending := Undef | Crash | Endless.
(** Recalls that nest more deeply than this are endless. *)
Definition deep : nat := 202 * 202.
Section House.
Context (complex : str -> Z -> Prop) (pc : Z -> str).
(** [happens h x own all h'].  When the user at the computer exits, all is over. *)
Inductive happens (h : house) : happening -> str -> str -> house + ending -> Prop :=
| h_closed x : o_closed h = true -> happens h x [] [] (inl h)
| h_comes : o_closed h = false ->
    happens h Comes [] [] (inl (mkHouse (o_colour h) (o_gone h) (o_saved h)
      (place_user (o_count h) (Some (newcomer (room (Nat.eqb (o_count h) 0)) (o_saved h))) (o_users h)) (S (o_count h)) false))
| h_nobody i line : o_closed h = false -> o_users h i = None -> happens h (Types i line) [] [] (inl h)
| h_types i line u own all u' c g : o_closed h = false -> o_users h i = Some u ->
    answers complex pc (Nat.eqb i 0) (room (Nat.eqb i 0)) (o_colour h) (o_gone h) u line (Reply own all u' c g false) ->
    happens h (Types i line) own all (inl (mkHouse c g (o_saved h) (place_user i (Some u') (o_users h)) (o_count h) false))
| h_exits i line u own all u' c g : o_closed h = false -> o_users h i = Some u ->
    answers complex pc (Nat.eqb i 0) (room (Nat.eqb i 0)) (o_colour h) (o_gone h) u line (Reply own all u' c g true) ->
    happens h (Types i line) own all (inl (mkHouse c g (lastn 1000 (o_saved h ++ lastn (u_typed u') (u_lines u')))
      (place_user i None (o_users h)) (o_count h) (Nat.eqb i 0)))
| h_broken i line u : o_closed h = false -> o_users h i = Some u ->
    answers complex pc (Nat.eqb i 0) (room (Nat.eqb i 0)) (o_colour h) (o_gone h) u line Broken ->
    happens h (Types i line) [] [] (inr Undef)
| h_endless i line u : o_closed h = false -> o_users h i = Some u ->
    (forall r, ~ answers complex pc (Nat.eqb i 0) (room (Nat.eqb i 0)) (o_colour h) (o_gone h) u line r) ->
    happens h (Types i line) [] [] (inr Endless)
| h_leaves i : o_closed h = false ->
    happens h (Leaves i) [] [] (inl (mkHouse (o_colour h) (o_gone h) (o_saved h) (place_user i None (o_users h)) (o_count h) false)).
(** The replies to each happening, as long as all is defined. *)
Inductive goes_on : house -> list happening -> list (str * str) -> house + ending -> Prop :=
| g_nil h : goes_on h [] [] (inl h)
| g_cons h x own all h' xs l r : happens h x own all (inl h') -> goes_on h' xs l r -> goes_on h (x :: xs) ((own, all) :: l) r
| g_broken h x xs e : happens h x [] [] (inr e) -> goes_on h (x :: xs) [] (inr e).
End House.
Definition morning (saved : list str) : house := mkHouse false false saved (fun _ => None) 0 false.

(** ** What the program does, in these terms *)
Definition act_of (x : happening) : act := match x with Comes => AOpen | Types i line => ALine i line | Leaves i => ALost i end.
Definition whole_complex (rc : str -> option (Z * str)) (s : str) (v : Z) : Prop :=
  exists rest, rc s = Some (v, rest) /\ Forall FromStringSpec.white rest.
Definition for_user (i : nat) (evs : list event) : str :=
  flat_map (fun e => match e with EvOut j s => if Nat.eqb j i then s else [] | _ => [] end) evs.
Definition for_all (evs : list event) : str := flat_map (fun e => match e with EvBroadcast s => s | _ => [] end) evs.
(** Only the user who types a line gets its reply. *)
Definition delivers (x : happening) (evs : list event) (said : str * str) : Prop :=
  (forall j, for_user j evs = match x with Types i _ => if Nat.eqb i j then fst said else [] | _ => [] end) /\
  for_all evs = snd said.
Inductive delivered : list happening -> list (list event) -> list (str * str) -> Prop :=
| del_nil xs : delivered xs [] []
| del_cons x xs evs es said l : delivers x evs said -> delivered xs es l -> delivered (x :: xs) (evs :: es) (said :: l).
Definition recalls (line : str) : Prop := exists ws, words line ws /\ is_recall ws.
(** The commands for colours that can be used. *)
Definition colour_kids (a : prog) : list str :=
  map cmd_name (filter (fun k => cmd_en k && (str_eqb (cmd_name k) (lit "color") || str_eqb (cmd_name k) (lit "nocolor"))) (cmd_kids (a_root a))).
(** What can be seen of the program at the end of a day: prompts, who is there, the colour of prompts, the lines saved. *)
Definition seen (h : house) (a : prog) : Prop :=
  (forall i, match o_users h i with
             | Some u => exists s, a_ses a i = Some s /\ prompt_text (world_of a i s) = Some (prompt_of (u_place u))
             | None => a_ses a i = None
             end) /\
  cx_color (a_trace a) = o_colour h /\ st_commands (a_store a) = o_saved h /\ a_stopped a = o_closed h.
