(** * Specification of the example program pluginmanager.cpp
    What its user sees, for all lines. *)

From Coq Require Import Sorted Permutation.
From Verif Require Import Base SplitSpec FromStringModel FromStringSpec HistorySpec MenuModel SessionModel CompletionSpec ExampleSpec CompleteSpec.
Open Scope nat_scope.
Open Scope list_scope.

(** ** The shop
    Plugins may be loaded many times; each has the number of plugins loaded before it. *)
Inductive spot := Home | Within (n : nat).
(** Where the user is; the plugins, oldest first; how many were ever loaded; the last of the commands for
    colours that was used; the lines remembered (CompleteSpec.v; the place there plays no role). *)
Record shop := mkShop { p_spot : spot; p_loaded : list (nat * str); p_count : nat; p_paint : option bool; p_user : user }.
Definition opened : shop := mkShop Home [] 0 None (mkUser Main 0 [] 0).
Definition known (p : str) : Prop := p = lit "arithmetic" \/ p = lit "strings".
(** The place the user is in exists. *)
Definition stands (d : shop) : Prop := match p_spot d with Home => True | Within n => In n (map fst (p_loaded d)) end.

(** ** What the words of a line do *)
Inductive deed :=
| Print (text : str)
| Load (p : str)
| Unload (p : str)
| Paint (on : bool)
| Go (s : spot)
| Undefined.
Definition item (p : str) : str := lit " - " ++ p ++ nl.
Definition capital (a b : ascii) : Prop :=
  (exists i, nth_error (lit "abcdefghijklmnopqrstuvwxyz") i = Some a /\ nth_error (lit "ABCDEFGHIJKLMNOPQRSTUVWXYZ") i = Some b) \/
  (~ In a (lit "abcdefghijklmnopqrstuvwxyz") /\ b = a).
Definition diff2 (x y : Z) : str := print_Z x ++ lit " - " ++ print_Z y ++ lit " = " ++ print_Z (x - y) ++ nl.

Section Words.
(** [registered]: the plugins in the order of the list. *)
Context (registered : list str) (d : shop).
(** [way p w q]: the word [w] leads from [p] to [q]; of several plugins of the same name, to the oldest. *)
Inductive way : spot -> str -> spot -> Prop :=
| way_in l1 n w l2 : p_loaded d = l1 ++ (n, w) :: l2 -> Forall (fun x => snd x <> w) l1 -> way Home w (Within n)
| way_out n : way (Within n) (lit "cli") Home
| way_up n : way (Within n) (lit "..") Home.
(** [inside n p]: the plugin [n] has the name [p]. *)
Definition inside (n : nat) (p : string) : Prop := In (n, lit p) (p_loaded d).
Inductive deeds : spot -> list str -> deed -> Prop :=
| d_list : deeds Home [lit "list"] (Print (concat (map item registered)))
| d_loaded : deeds Home [lit "loaded"] (Print (concat (map item (map snd (p_loaded d)))))
| d_load p : known p -> deeds Home [lit "load"; p] (Load p)
| d_load_no p : ~ known p -> deeds Home [lit "load"; p] (Print [])
| d_unload p : deeds Home [lit "unload"; p] (Unload p)
| d_color : p_paint d <> Some true -> deeds Home [lit "color"] (Paint true)
| d_nocolor : p_paint d <> Some false -> deeds Home [lit "nocolor"] (Paint false)
| d_add n s x t y : inside n "arithmetic" -> int_text Int s x -> int_text Int t y -> fits (x + y) ->
    deeds (Within n) [lit "add"; s; t] (Print (sum2 x y))
| d_add_ub n s x t y : inside n "arithmetic" -> int_text Int s x -> int_text Int t y -> ~ fits (x + y) ->
    deeds (Within n) [lit "add"; s; t] Undefined
| d_add3 n s x t y u z : inside n "arithmetic" -> int_text Int s x -> int_text Int t y -> int_text Int u z -> fits (x + y) -> fits (x + y + z) ->
    deeds (Within n) [lit "add"; s; t; u] (Print (sum3 x y z))
| d_add3_ub n s x t y u z : inside n "arithmetic" -> int_text Int s x -> int_text Int t y -> int_text Int u z -> ~ (fits (x + y) /\ fits (x + y + z)) ->
    deeds (Within n) [lit "add"; s; t; u] Undefined
| d_sub n s x t y : inside n "arithmetic" -> int_text Int s x -> int_text Int t y -> fits (x - y) ->
    deeds (Within n) [lit "sub"; s; t] (Print (diff2 x y))
| d_sub_ub n s x t y : inside n "arithmetic" -> int_text Int s x -> int_text Int t y -> ~ fits (x - y) ->
    deeds (Within n) [lit "sub"; s; t] Undefined
| d_reverse n s : inside n "strings" -> deeds (Within n) [lit "reverse"; s] (Print (rev s ++ nl))
| d_upper n s t : inside n "strings" -> Forall2 capital s t -> deeds (Within n) [lit "upper"; s] (Print (t ++ nl))
| d_sort n ws l : inside n "strings" -> Permutation ws l -> in_order l ->
    deeds (Within n) (lit "sort" :: ws) (Print (lit "sorted list: " ++ concat (map (fun s => s ++ lit " ") l) ++ nl))
| d_enter p w q : way p w q -> deeds p [w] (Go q)
| d_through p w q ws e : way p w q -> deeds q ws e -> deeds p (w :: ws) e.
End Words.

Definition named (p : str) (x : nat * str) : bool := if list_eq_dec ascii_dec (snd x) p then true else false.
Definition hail (p : str) : str := lit "Plugin " ++ p ++ lit " loaded" ++ nl.
Definition part (p : str) : str := lit "Plugin " ++ p ++ lit " unloaded" ++ nl.
(** What a deed prints, and the shop afterwards. *)
Definition heard (d : shop) (e : deed) : str :=
  match e with
  | Print t => t
  | Load p => hail p
  | Unload p => concat (map part (map snd (filter (named p) (p_loaded d))))
  | Paint true => lit "Colors ON" ++ nl
  | Paint false => lit "Colors OFF" ++ nl
  | Go _ | Undefined => []
  end.
Definition moved (d : shop) (e : deed) : shop :=
  match e with
  | Load p => mkShop (p_spot d) (p_loaded d ++ [(p_count d, p)]) (S (p_count d)) (p_paint d) (p_user d)
  | Unload p => mkShop (p_spot d) (filter (fun x => negb (named p x)) (p_loaded d)) (p_count d) (p_paint d) (p_user d)
  | Paint on => mkShop (p_spot d) (p_loaded d) (p_count d) (Some on) (p_user d)
  | Go s => mkShop s (p_loaded d) (p_count d) (p_paint d) (p_user d)
  | Print _ | Undefined => d
  end.
Definition with_user (u : user) (d : shop) : shop := mkShop (p_spot d) (p_loaded d) (p_count d) (p_paint d) u.

Definition plugin_help (p : str) : str :=
  if list_eq_dec ascii_dec p (lit "arithmetic") then
    entry_text "add <first_term> <second_term>" "Print the sum of the two numbers"
    ++ entry_text "add <int> <int> <int>" "Print the sum of the three numbers"
    ++ entry_text "sub <subtrahend> <minuend>" "Print the result of a subtraction"
  else
    entry_text "reverse <string_to_revert>" "Print the reverse string"
    ++ entry_text "upper <string>" "Print the string in uppercase"
    ++ entry_text "sort <list of strings separated by space>" "Alphabetically sort a list of words".
Definition home_help (d : shop) : str :=
  entry_text "list" "Print the plugin list"
  ++ entry_text "loaded" "Load the plugin specified"
  ++ entry_text "load <plugin_name>" "Load the plugin specified"
  ++ entry_text "unload <plugin_name>" "Unload the plugin specified"
  ++ (match p_paint d with Some true => [] | _ => entry_text "color" "Enable colors in the cli" end)
  ++ (match p_paint d with Some false => [] | _ => entry_text "nocolor" "Disable colors in the cli" end)
  ++ concat (map (fun x => lit " - " ++ snd x ++ nl ++ tab ++ lit "Enter the " ++ snd x ++ lit " plugin menu" ++ nl) (p_loaded d)).
(** [help_at d text]: the help for the menu the user is in. *)
Inductive help_at (d : shop) : str -> Prop :=
| help_home : p_spot d = Home -> help_at d (home_help d)
| help_in n p : p_spot d = Within n -> In (n, p) (p_loaded d) -> help_at d (plugin_help p ++ entry_text "cli" "(menu)").
(** The name of the place the user is in. *)
Inductive sign (d : shop) : str -> Prop :=
| sign_home : p_spot d = Home -> sign d (lit "cli")
| sign_in n p : p_spot d = Within n -> In (n, p) (p_loaded d) -> sign d p.

(** ** Lines *)
Inductive reply := Reply (text : str) (d : shop) (left_ : bool) | Broken.
Section Lines.
Context (registered : list str).
Notation size := 200.
Notation keep line d := (with_user (keeps size line (p_user d)) d).
Notation forget line d := (with_user (forgets size line (p_user d)) d).
Inductive answers (d : shop) (line : str) : reply -> Prop :=
| a_blank : words line [] -> answers d line (Reply [] d false)
| a_help text : words line [lit "help"] -> help_at d text -> answers d line (Reply (global_help ++ text) (keep line d) false)
| a_exit : words line [lit "exit"] ->
    answers d line (Reply (lit "Closing App..." ++ nl ++ fish ++ concat (map part (map snd (p_loaded d)))) (keep line d) true)
| a_history : words line [lit "history"] ->
    answers d line (Reply (listing (remembered (keeps size line (p_user d)))) (keep line d) false)
| a_recall_first ws : words line ws -> is_recall ws ->
    u_lines (forgets size line (p_user d)) = [] -> u_first (forgets size line (p_user d)) = 0%Z -> answers d line Broken
| a_recall_none s v : words line [lit "!"; s] -> int_text UInt s v ->
    ~ (u_lines (forgets size line (p_user d)) = [] /\ u_first (forgets size line (p_user d)) = 0%Z) ->
    (forall l, ~ In (v, l) (remembered (forgets size line (p_user d)))) ->
    answers d line (Reply (lit "Index not found in history" ++ nl) (forget line d) false)
| a_recall s v l r : words line [lit "!"; s] -> int_text UInt s v -> In (v, l) (remembered (forgets size line (p_user d))) ->
    answers (forget line d) l r -> answers d line r
| a_deed ws e : words line ws -> deeds registered d (p_spot d) ws e -> e <> Undefined -> stands (moved (keep line d) e) ->
    answers d line (Reply (heard d e) (moved (keep line d) e) false)
(** The plugin whose menu the user is in is unloaded. *)
| a_lost ws e : words line ws -> deeds registered d (p_spot d) ws e -> e <> Undefined -> ~ stands (moved (keep line d) e) ->
    answers d line Broken
| a_undefined ws : words line ws -> deeds registered d (p_spot d) ws Undefined -> answers d line Broken
| a_wrong ws : words line ws -> ws <> [] -> ws <> [lit "help"] -> ws <> [lit "exit"] -> ws <> [lit "history"] -> ~ is_recall ws ->
    (forall e, ~ deeds registered d (p_spot d) ws e) ->
    answers d line (Reply (lit "wrong command: " ++ line ++ nl) (keep line d) false).

(** ** All lines
    The prompt; colours are used once the command for them was given and until the other one is. *)
Definition painted (d : shop) : bool := match p_paint d with Some b => b | None => false end.
Definition shows (tty codes : bool) (d : shop) (p : str) : Prop :=
  exists name, sign d name /\
    p = (if painted d then esc "32" ++ esc "1" else []) ++ name ++ (if painted d || codes || tty then esc "0" else []) ++ lit "> ".
Inductive finish := Stays (d : shop) | Left | Undef.
(** [talk tty codes d lines texts f]: what is printed for each line; [codes]: colours were used before. *)
Inductive talk (tty : bool) : bool -> shop -> list str -> list str -> finish -> Prop :=
| t_nil codes d : talk tty codes d [] [] (Stays d)
| t_line codes d line ls text d' p l f : answers d line (Reply text d' false) -> shows tty codes d' p ->
    talk tty (painted d' || codes) d' ls l f -> talk tty codes d (line :: ls) ((text ++ p) :: l) f
| t_exit codes d line ls text d' : answers d line (Reply text d' true) -> talk tty codes d (line :: ls) [text] Left
| t_broken codes d line ls : answers d line Broken -> talk tty codes d (line :: ls) [[]] Undef.
End Lines.
