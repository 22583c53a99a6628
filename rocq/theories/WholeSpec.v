(** * Specification of the example program complete.cpp, key by key and byte by byte
    What its users see when they hit keys.  The answers to lines: CompleteSpec.v. *)

From Verif Require Import Base SplitSpec PrefixSpec FromStringModel FromStringSpec FromStringProofs HistorySpec StorageModel StorageSpec TerminalModel TerminalSpec MenuModel SessionModel
  CompletionSpec ProcessorModel ProcessorSpec TelnetModel ServerModel WireModel AcceptSpec WireSpec ExampleSpec CompleteModel CompleteSpec WholeModel.
Open Scope nat_scope.
Open Scope list_scope.

(** ** What is shown
    Escape sequences of colours and the like *)
Definition escape (s : string) : str := "027"%char :: "["%char :: lit s.
(** The line being typed; whether texts are followed by an escape sequence that ends colours: on terminals, and once
    colours have been used; when remembered lines are looked at: the line that was being typed, and how many lines back
    the user is. *)
Record desk := mkDesk { d_line : editor; d_marks : bool; d_page : option (str * nat) }.
(** Text of the user in bright white when colours are on. *)
Definition tinted (colour marks : bool) (s : str) : str :=
  (if colour then escape "97m" else []) ++ s ++ (if marks || colour then escape "0m" else []).
Definition prompt_shown (colour marks : bool) (p : place) : str :=
  (if colour then escape "32m" ++ escape "1m" else []) ++ prompt_of p ++ (if marks || colour then escape "0m" else []) ++ lit "> ".
Definition back (n : nat) : str := repeat "008"%char n.
(** What a key that edits the line shows: the part of the line that has changed, and the cursor goes back. *)
Definition echo (colour marks : bool) (k : key) (e : editor) : str :=
  match k, before e, TerminalSpec.after e with
  | KAscii c, _, r => tinted colour marks (c :: r) ++ back (length r)
  | KBackspace, _ :: _, r => back 1 ++ r ++ lit " " ++ back (S (length r))
  | KCanc, _, _ :: r => r ++ lit " " ++ back (S (length r))
  | KLeft, _ :: _, _ => back 1
  | KRight, _, c :: _ => tinted colour marks [c]
  | KHome, l, _ => back (length l)
  | KEnd, _, r => tinted colour marks r
  | _, _, _ => []
  end.
(** Whether it uses colours. *)
Definition inks (k : key) (e : editor) : bool :=
  match k, TerminalSpec.after e with KAscii _, _ | KEnd, _ | KRight, _ :: _ => true | _, _ => false end.
Definition blank_line : editor := mkEd [] [].
Definition ended (s : str) : editor := mkEd (rev s) [].
(** The line is replaced by [s]: what a longer line leaves over is wiped out. *)
Definition swapped (colour marks : bool) (s : str) (e : editor) : str :=
  let n := length (ed_text e) - length s in tinted colour marks (back (length (before e)) ++ s) ++ repeat " "%char n ++ back n.

(** *** Remembered lines *)
(** The line that is [n] lines back, 0 being the one that was being typed. *)
Definition line_back (u : user) (typed : str) (n : nat) : str := nth n (typed :: rev (u_lines u)) [].
(** The line being typed takes a place among the remembered ones, so the oldest one may have to go. *)
Definition makes_room (size : nat) (u : user) : user :=
  if Nat.ltb (length (u_lines u)) size then u else mkUser (u_place u) (u_first u + 1) (tl (u_lines u)) (u_typed u).
Fixpoint replaced (n : nat) (s : str) (l : list str) : list str :=
  match l, n with [], _ => [] | _ :: r, 0 => s :: r | x :: r, S m => x :: replaced m s r end.
(** The remembered line being looked at becomes what the user has made of it. *)
Definition rewrites (n : nat) (s : str) (u : user) : user :=
  mkUser (u_place u) (u_first u) (rev (replaced n s (rev (u_lines u)))) (u_typed u).
(** The user, the line that was being typed and the position after Up and Down. *)
Definition turn_up (size : nat) (s : str) (u : user) (page : option (str * nat)) : user * (str * nat) :=
  match page with
  | None => let u' := makes_room size u in (u', (s, Nat.min 1 (length (u_lines u'))))
  | Some (_, 0) => (u, (s, Nat.min 1 (length (u_lines u))))
  | Some (typed, S n) => (rewrites n s u, (typed, Nat.min (S (S n)) (length (u_lines u))))
  end.
Definition turn_down (u : user) (page : option (str * nat)) : str * option (str * nat) :=
  match page with
  | Some (typed, S n) => (line_back u typed n, Some (typed, n))
  | _ => ([], page)
  end.

(** *** Completions
    The names that can be completed in a place: of commands, and of the menus next to it. *)
Definition names (colour gone : bool) (p : place) : list str :=
  map lit match p with
  | Main => ["free_function"; "hello"; "hello_everysession"; "answer"; "file"; "echo"; "error"; "reverse"; "add"; "sort"; "bar"; "complex"; "removecmds"; "sub"]%string
            ++ if gone then [] else if colour then ["nocolor"%string] else ["color"%string]
  | Sub => ["hello"; "demo"; "subsub"; "cli"]%string
  | SubSub => ["hello"; "sub"]%string
  end.
(** [suggests p line s]: in place [p] the line [line], without blanks in front, can become [s]: a name, or one that is complete
    already and leads to another place, and what can follow there. *)
Inductive suggests (colour gone : bool) : place -> str -> str -> Prop :=
| s_name p line w : In w (names colour gone p) -> is_prefix line w -> (line = w -> forall q, ~ door p w q) -> suggests colour gone p line w
| s_through p w q rest s : door p w q -> suggests colour gone q (trim rest) s -> suggests colour gone p (w ++ rest) (w ++ lit " " ++ s).
Definition suggestions (colour gone : bool) (p : place) (line : str) (l : list str) : Prop :=
  increasing l /\ forall s, In s l <->
    (In s (map lit ["help"; "exit"; "history"; "!"]%string) /\ is_prefix (trim line) s) \/ suggests colour gone p (trim line) s.

(** *** Keys that change the desk only, and maybe the remembered lines
    [adjusts k u d shown u' d'] *)
Section Desk.
Context (colour gone : bool) (size : nat).
Definition tab_key : key := KAscii "009".
Definition redrawn (u : user) (e : editor) (marks : bool) : str := prompt_shown colour marks (u_place u) ++ tinted colour marks (ed_text e).
Inductive adjusts : key -> user -> desk -> str -> user -> desk -> Prop :=
| j_edits k u e marks page : editing k = true ->
    adjusts k u (mkDesk e marks page) (echo colour marks k e) u (mkDesk (ed_key k e) (marks || inks k e && colour) page)
| j_clears u e marks page :
    adjusts KClear u (mkDesk e marks page) (escape "H" ++ escape "J" ++ redrawn u e marks) u (mkDesk (ended (ed_text e)) (marks || colour) page)
| j_up u e marks page u' typed n s : turn_up size (ed_text e) u page = (u', (typed, n)) -> s = line_back u' typed n ->
    adjusts KUp u (mkDesk e marks page) (swapped colour marks s e) u' (mkDesk (ended s) (marks || colour) (Some (typed, n)))
| j_down u e marks page s page' : turn_down u page = (s, page') ->
    adjusts KDown u (mkDesk e marks page) (swapped colour marks s e) u (mkDesk (ended s) (marks || colour) page')
| j_none u e marks page : suggestions colour gone (u_place u) (ed_text e) [] ->
    adjusts tab_key u (mkDesk e marks page) [] u (mkDesk e marks page)
| j_one u e marks page s : suggestions colour gone (u_place u) (ed_text e) [s] ->
    adjusts tab_key u (mkDesk e marks page) (swapped colour marks (s ++ lit " ") e) u (mkDesk (ended (s ++ lit " ")) (marks || colour) page)
| j_more u e marks page l s : suggestions colour gone (u_place u) (ed_text e) l -> 2 <= length l -> longest_common_prefix l s ->
    length (ed_text e) < length s ->
    adjusts tab_key u (mkDesk e marks page) (swapped colour marks s e) u (mkDesk (ended s) (marks || colour) page)
| j_list u e marks page l s : suggestions colour gone (u_place u) (ed_text e) l -> 2 <= length l -> longest_common_prefix l s ->
    length s <= length (ed_text e) ->
    adjusts tab_key u (mkDesk e marks page) (nl ++ flat_map (fun x => tab ++ x) l ++ nl ++ redrawn u e marks) u
      (mkDesk (ended (ed_text e)) (marks || colour) page).
End Desk.
(** A line that is not blank is the end of looking at remembered lines. *)
Definition page_after (line : str) (page page' : option (str * nat)) : Prop :=
  (words line [] /\ page' = page) \/ (~ words line [] /\ page' = None).

(** ** The hall: the house, the desks of its users, and the users who have said goodbye over the network but whose
    last keys, sent with it, are still handled *)
Record hall := mkHall { l_house : house; l_desks : nat -> desk; l_late : nat -> option user }.
Definition put {A} (i : nat) (x : A) (f : nat -> A) : nat -> A := fun j => if Nat.eqb j i then x else f j.
(** Someone comes (the first one to the computer, the others over the network); user [i]'s key is handled;
    user [i]'s connection is over. *)
Inductive move := Arrives | Hits (i : nat) (k : key) | Goes (i : nat).
(** What everyone sees *)
Definition for_one (i : nat) (s : str) : nat -> str := fun j => if Nat.eqb j i then s else [].
Definition for_present (h : house) (s : str) : nat -> str := fun j => match o_users h j with Some _ => s | None => [] end.
Definition goodbye (i : nat) : str := if Nat.eqb i 0 then lit "Closing App..." ++ nl ++ fish else lit "Terminating this session..." ++ nl.
(** User [i] goes on, or leaves and the lines typed are saved; if that is the one at the computer, all is over. *)
Definition stays (h : house) (i : nat) (u : option user) (c g : bool) : house :=
  mkHouse c g (o_saved h) (place_user i u (o_users h)) (o_count h) (o_closed h).
Definition departs (h : house) (i : nat) (u : user) (c g : bool) : house :=
  mkHouse c g (lastn 1000 (o_saved h ++ lastn (u_typed u) (u_lines u))) (place_user i None (o_users h)) (o_count h) (Nat.eqb i 0).
Section Hall.
Context (complex : str -> Z -> Prop) (pc : Z -> str) (tty : bool).
Definition replies_to (h : house) (i : nat) (u : user) (line : str) (r : reply) : Prop :=
  answers complex pc (Nat.eqb i 0) (room (Nat.eqb i 0)) (o_colour h) (o_gone h) u line r.
Inductive moves (H : hall) : move -> (nat -> str) -> hall + ending -> Prop :=
| m_arrives h n marks : h = l_house H -> n = o_count h -> marks = Nat.eqb n 0 && tty ->
    moves H Arrives (for_one n ((if Nat.eqb n 0 then [] else hello) ++ prompt_shown (o_colour h) marks Main))
      (inl (mkHall (mkHouse (o_colour h) (o_gone h) (o_saved h)
                     (place_user n (Some (newcomer (room (Nat.eqb n 0)) (o_saved h))) (o_users h)) (S n) (o_closed h))
        (put n (mkDesk blank_line (marks || o_colour h) None) (l_desks H)) (l_late H)))
| m_adjusts h i k u said u' d : h = l_house H -> o_users h i = Some u ->
    adjusts (o_colour h) (o_gone h) (room (Nat.eqb i 0)) k u (l_desks H i) said u' d ->
    moves H (Hits i k) (for_one i said) (inl (mkHall (stays h i (Some u') (o_colour h) (o_gone h)) (put i d (l_desks H)) (l_late H)))
| m_enters h i u e marks page page' own all u' c g : h = l_house H -> o_users h i = Some u -> l_desks H i = mkDesk e marks page ->
    replies_to h i u (ed_text e) (Reply own all u' c g false) -> page_after (ed_text e) page page' ->
    moves H (Hits i KRet)
      (put i (["013"; "010"]%char ++ own ++ all ++ prompt_shown c marks (u_place u')) (for_present h all))
      (inl (mkHall (stays h i (Some u') c g) (put i (mkDesk blank_line (marks || c) page') (l_desks H)) (l_late H)))
| m_exits h i u e marks page own all u' c g : h = l_house H -> o_users h i = Some u -> l_desks H i = mkDesk e marks page ->
    replies_to h i u (ed_text e) (Reply own all u' c g true) ->
    moves H (Hits i KRet) (for_one i (["013"; "010"]%char ++ goodbye i))
      (inl (mkHall (departs h i u' c g) (put i (mkDesk blank_line marks None) (l_desks H)) (put i (Some u') (l_late H))))
| m_eof h i u : h = l_house H -> o_users h i = Some u ->
    moves H (Hits i KEof) (for_one i (goodbye i))
      (inl (mkHall (departs h i u (o_colour h) (o_gone h)) (l_desks H) (put i (Some u) (l_late H))))
| m_goes h i : h = l_house H -> i <> 0 ->
    moves H (Goes i) (fun _ => []) (inl (mkHall (stays h i None (o_colour h) (o_gone h)) (l_desks H) (put i None (l_late H))))
(** Those who have left see nothing, but what they have sent is done, for others to see. *)
| m_late_adjusts h i k u said u' d : h = l_house H -> l_late H i = Some u ->
    adjusts (o_colour h) (o_gone h) (room (Nat.eqb i 0)) k u (l_desks H i) said u' d ->
    moves H (Hits i k) (fun _ => []) (inl (mkHall (stays h i None (o_colour h) (o_gone h)) (put i d (l_desks H)) (put i (Some u') (l_late H))))
| m_late_enters h i u e marks page page' own all u' c g gone_ : h = l_house H -> l_late H i = Some u -> l_desks H i = mkDesk e marks page ->
    replies_to h i u (ed_text e) (Reply own all u' c g gone_) -> page_after (ed_text e) page page' ->
    moves H (Hits i KRet) (for_present h all)
      (inl (mkHall (stays h i None c g) (put i (mkDesk blank_line marks page') (l_desks H)) (put i (Some u') (l_late H))))
| m_late_eof i u : l_late H i = Some u -> moves H (Hits i KEof) (fun _ => []) (inr Crash)
(** For all *)
| m_breaks h i u : h = l_house H -> o_users h i = Some u \/ l_late H i = Some u ->
    replies_to h i u (ed_text (d_line (l_desks H i))) Broken -> moves H (Hits i KRet) (fun _ => []) (inr Undef)
| m_endless h i u : h = l_house H -> o_users h i = Some u \/ l_late H i = Some u ->
    (forall r, ~ replies_to h i u (ed_text (d_line (l_desks H i))) r) -> moves H (Hits i KRet) (fun _ => []) (inr Endless).
(** All moves, as long as the program goes on, with what is seen at each of them. *)
Inductive plays : hall -> list move -> list (nat -> str) -> hall + ending -> Prop :=
| p_nil H : plays H [] [] (inl H)
| p_cons H m said H' ms l r : moves H m said (inl H') -> plays H' ms l r -> plays H (m :: ms) (said :: l) r
| p_ends H m said e ms : moves H m said (inr e) -> plays H (m :: ms) [] (inr e).
End Hall.
(** The program is started; [saved]: the lines of the history file. *)
Definition dawn (saved : list str) : hall := mkHall (morning saved) (fun _ => mkDesk blank_line false None) (fun _ => None).
(** All that user [i] sees *)
Definition view (i : nat) (l : list (nat -> str)) : str := flat_map (fun said => said i) l.
(** Keys the specification is about: characters other than the end of a line, which the platform can read. *)
Definition ok_key (P : platform) (k : key) : Prop := match k with KAscii c => c <> "010"%char /\ readable P [c] | _ => True end.
Definition ok_move (P : platform) (m : move) : Prop := match m with Hits _ k => ok_key P k | _ => True end.
Definition hits (i : nat) (ms : list move) : list key :=
  flat_map (fun m => match m with Hits j k => if Nat.eqb j i then [k] else [] | _ => [] end) ms.

(** ** The program seen in these terms *)
Section Observe.
Context (P : platform) (rc : str -> option (Z * str)) (pc : Z -> str) (net : nat -> list event -> bool) (fuel : nat) (tty : bool).
Notation step := (w_step P rc pc net fuel tty).
Definition moved (x : winput) (sv : server) : list move :=
  if stopped (sv_trace sv) then [] else
  match x, sv_queue sv with
  | WNet IRun, TkKey i k :: _ => [Hits i k]
  | WNet IRun, TkAccept true :: _ => [Arrives]
  | WNet IRun, TkRead i _ :: _ =>
      match step x sv with VOk sv' => match sv_conns sv' i with None => [Goes i] | Some _ => [] end | _ => [] end
  | _, _ => []
  end.
Fixpoint w_moves (xs : list winput) (sv : server) : list move :=
  match xs with
  | [] => []
  | x :: xs' => moved x sv ++ match step x sv with VOk sv' => w_moves xs' sv' | _ => [] end
  end.
(** The keys pressed at the computer; the bytes read from the client of session [sid], and the replies to telnet commands
    among them, as in ServerSpec.v. *)
Fixpoint w_pressed (xs : list winput) (sv : server) : list key :=
  match xs with
  | [] => []
  | x :: xs' => match x with WKey k => if stopped (sv_trace sv) then [] else [k] | _ => [] end ++ match step x sv with VOk sv' => w_pressed xs' sv' | _ => [] end
  end.
Fixpoint w_delivered (sid : nat) (xs : list winput) (sv : server) : str :=
  match xs with
  | [] => []
  | x :: xs' =>
      match x with
      | WNet (IRead j (RData chunk)) =>
          match sv_conns sv sid with Some c => if Nat.eqb j sid && c_reading c && negb (stopped (sv_trace sv)) then chunk else [] | None => [] end
      | _ => []
      end ++ match step x sv with VOk sv' => w_delivered sid xs' sv' | _ => [] end
  end.
Fixpoint w_replied (sid : nat) (xs : list winput) (sv : server) : list str :=
  match xs with
  | [] => []
  | x :: xs' =>
      match x with
      | WNet i => if stopped (sv_trace sv) then [] else ServerSpec.replies (cx_env P rc pc) net sid i sv
      | _ => []
      end ++ match step x sv with VOk sv' => w_replied sid xs' sv' | _ => [] end
  end.
End Observe.
(** What can be seen of the program: who is there, the colours, the lines saved. *)
Definition hall_seen (H : hall) (sv : server) : Prop :=
  (forall i, o_users (l_house H) i <> None <-> exists c, sv_conns sv i = Some c /\ c_exit c = false) /\
  (forall i u c, o_users (l_house H) i = Some u -> sv_conns sv i = Some c ->
     get_line (c_term c) = ed_text (d_line (l_desks H i)) /\ prompt_text (p_world (proc_of sv i c)) = Some (prompt_of (u_place u))) /\
  cx_color (sv_trace sv) = o_colour (l_house H) /\ st_commands (sv_store sv) = o_saved (l_house H) /\
  stopped (sv_trace sv) = o_closed (l_house H).
