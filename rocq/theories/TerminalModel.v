(** * Model of the line editor
    Sources: /repo/include/cli/detail/terminal.h, detail/inputdevice.h (key codes),
    colorprofile.h and detail/rang.h (colour escapes), detail/telnetscreen.h. *)

From Verif Require Import Base.

(** inputdevice.h:42 [KeyType]; the character of the pair is only used by [ascii]. *)
Inductive key :=
| KAscii (c : ascii) | KUp | KDown | KLeft | KRight | KBackspace | KCanc | KHome | KEnd
| KRet | KEof | KIgnored | KClear.

(** terminal.h:42-51 [Symbol]; the string of the pair is only used by [command]. *)
Inductive symbol :=
| SyNothing | SyCommand (cmd : str) | SyUp | SyDown | SyTab | SyEof | SyClear.

(** rang.h:251-255 [setColor]: ESC [ n m *)
Definition sgr (n : N) : str := ["027"; "["]%char ++ print_N n ++ ["m"%char].

(** colorprofile.h:60-64 [beforeInput].  [color] is the global flag [Color()],
    [force] the [iword] of the stream (rang.h:287-288): set here, it stays set. *)
Definition before_input (color force : bool) : str * bool :=
  if color then (sgr 97, true) else ([], force).
(** colorprofile.h:66-70 [afterInput], rang.h:272-281.  [tty]: the stream is the
    console of a terminal supporting colours. *)
Definition after_input (tty force : bool) : str := if force || tty then sgr 0 else [].
(** colorprofile.h:48-58 [beforePrompt] and [afterPrompt] *)
Definition before_prompt (color force : bool) : str * bool :=
  if color then (sgr 32 ++ sgr 1, true) else ([], force).
Definition after_prompt (tty force : bool) : str := if force || tty then sgr 0 else [].

(** terminal.h:212-214 data members, and the [iword] of [out]. *)
Record term := mkTerm { tm_line : str; tm_pos : nat; tm_force : bool }.

Definition term_init : term := mkTerm [] 0 false.

Definition backs (n : nat) : str := repeat "008"%char n.
Definition blanks (n : nat) : str := repeat " "%char n.

(** [std::string(line.begin() + pos, line.end())]; [None]: iterator beyond the end. *)
Definition tail_from (pos : nat) (line : str) : option str :=
  if Nat.leb pos (length line) then Some (skipn pos line) else None.
(** [line.erase(line.begin() + pos)]; [None]: not a dereferenceable iterator. *)
Definition erase_at (pos : nat) (line : str) : option str :=
  if Nat.ltb pos (length line) then Some (firstn pos line ++ skipn (S pos) line) else None.
(** [line.insert(line.begin() + pos, c)] *)
Definition insert_at (pos : nat) (c : ascii) (line : str) : option str :=
  if Nat.leb pos (length line) then Some (firstn pos line ++ c :: skipn pos line) else None.
(** [a - b] of sizes; [None]: wraps around (a string of that length throws). *)
Definition size_sub (a b : nat) : option nat := if Nat.leb b a then Some (a - b) else None.

(** Result of a terminal operation: bytes written, symbol, new state. *)
Definition tres : Type := option (str * symbol * term).

Definition obind {A B} (x : option A) (f : A -> option B) : option B :=
  match x with None => None | Some a => f a end.

(** terminal.h:59 [ResetCursor] *)
Definition reset_cursor (t : term) : term := mkTerm (tm_line t) 0 (tm_force t).

(** terminal.h:61, telnetscreen.h:42 [Clear] (Linux and telnet): ESC [ H ESC [ J *)
Definition clear_screen : str := ["027"; "["; "H"; "027"; "["; "J"]%char.

(** terminal.h:63-80 [SetLine] *)
Definition set_line (tty color : bool) (newLine : str) (t : term) : str * term :=
  let (bi, force) := before_input color (tm_force t) in
  let out := bi ++ backs (tm_pos t) ++ newLine ++ after_input tty force in
  let out' := if Nat.ltb (length newLine) (length (tm_line t))
              then out ++ blanks (length (tm_line t) - length newLine)
                       ++ backs (length (tm_line t) - length newLine)
              else out in
  (out', mkTerm newLine (length newLine) force).

(** terminal.h:82 [GetLine] *)
Definition get_line (t : term) : str := tm_line t.

(** terminal.h:84-209 [Keypressed] *)
Definition keypressed (tty color : bool) (k : key) (t : term) : tres :=
  let line := tm_line t in
  let pos := tm_pos t in
  let force := tm_force t in
  match k with
  | KEof => Some ([], SyEof, t)                                       (* 88-90 *)
  | KBackspace =>                                                      (* 91-110 *)
      if Nat.eqb pos 0 then Some ([], SyNothing, t)
      else
        let pos' := pos - 1 in
        obind (erase_at pos' line) (fun line' =>
        obind (tail_from pos' line') (fun rest =>
        obind (size_sub (length line') pos') (fun n =>
        Some (["008"%char] ++ rest ++ [" "%char] ++ backs (n + 1), SyNothing, mkTerm line' pos' force))))
  | KUp => Some ([], SyUp, t)                                          (* 111-113 *)
  | KDown => Some ([], SyDown, t)                                      (* 114-116 *)
  | KLeft =>                                                           (* 117-123 *)
      if Nat.ltb 0 pos then Some (["008"%char], SyNothing, mkTerm line (pos - 1) force)
      else Some ([], SyNothing, t)
  | KRight =>                                                          (* 124-132 *)
      if Nat.ltb pos (length line) then
        let (bi, force') := before_input color force in
        obind (nth_error line pos) (fun c =>
        Some (bi ++ [c] ++ after_input tty force', SyNothing, mkTerm line (pos + 1) force'))
      else Some ([], SyNothing, t)
  | KRet => Some (["013"; "010"]%char, SyCommand line, mkTerm [] 0 force) (* 133-141 *)
  | KAscii c =>                                                        (* 142-166 *)
      if Ascii.eqb c "009" then Some ([], SyTab, t)
      else
        let (bi, force') := before_input color force in
        obind (tail_from pos line) (fun rest =>
        obind (size_sub (length line) pos) (fun n =>
        obind (insert_at pos c line) (fun line' =>
        Some (bi ++ [c] ++ rest ++ after_input tty force' ++ backs n, SyNothing,
              mkTerm line' (pos + 1) force'))))
  | KCanc =>                                                           (* 167-183 *)
      if Nat.eqb pos (length line) then Some ([], SyNothing, t)
      else
        obind (tail_from (pos + 1) line) (fun rest =>
        obind (size_sub (length line) pos) (fun n =>
        obind (erase_at pos line) (fun line' =>
        Some (rest ++ [" "%char] ++ backs n, SyNothing, mkTerm line' pos force))))
  | KEnd =>                                                            (* 184-193 *)
      let (bi, force') := before_input color force in
      obind (tail_from pos line) (fun rest =>
      Some (bi ++ rest ++ after_input tty force', SyNothing, mkTerm line (length line) force'))
  | KHome => Some (backs pos, SyNothing, mkTerm line 0 force)          (* 194-199 *)
  | KClear => Some ([], SyClear, t)                                    (* 200-202 *)
  | KIgnored => Some ([], SyNothing, t)                                (* 203-205 *)
  end.
