(** * Model of coloured output and clearing of the screen on Windows
    Sources: /repo/include/cli/detail/rang.h (Windows branches), colorprofile.h, winscreen.h.
    Before Windows 10 colours are attributes of the console, set by a call; since then escape
    sequences, as elsewhere.  Streams have the default formatting and keep their buffers
    (RangModel.v has both); nothing is held back by a buffer of the stream; the standard output
    is on the console whenever any stream is, and the calls of Windows succeed. *)

From Verif Require Import Base.
Open Scope nat_scope.
Open Scope list_scope.

(** rang.h:36-94; [None]: reset *)
Inductive colour := Black | Red | Green | Yellow | Blue | Magenta | Cyan | Gray.
Inductive style := SReset | SBold | SDim | SItalic | SUnderline | SBlink | SRblink | SReversed | SConceal | SCrossed.
Inductive manip := Style (s : style) | Fg (c : option colour) | Bg (c : option colour) | FgB (c : colour) | BgB (c : colour).
Definition colour_number (c : colour) : N :=
  match c with Black => 0 | Red => 1 | Green => 2 | Yellow => 3 | Blue => 4 | Magenta => 5 | Cyan => 6 | Gray => 7 end.
Definition style_number (s : style) : N :=
  match s with SReset => 0 | SBold => 1 | SDim => 2 | SItalic => 3 | SUnderline => 4 | SBlink => 5 | SRblink => 6 | SReversed => 7 | SConceal => 8 | SCrossed => 9 end.
Definition manip_number (m : manip) : N :=
  match m with
  | Style s => style_number s
  | Fg (Some c) => 30 + colour_number c | Fg None => 39
  | Bg (Some c) => 40 + colour_number c | Bg None => 49
  | FgB c => 90 + colour_number c
  | BgB c => 100 + colour_number c
  end.

(** rang.h:195-199 [reverseRGB]; reading past the array is undefined. *)
Definition reverse_rgb (rgb : N) : option N := nth_error [0; 4; 2; 6; 1; 5; 3; 7]%N (N.to_nat rgb).
(** wincon.h: FOREGROUND_BLUE, FOREGROUND_GREEN, FOREGROUND_RED *)
Definition default_attr : N := N.lor 1 (N.lor 2 4).
(** rang.h:201-230 [setWinAttribute]; [None]: undefined *)
Definition set_win_attribute (m : manip) (st : N) : option N :=
  match m with
  | Bg _ => match reverse_rgb (manip_number m - 40) with Some v => Some (N.lor (N.land st 0xFF0F) (N.shiftl v 4)) | None => None end
  | Fg _ => match reverse_rgb (manip_number m - 30) with Some v => Some (N.lor (N.land st 0xFFF0) v) | None => None end
  | BgB _ => match reverse_rgb (manip_number m - 100) with Some v => Some (N.lor (N.land st 0xFF0F) (N.shiftl (N.lor 0x8 v) 4)) | None => None end
  | FgB _ => match reverse_rgb (manip_number m - 90) with Some v => Some (N.lor (N.land st 0xFFF0) (N.lor 0x8 v)) | None => None end
  | Style SReset => Some default_attr
  | Style _ => Some st
  end.

(** The [iword] of each stream (rang.h:119-123), [current_state] (232-237), [Color()] (colorprofile.h:38),
    the attribute of the console; what was written: on the console, each character with the
    attribute it got; the bytes written to each stream that is not the console. *)
Record win := mkWin { wn_force : nat -> bool; wn_state : N; wn_color : bool; wn_attr : N; wn_cells : list (ascii * N); wn_text : nat -> str }.
Definition set_at {A} (i : nat) (x : A) (f : nat -> A) : nat -> A := fun j => if Nat.eqb j i then x else f j.
(** The program starts; [a]: the attribute of the console before. *)
Definition win_init (a : N) : win := mkWin (fun _ => false) default_attr false a [] (fun _ => []).

Section Win.
(** [old]: before Windows 10 (rang.h:183-193); [tty]: the streams on the console (150-169). *)
Context (old : bool) (tty : nat -> bool).

Definition w_write (i : nat) (s : str) (w : win) : win :=
  if tty i then mkWin (wn_force w) (wn_state w) (wn_color w) (wn_attr w) (wn_cells w ++ map (fun c => (c, wn_attr w)) s) (wn_text w)
  else mkWin (wn_force w) (wn_state w) (wn_color w) (wn_attr w) (wn_cells w) (set_at i (wn_text w i ++ s) (wn_text w)).
(** rang.h:239-249 [setColor] *)
Definition w_set_color (i : nat) (m : manip) (w : win) : option win :=
  if old && tty i then
    match set_win_attribute m (wn_state w) with
    | Some st => Some (mkWin (wn_force w) st (wn_color w) st (wn_cells w) (wn_text w))
    | None => None
    end
  else Some (w_write i ("027"%char :: "["%char :: print_N (manip_number m) ++ ["m"%char]) w).
(** rang.h:271-281 [operator<<]; [supportsColor] is true (144) *)
Definition w_put (i : nat) (m : manip) (w : win) : option win :=
  if wn_force w i || tty i then w_set_color i m w else Some w.
(** rang.h:283-293 *)
Definition w_control (i : nat) (b : bool) (w : win) : win :=
  mkWin (set_at i b (wn_force w)) (wn_state w) (wn_color w) (wn_attr w) (wn_cells w) (wn_text w).
(** colorprofile.h:48-70 *)
Inductive wmark := WBeforePrompt | WAfterPrompt | WBeforeInput | WAfterInput.
Definition w_mark (i : nat) (k : wmark) (w : win) : option win :=
  match k with
  | WBeforePrompt =>
      if wn_color w then match w_put i (Fg (Some Green)) (w_control i true w) with Some w' => w_put i (Style SBold) w' | None => None end else Some w
  | WBeforeInput => if wn_color w then w_put i (FgB Gray) (w_control i true w) else Some w
  | WAfterPrompt | WAfterInput => w_put i (Style SReset) w
  end.
(** What programs do; colorprofile.h:40-41 for [WColor]. *)
Inductive wact := WManip (i : nat) (m : manip) | WControl (i : nat) (b : bool) | WText (i : nat) (s : str) | WMark (i : nat) (k : wmark) | WColor (b : bool).
Definition win_step (a : wact) (w : win) : option win :=
  match a with
  | WManip i m => w_put i m w
  | WControl i b => Some (w_control i b w)
  | WText i s => Some (w_write i s w)
  | WMark i k => w_mark i k w
  | WColor b => Some (mkWin (wn_force w) (wn_state w) b (wn_attr w) (wn_cells w) (wn_text w))
  end.
Fixpoint win_run (l : list wact) (w : win) : option win :=
  match l with [] => Some w | a :: l' => match win_step a w with Some w' => win_run l' w' | None => None end end.
End Win.

(** ** winscreen.h
    The buffer of the console: cells row by row, columns, the position of the cursor. *)
Record console := mkConsole { cn_columns : nat; cn_rows : nat; cn_cells : list (ascii * N); cn_cursor : nat * nat }.
(** [FillConsoleOutputCharacter]: the characters of [n] cells from the first one; attributes stay. *)
Fixpoint fill_character (c : ascii) (n : nat) (l : list (ascii * N)) : list (ascii * N) :=
  match n, l with S n', (_, a) :: l' => (c, a) :: fill_character c n' l' | _, _ => l end.
(** winscreen.h:45-56 [Clear]; [None]: the standard output is not a console, and [csbi] is read without a value. *)
Definition win_clear (c : option console) : option console :=
  match c with
  | Some k => Some (mkConsole (cn_columns k) (cn_rows k) (fill_character " " (cn_columns k * cn_rows k) (cn_cells k)) (0, 0))
  | None => None
  end.
