(** * Terminals of a given width

    The emulator of TerminalSpec.v has rows of any length.  A real terminal has [W]
    columns and continues on the next row.  Column [W] stands for the cursor after the
    last column: terminals that defer the wrap (VT100 and its descendants, [defer]
    true) keep the cursor there until the next character, others go to the next row at
    once.  In both, the backspace character stays in the row of the cursor. *)

From Verif Require Import Base TerminalModel TerminalSpec.
Open Scope nat_scope.
Open Scope list_scope.

Definition next_row (s : screen) : screen :=
  mkScreen (sc_row s :: sc_above s) (hd [] (sc_below s)) (tl (sc_below s)) 0 (sc_esc s).

(** Is this byte written to the screen as a character? *)
Definition written (c : ascii) (s : screen) : bool :=
  match sc_esc s with
  | Ground => negb (Ascii.eqb c "027" || Ascii.eqb c "008" || Ascii.eqb c "013" || Ascii.eqb c "010")
  | _ => false
  end.
Definition is_back (c : ascii) (s : screen) : bool :=
  match sc_esc s with Ground => Ascii.eqb c "008" | _ => false end.

Definition wrap_byte (defer : bool) (W : nat) (c : ascii) (s : screen) : screen :=
  if written c s then
    let s1 := put_char c (if W <=? sc_col s then next_row s else s) in
    if negb defer && (W <=? sc_col s1) then next_row s1 else s1
  else if is_back c s && (W <=? sc_col s) then
    (* the cursor is shown on the last column, and goes one to the left of it *)
    mkScreen (sc_above s) (sc_row s) (sc_below s) (W - 2) Ground
  else show_byte c s.
Definition wrap_display (defer : bool) (W : nat) (out : str) (s : screen) : screen :=
  fold_left (fun s c => wrap_byte defer W c s) out s.

(** The prompt and the line fit in the row, with a column left for the cursor, after
    each of the operations. *)
Definition fits (W : nat) (base : str) (os : list edop) (e : editor) : Prop :=
  forall n, length base + length (ed_text (snd (ed_run (firstn n os) e))) < W.

(** Typing a text, then going one to the left. *)
Definition fill_and_left (color : bool) (s : str) : list (bool * edop) :=
  map (fun c => (color, EKey (KAscii c))) s ++ [(color, EKey KLeft)].
