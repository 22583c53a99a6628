(** * Specification of the line editor

    An ideal editor, and a terminal emulator telling what the user sees. *)

From Verif Require Import Base TerminalModel.

(** ** The ideal editor: text before the cursor (reversed) and after it *)
Record editor := mkEd { before : str; after : str }.
Definition ed_text (e : editor) : str := rev (before e) ++ after e.

(** What is done to the editor: keys, or the whole line replaced (recalled history
    entries, completions). *)
Inductive edop := EKey (k : key) | ESet (s : str).

Definition ed_key (k : key) (e : editor) : editor :=
  match k with
  | KAscii c => if Ascii.eqb c "009" then e else mkEd (c :: before e) (after e)
  | KBackspace => mkEd (tl (before e)) (after e)
  | KCanc => mkEd (before e) (tl (after e))
  | KLeft => match before e with [] => e | c :: b => mkEd b (c :: after e) end
  | KRight => match after e with [] => e | c :: a => mkEd (c :: before e) a end
  | KHome => mkEd [] (ed_text e)
  | KEnd => mkEd (rev (ed_text e)) []
  | KRet => mkEd [] []
  | KUp | KDown | KEof | KIgnored | KClear => e
  end.
Definition ed_op (o : edop) (e : editor) : editor :=
  match o with EKey k => ed_key k e | ESet s => mkEd (rev s) [] end.

(** What the key means to the session. *)
Definition key_symbol (k : key) (text : str) : symbol :=
  match k with
  | KRet => SyCommand text
  | KUp => SyUp
  | KDown => SyDown
  | KEof => SyEof
  | KClear => SyClear
  | KAscii c => if Ascii.eqb c "009" then SyTab else SyNothing
  | _ => SyNothing
  end.

(** The editor state held by the terminal object. *)
Definition holds (t : term) (e : editor) : Prop :=
  tm_line t = ed_text e /\ tm_pos t = length (before e).

(** Running the terminal over a sequence of operations, the colour flag being
    whatever it is at each of them; the symbols reported. *)
Definition run_op (tty : bool) (o : bool * edop) (t : term) : tres :=
  match snd o with
  | EKey k => keypressed tty (fst o) k t
  | ESet s => let (out, t') := set_line tty (fst o) s t in Some (out, SyNothing, t')
  end.
Fixpoint run_ops (tty : bool) (os : list (bool * edop)) (t : term) : option (str * list symbol * term) :=
  match os with
  | [] => Some ([], [], t)
  | o :: os' =>
      match run_op tty o t with
      | None => None
      | Some (out, sy, t1) =>
          match run_ops tty os' t1 with
          | None => None
          | Some (out', sys, t2) => Some (out ++ out', sy :: sys, t2)
          end
      end
  end.
(** The same for the ideal editor. *)
Fixpoint ed_run (os : list edop) (e : editor) : list symbol * editor :=
  match os with
  | [] => ([], e)
  | o :: os' =>
      let sy := match o with EKey k => key_symbol k (ed_text e) | ESet _ => SyNothing end in
      let (sys, e') := ed_run os' (ed_op o e) in (sy :: sys, e')
  end.

(** ** The terminal emulator
    An unbounded screen: rows above (nearest first), the row of the cursor, rows
    below, the column.  Understands printable characters, BS, CR, LF (which also
    returns to the first column, as on a cooked tty or a telnet connection), and
    ESC [ ... H / J / m. *)
Inductive esc := Ground | Esc | Csi.
Record screen := mkScreen {
  sc_above : list str; sc_row : str; sc_below : list str; sc_col : nat; sc_esc : esc }.

Definition put_char (c : ascii) (s : screen) : screen :=
  let row := sc_row s ++ blanks (sc_col s - length (sc_row s)) in
  mkScreen (sc_above s) (firstn (sc_col s) row ++ c :: skipn (S (sc_col s)) row) (sc_below s)
    (S (sc_col s)) Ground.

Definition is_param (c : ascii) : bool :=
  Ascii.eqb c ";" || ((48 <=? N_of_ascii c)%N && (N_of_ascii c <=? 57)%N).

Definition show_byte (c : ascii) (s : screen) : screen :=
  match sc_esc s with
  | Ground =>
      if Ascii.eqb c "027" then mkScreen (sc_above s) (sc_row s) (sc_below s) (sc_col s) Esc
      else if Ascii.eqb c "008" then mkScreen (sc_above s) (sc_row s) (sc_below s) (sc_col s - 1) Ground
      else if Ascii.eqb c "013" then mkScreen (sc_above s) (sc_row s) (sc_below s) 0 Ground
      else if Ascii.eqb c "010" then
        mkScreen (sc_row s :: sc_above s) (hd [] (sc_below s)) (tl (sc_below s)) 0 Ground
      else put_char c s
  | Esc => mkScreen (sc_above s) (sc_row s) (sc_below s) (sc_col s)
             (if Ascii.eqb c "[" then Csi else Ground)
  | Csi =>
      if is_param c then s
      else if Ascii.eqb c "H" then
        match rev (sc_above s) ++ [sc_row s] with
        | [] => mkScreen [] (sc_row s) (sc_below s) 0 Ground
        | r :: rs => mkScreen [] r (rs ++ sc_below s) 0 Ground
        end
      else if Ascii.eqb c "J" then
        mkScreen (sc_above s) (firstn (sc_col s) (sc_row s)) [] (sc_col s) Ground
      else mkScreen (sc_above s) (sc_row s) (sc_below s) (sc_col s) Ground
  end.
Definition display (out : str) (s : screen) : screen := fold_left (fun s c => show_byte c s) out s.

(** Printable text. *)
Definition printable (c : ascii) : Prop := (32 <= N_of_ascii c < 127)%N.
Definition printable_ed (e : editor) : Prop :=
  Forall printable (before e) /\ Forall printable (after e).
Definition printable_op (o : edop) : Prop :=
  match o with
  | EKey (KAscii c) => c = "009"%char \/ printable c
  | EKey KRet => False
  | EKey _ => True
  | ESet s => Forall printable s
  end.

(** The row of the cursor is [base], the edited text, then only blanks; the cursor
    is on the editing position; nothing is below. *)
Definition shows (base : str) (e : editor) (s : screen) : Prop :=
  (exists n, sc_row s = base ++ ed_text e ++ blanks n) /\
  sc_col s = length base + length (before e) /\ sc_below s = [] /\ sc_esc s = Ground.
