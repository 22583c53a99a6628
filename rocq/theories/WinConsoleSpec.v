(** * Specification of coloured output on Windows
    What a terminal that knows escape sequences shows, and how the attribute of a console looks. *)

From Verif Require Import Base WinConsoleModel.
Open Scope nat_scope.
Open Scope list_scope.

(** Red, green, blue, and whether they are bright; of characters and background. *)
Record shade := mkShade { s_red : bool; s_green : bool; s_blue : bool; s_bright : bool }.
Record sight := mkSight { s_ink : shade; s_paper : shade }.
Definition white_on_black : sight := mkSight (mkShade true true true false) (mkShade false false false false).

(** The attribute of a console: bits 0 to 3 are blue, green, red, intensity; 4 to 7 the same of the background. *)
Definition looks (a : N) : sight :=
  let bit := N.testbit a in
  mkSight (mkShade (bit 2) (bit 1) (bit 0) (bit 3))%N (mkShade (bit 6) (bit 5) (bit 4) (bit 7))%N.

(** A terminal: colours by ECMA-48 numbers, red is bit 0 of the colour, green 1, blue 2. *)
Definition shade_of (n : N) (bright : bool) : shade := mkShade (N.testbit n 0) (N.testbit n 1) (N.testbit n 2) bright.
Definition between (a n b : N) : bool := (N.leb a n && N.leb n b)%bool.
Definition rendition (n : N) (now : sight) : sight :=
  if N.eqb n 0 then white_on_black
  else if between 30 n 37 then mkSight (shade_of (n - 30) false) (s_paper now)
  else if N.eqb n 39 then mkSight (s_ink white_on_black) (s_paper now)
  else if between 40 n 47 then mkSight (s_ink now) (shade_of (n - 40) false)
  else if N.eqb n 49 then mkSight (s_ink now) (s_paper white_on_black)
  else if between 90 n 97 then mkSight (shade_of (n - 90) true) (s_paper now)
  else if between 100 n 107 then mkSight (s_ink now) (shade_of (n - 100) true)
  else now.
Inductive reading := Plain | Escape | Number (n : N).
Record terminal := mkTerminal { t_cells : list (ascii * sight); t_now : sight; t_reading : reading }.
Definition digit (c : ascii) : option N :=
  let n := N_of_ascii c in if between 48 n 57 then Some (n - 48)%N else None.
Definition receive (t : terminal) (c : ascii) : terminal :=
  match t_reading t with
  | Plain => if Ascii.eqb c "027" then mkTerminal (t_cells t) (t_now t) Escape else mkTerminal (t_cells t ++ [(c, t_now t)]) (t_now t) Plain
  | Escape => mkTerminal (t_cells t) (t_now t) (if Ascii.eqb c "[" then Number 0 else Plain)
  | Number n =>
      match digit c with
      | Some d => mkTerminal (t_cells t) (t_now t) (Number (10 * n + d))
      | None => mkTerminal (t_cells t) (if Ascii.eqb c "m" then rendition n (t_now t) else t_now t) Plain
      end
  end.
Definition shows (s : str) : terminal := fold_left receive s (mkTerminal [] white_on_black Plain).

(** The colours by their names. *)
Definition shade_named (c : colour) (bright : bool) : shade :=
  match c with
  | Black => mkShade false false false bright | Red => mkShade true false false bright | Green => mkShade false true false bright | Yellow => mkShade true true false bright
  | Blue => mkShade false false true bright | Magenta => mkShade true false true bright | Cyan => mkShade false true true bright | Gray => mkShade true true true bright
  end.
(** What is seen of a text on the console. *)
Definition in_ink (k : shade) (s : str) : list (ascii * sight) := map (fun c => (c, mkSight k (s_paper white_on_black))) s.
(** Programs: texts without escape characters; no [fg::reset] or [bg::reset] on the console. *)
Definition text_only (a : wact) : Prop := match a with WText _ s => ~ In "027"%char s | _ => True end.
Definition bare_reset (tty : nat -> bool) (a : wact) : Prop :=
  match a with WManip i (Fg None) | WManip i (Bg None) => tty i = true | _ => False end.
