(** * Model of the line editor when memory runs out

    Source: /repo/include/cli/detail/terminal.h:63-209.  The functions of TerminalModel.v
    with each string they make, and each change that makes [currentLine] longer or copies
    it, failing as an oracle says; what was written and assigned before stays.
    Simplifications: strings that would fit in the object itself, or in the memory
    [currentLine] has already, may fail as well; streams do not throw.
    [erase], [clear] and empty strings allocate nothing. *)

From Verif Require Import Base TerminalModel.
Open Scope nat_scope.
Open Scope list_scope.

(** Done; [std::bad_alloc] left the function, after writing [out]; undefined. *)
Inductive tres_m := TDone (out : str) (sy : symbol) (t : term) | TThrew (out : str) (t : term) | TUB.

Definition def {A} (x : option A) (f : A -> tres_m) : tres_m := match x with None => TUB | Some a => f a end.

(** terminal.h:63-80 [SetLine].  [ltr]: in [out << beforeInput << std::string(...)] the
    stream is written to before the string is made (C++17; before it either order is
    possible).  [ok n]: the [n]th allocation succeeds. *)
Definition set_line_m (ltr tty color : bool) (ok : nat -> bool) (newLine : str) (t : term) : tres_m :=
  let (bi, force) := before_input color (tm_force t) in
  if negb (ok 0) then                                                  (* 66 *)
    if ltr then TThrew bi (mkTerm (tm_line t) (tm_pos t) force) else TThrew [] t
  else
    let out := bi ++ backs (tm_pos t) ++ newLine ++ after_input tty force in
    let t' := mkTerm (tm_line t) (tm_pos t) force in
    if Nat.ltb (length newLine) (length (tm_line t)) then
      let n := length (tm_line t) - length newLine in
      if negb (ok 1) then TThrew out t'                                (* 73 *)
      else if negb (ok 2) then TThrew (out ++ blanks n) t'             (* 75 *)
      else if negb (ok 3) then TThrew (out ++ blanks n ++ backs n) t'  (* 78 *)
      else TDone (out ++ blanks n ++ backs n) SyNothing (mkTerm newLine (length newLine) force)
    else
      if negb (ok 1) then TThrew out t'                                (* 78 *)
      else TDone out SyNothing (mkTerm newLine (length newLine) force).

(** terminal.h:84-209 [Keypressed] *)
Definition keypressed_m (ltr tty color : bool) (ok : nat -> bool) (k : key) (t : term) : tres_m :=
  let line := tm_line t in
  let pos := tm_pos t in
  let force := tm_force t in
  match k with
  | KEof => TDone [] SyEof t
  | KBackspace =>                                                      (* 91-110 *)
      if Nat.eqb pos 0 then TDone [] SyNothing t
      else
        let pos' := pos - 1 in
        def (erase_at pos' line) (fun line' =>
        let t' := mkTerm line' pos' force in
        if negb (ok 0) then TThrew ["008"%char] t' else                (* 104 *)
        def (tail_from pos' line') (fun rest =>
        if negb (ok 1) then TThrew (["008"%char] ++ rest ++ [" "%char]) t' else  (* 108 *)
        def (size_sub (length line') pos') (fun n =>
        TDone (["008"%char] ++ rest ++ [" "%char] ++ backs (n + 1)) SyNothing t')))
  | KUp => TDone [] SyUp t
  | KDown => TDone [] SyDown t
  | KLeft =>
      if Nat.ltb 0 pos then TDone ["008"%char] SyNothing (mkTerm line (pos - 1) force)
      else TDone [] SyNothing t
  | KRight =>
      if Nat.ltb pos (length line) then
        let (bi, force') := before_input color force in
        def (nth_error line pos) (fun c =>
        TDone (bi ++ [c] ++ after_input tty force') SyNothing (mkTerm line (pos + 1) force'))
      else TDone [] SyNothing t
  | KRet =>                                                            (* 133-141 *)
      if negb (ok 0) then TThrew ["013"; "010"]%char t                 (* 136 *)
      else if negb (ok 1) then TThrew ["013"; "010"]%char (mkTerm [] 0 force)  (* 139 the copy in the pair *)
      else TDone ["013"; "010"]%char (SyCommand line) (mkTerm [] 0 force)
  | KAscii c =>                                                        (* 142-166 *)
      if Ascii.eqb c "009" then TDone [] SyTab t
      else
        let (bi, force') := before_input color force in
        let t' := mkTerm line pos force' in
        if negb (ok 0) then TThrew (bi ++ [c]) t' else                 (* 154 *)
        def (tail_from pos line) (fun rest =>
        if negb (ok 1) then TThrew (bi ++ [c] ++ rest ++ after_input tty force') t' else  (* 158 *)
        def (size_sub (length line) pos) (fun n =>
        if negb (ok 2) then TThrew (bi ++ [c] ++ rest ++ after_input tty force' ++ backs n) t' else  (* 161 *)
        def (insert_at pos c line) (fun line' =>
        TDone (bi ++ [c] ++ rest ++ after_input tty force' ++ backs n) SyNothing
          (mkTerm line' (pos + 1) force'))))
  | KCanc =>                                                           (* 167-183 *)
      if Nat.eqb pos (length line) then TDone [] SyNothing t
      else
        if negb (ok 0) then TThrew [] t else                           (* 175 *)
        def (tail_from (pos + 1) line) (fun rest =>
        if negb (ok 1) then TThrew (rest ++ [" "%char]) t else         (* 179 *)
        def (size_sub (length line) pos) (fun n =>
        def (erase_at pos line) (fun line' =>
        TDone (rest ++ [" "%char] ++ backs n) SyNothing (mkTerm line' pos force))))
  | KEnd =>                                                            (* 184-193 *)
      let (bi, force') := before_input color force in
      if negb (ok 0) then                                              (* 189 *)
        if ltr then TThrew bi (mkTerm line pos force') else TThrew [] t
      else
        def (tail_from pos line) (fun rest =>
        TDone (bi ++ rest ++ after_input tty force') SyNothing (mkTerm line (length line) force'))
  | KHome =>                                                           (* 194-199 *)
      if negb (ok 0) then TThrew [] t
      else TDone (backs pos) SyNothing (mkTerm line 0 force)
  | KClear => TDone [] SyClear t
  | KIgnored => TDone [] SyNothing t
  end.
