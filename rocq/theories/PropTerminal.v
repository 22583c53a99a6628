(** * C20-C22: properties of the line editor *)

From Verif Require Import Base TerminalModel TerminalSpec TerminalProofs.

(** C20: for every sequence of keys and replaced lines, and every colour setting,
    the terminal reports what the ideal editor reports and holds its text and
    cursor. *)
Theorem C20_line_editor : forall tty os,
  exists out t', run_ops tty os term_init = Some (out, fst (ed_run (map snd os) (mkEd [] [])), t') /\
    holds t' (snd (ed_run (map snd os) (mkEd [] []))).
Proof. exact editor_from_start. Qed.
Print Assumptions C20_line_editor.

(** The same from any state. *)
Theorem C20_line_editor_step : forall tty os t e, holds t e ->
  exists out t', run_ops tty os t = Some (out, fst (ed_run (map snd os) e), t') /\
    holds t' (snd (ed_run (map snd os) e)).
Proof. exact editor_refinement. Qed.
Print Assumptions C20_line_editor_step.

Example C20_nonvacuous :
  let ks := [KAscii "a"; KAscii "c"; KLeft; KAscii "b"; KEnd; KAscii "x"; KBackspace; KHome; KCanc; KRet] in
  fst (ed_run (map EKey ks) (mkEd [] [])) = repeat SyNothing 9 ++ [SyCommand (lit "bc")] /\
  holds (mkTerm (lit "abc") 1 true) (mkEd (lit "a") (lit "bc")).
Proof. split; [reflexivity|split; reflexivity]. Qed.

(** C21: no operation of the editor goes out of range. *)
Theorem C21_no_out_of_range : forall tty os, exists out sys t',
  run_ops tty os term_init = Some (out, sys, t') /\ tm_pos t' <= length (tm_line t').
Proof. exact editor_safe. Qed.
Print Assumptions C21_no_out_of_range.

Example C21_nonvacuous :
  run_ops false [(true, EKey KBackspace); (false, EKey KCanc); (true, EKey KRight); (true, ESet (lit "ab")); (true, EKey KLeft); (false, EKey KCanc)] term_init
  = Some (sgr 97 ++ lit "ab" ++ sgr 0 ++ ["008"; " "; "008"]%char,
          repeat SyNothing 6, mkTerm (lit "a") 1 true).
Proof. reflexivity. Qed.

(** C22: after each key sequence made of printable input, typed after a prompt, the
    screen shows the prompt, the edited text, then only blanks, with the cursor on
    the editing position - whatever the colour settings. *)
Theorem C22_display : forall tty os base above force,
  Forall (fun o => printable_op (snd o)) os ->
  exists out sys t', run_ops tty os (mkTerm [] 0 force) = Some (out, sys, t') /\
    shows base (snd (ed_run (map snd os) (mkEd [] []))) (display out (mkScreen above base [] (length base) Ground)).
Proof. exact display_from_prompt. Qed.
Print Assumptions C22_display.

(** One operation from any displayed state. *)
Theorem C22_display_step : forall tty os t e base sc, holds t e -> printable_ed e ->
  Forall (fun o => printable_op (snd o)) os -> shows base e sc ->
  exists out sys t', run_ops tty os t = Some (out, sys, t') /\
    shows base (snd (ed_run (map snd os) e)) (display out sc).
Proof. exact display_refinement. Qed.
Print Assumptions C22_display_step.

(** Return hands over the text and leaves the cursor at the start of a new line. *)
Theorem C22_return : forall tty color t e base sc, holds t e -> shows base e sc ->
  exists t' rows row, keypressed tty color KRet t = Some (["013"; "010"]%char, SyCommand (ed_text e), t') /\
    holds t' (mkEd [] []) /\ display ["013"; "010"]%char sc = mkScreen (row :: rows) [] [] 0 Ground.
Proof. exact display_return. Qed.
Print Assumptions C22_return.

(** Clearing leaves an empty screen. *)
Theorem C22_clear : forall sc, sc_esc sc = Ground -> display clear_screen sc = mkScreen [] [] [] 0 Ground.
Proof. exact display_clear. Qed.
Print Assumptions C22_clear.

Example C22_nonvacuous :
  let os := [(true, EKey (KAscii "a")); (true, EKey (KAscii "c")); (true, EKey KLeft); (false, EKey (KAscii "b"));
             (true, ESet (lit "x")); (true, EKey KHome)] in
  Forall (fun o => printable_op (snd o)) os /\
  (exists out sys t', run_ops false os term_init = Some (out, sys, t') /\
     sc_row (display out (mkScreen [] (lit "> ") [] 2 Ground)) = lit "> x  " /\
     sc_col (display out (mkScreen [] (lit "> ") [] 2 Ground)) = 2).
Proof.
  cbn zeta. split.
  - repeat constructor; cbn; unfold printable; cbn; try (right; lia); lia.
  - do 3 eexists. split; [reflexivity|]. split; reflexivity.
Qed.
