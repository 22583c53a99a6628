(** * C70: line editing on terminals of a given width *)

From Verif Require Import Base TerminalModel TerminalSpec WidthSpec WidthProofs.
Open Scope nat_scope.
Open Scope list_scope.

(** C70: as long as the prompt and the line leave a column for the cursor, a terminal
    of width [W] shows what a terminal without right margin shows: the prompt, the
    edited line and the cursor on the editing position, everything above unchanged. *)
Theorem C70_fits : forall defer W tty os t e base sc, holds t e -> printable_ed e ->
  Forall (fun o => printable_op (snd o)) os -> shows base e sc -> fits W base (map snd os) e ->
  exists out sys t', run_ops tty os t = Some (out, sys, t') /\
    wrap_display defer W out sc = display out sc /\
    shows base (snd (ed_run (map snd os) e)) (wrap_display defer W out sc) /\
    sc_above (wrap_display defer W out sc) = sc_above sc.
Proof. exact wrap_fits. Qed.
Print Assumptions C70_fits.

(** The same for anything printed, whole sessions in particular (C22_session), whose
    rows stay within the width. *)
Theorem C70_any : forall defer W out s, (forall n, sc_col (display (firstn n out) s) < W) ->
  wrap_display defer W out s = display out s.
Proof. exact wrap_any. Qed.
Print Assumptions C70_any.

(** One character more is too much, on every terminal and for every text: when the
    line fills the row, going to the left shows the cursor in the wrong place. *)
Theorem C70_full_row : forall defer W tty color base above force s, Forall printable s -> s <> [] ->
  length base + length s = W -> 2 <= W ->
  exists out sys t', run_ops tty (fill_and_left color s) (mkTerm [] 0 force) = Some (out, sys, t') /\
    ~ shows base (snd (ed_run (map snd (fill_and_left color s)) (mkEd [] []))) (wrap_display defer W out (mkScreen above base [] (length base) Ground)).
Proof. exact fill_wrong. Qed.
Print Assumptions C70_full_row.

(** Beyond the width the user edits something else than what they see: on a terminal
    with 6 columns, after [> abcdef] and three times backspace, the line is [abc]; the
    row of the cursor is empty and the row above still reads [> abcd]. *)
Definition too_long : list (bool * edop) :=
  map (fun c => (false, EKey (KAscii c))) (lit "abcdef") ++ repeat (false, EKey KBackspace) 3.
Theorem C70_wrapped_refuted : exists out sys t',
  run_ops false too_long term_init = Some (out, sys, t') /\ tm_line t' = lit "abc" /\
  forall defer, sc_row (wrap_display defer 6 out (mkScreen [] (lit "> ") [] 2 Ground)) = lit "  " /\
    sc_above (wrap_display defer 6 out (mkScreen [] (lit "> ") [] 2 Ground)) = [lit "> abcd"].
Proof.
  do 3 eexists. split; [vm_compute; reflexivity|]. split; [reflexivity|].
  intros []; split; vm_compute; reflexivity.
Qed.
Print Assumptions C70_wrapped_refuted.

(** In 8 columns, [> ac], left, [b], a recalled line, home. *)
Example C70_nonvacuous :
  let os := [(true, EKey (KAscii "a")); (true, EKey (KAscii "c")); (true, EKey KLeft); (false, EKey (KAscii "b"));
             (true, ESet (lit "quit")); (true, EKey KHome); (true, EKey KCanc)] in
  Forall (fun o => printable_op (snd o)) os /\
  shows (lit "> ") (mkEd [] []) (mkScreen [] (lit "> ") [] 2 Ground) /\
  fits 8 (lit "> ") (map snd os) (mkEd [] []) /\
  (exists out sys t', run_ops false os term_init = Some (out, sys, t') /\
     sc_row (wrap_display true 8 out (mkScreen [] (lit "> ") [] 2 Ground)) = lit "> uit ").
Proof.
  cbn zeta. split; [|split; [|split]].
  - repeat constructor; cbn; unfold printable; cbn; try (right; lia); lia.
  - repeat split. exists 0. reflexivity.
  - intros n. do 8 (destruct n as [|n]; [vm_compute; lia|]). vm_compute. lia.
  - do 3 eexists. split; vm_compute; reflexivity.
Qed.
