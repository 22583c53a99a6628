(** * C89: colours and clearing on consoles of Windows *)

From Verif Require Import Base WinConsoleModel WinConsoleSpec WinConsoleProofs.
Open Scope nat_scope.
Open Scope list_scope.

(** Whatever a program writes (texts, colours, prompts), a console before Windows 10 shows every
    character as a terminal that knows escape sequences does on a newer Windows, and streams not
    on the console get the same bytes; no stray bytes on either. *)
Theorem C89_same tty l w : Forall text_only l -> win_run true tty l (win_init default_attr) = Some w ->
  exists v, win_run false tty l (win_init default_attr) = Some v /\
    t_cells (shows (map fst (wn_cells v))) = map (fun x => (fst x, looks (snd x))) (wn_cells w) /\
    t_now (shows (map fst (wn_cells v))) = looks (wn_attr w) /\ forall i, wn_text w i = wn_text v i.
Proof. exact (old_as_new tty l w). Qed.
Print Assumptions C89_same.

(** One colour or style at a time: what the attribute of the console becomes. *)
Theorem C89_attribute m st : m <> Fg None -> m <> Bg None ->
  exists st', set_win_attribute m st = Some st' /\ looks st' = rendition (manip_number m) (looks st).
Proof. exact (attribute_looks m st). Qed.
Print Assumptions C89_attribute.

(** The colours are those of their names. *)
Theorem C89_names : forall c st, exists f g h k, set_win_attribute (Fg (Some c)) st = Some f /\ looks f = mkSight (shade_named c false) (s_paper (looks st)) /\
  set_win_attribute (Bg (Some c)) st = Some g /\ looks g = mkSight (s_ink (looks st)) (shade_named c false) /\
  set_win_attribute (FgB c) st = Some h /\ looks h = mkSight (shade_named c true) (s_paper (looks st)) /\
  set_win_attribute (BgB c) st = Some k /\ looks k = mkSight (s_ink (looks st)) (shade_named c true).
Proof. exact names. Qed.
Print Assumptions C89_names.
(** A prompt and a line of input on the console, with colours: green and bright; without: plain; what follows is plain. *)
Theorem C89_dialogue : forall tty i b p s t w, tty i = true -> exists w', win_run true tty
    [WColor b; WMark i WAfterInput; WMark i WBeforePrompt; WText i p; WMark i WAfterPrompt; WMark i WBeforeInput; WText i s; WMark i WAfterInput; WText i t] w = Some w' /\
  map (fun x => (fst x, looks (snd x))) (wn_cells w') = map (fun x => (fst x, looks (snd x))) (wn_cells w) ++
    in_ink (if b then shade_named Green false else shade_named Gray false) p ++ in_ink (shade_named Gray b) s ++ in_ink (shade_named Gray false) t.
Proof. exact dialogue_seen. Qed.
Print Assumptions C89_dialogue.
(** On another stream: sequences are written if they are forced there. *)
Theorem C89_control : forall old tty i b m w, tty i = false -> exists w', win_run old tty [WControl i b; WManip i m] w = Some w' /\
  wn_cells w' = wn_cells w /\ forall j, wn_text w' j = if Nat.eqb j i then wn_text w i ++ (if b then "027"%char :: "["%char :: print_N (manip_number m) ++ ["m"%char] else []) else wn_text w j.
Proof. exact control_text. Qed.
Print Assumptions C89_control.

(** The run is undefined exactly if [fg::reset] or [bg::reset] goes to the console; on newer ones never. *)
Theorem C89_undefined tty l w : win_run true tty l w = None <-> Exists (bare_reset tty) l.
Proof. exact (run_defined tty l w). Qed.
Print Assumptions C89_undefined.
Theorem C89_defined tty l w : win_run false tty l w <> None.
Proof. exact (new_defined tty l w). Qed.
Print Assumptions C89_defined.

(** Clear: all characters are blank, the cursor is in the corner; the colours of the cells stay. *)
Theorem C89_clear k : length (cn_cells k) = cn_columns k * cn_rows k -> exists k', win_clear (Some k) = Some k' /\
  map fst (cn_cells k') = repeat " "%char (cn_columns k * cn_rows k) /\ map snd (cn_cells k') = map snd (cn_cells k) /\
  cn_cursor k' = (0, 0) /\ cn_columns k' = cn_columns k /\ cn_rows k' = cn_rows k.
Proof. exact (clears k). Qed.
Print Assumptions C89_clear.

(** Not so: all manipulators are defined. [out << fg::reset] reads behind the array. *)
Theorem C89_reset_refuted : exists tty m, win_run true tty [WManip 0 m] (win_init default_attr) = None.
Proof. exists (fun _ => true), (Fg None). reflexivity. Qed.
Print Assumptions C89_reset_refuted.
(** Not so: a prompt leaves the console in its own colours. One of white background
    (attribute 0xF0) is left with white characters on black. *)
Theorem C89_restore_refuted : exists a w, win_run true (fun _ => true) [WColor true; WMark 0 WBeforePrompt; WText 0 (lit "cli"); WMark 0 WAfterPrompt] (win_init a) = Some w /\ looks (wn_attr w) <> looks a.
Proof. exists 240%N. eexists. split; [reflexivity|]. discriminate. Qed.
Print Assumptions C89_restore_refuted.
(** Not even with colours switched off: the mark after the prompt resets all the same. *)
Theorem C89_nocolor_refuted : exists a w, win_run true (fun _ => true) [WColor false; WMark 0 WBeforePrompt; WText 0 (lit "cli"); WMark 0 WAfterPrompt] (win_init a) = Some w /\ looks (wn_attr w) <> looks a.
Proof. exists 240%N. eexists. split; [reflexivity|]. discriminate. Qed.
Print Assumptions C89_nocolor_refuted.
(** Not so: a cleared screen is of one colour. *)
Theorem C89_clear_refuted : exists k k', length (cn_cells k) = cn_columns k * cn_rows k /\ win_clear (Some k) = Some k' /\ cn_cells k' = [(" ", 7); (" ", 71)]%char%N.
Proof. exists (mkConsole 2 1 [("a", 7); ("b", 71)]%char%N (1, 0)). eexists. repeat split; reflexivity. Qed.
Print Assumptions C89_clear_refuted.

(** Prompt and input on the console, an error message to a file (stream 1, colours forced). *)
Definition dialogue : list wact :=
  [WColor true; WMark 0 WBeforePrompt; WText 0 (lit ">"); WMark 0 WAfterPrompt; WMark 0 WBeforeInput; WText 0 (lit "x"); WMark 0 WAfterInput;
   WText 0 (lit "y"); WManip 0 (Bg (Some Blue)); WManip 0 (FgB Yellow); WText 0 (lit "z"); WControl 1 true; WManip 1 (Fg (Some Red)); WText 1 (lit "e")].
Example C89_nonvacuous : Forall text_only dialogue /\ ~ Exists (bare_reset (Nat.eqb 0)) dialogue /\
  exists w, win_run true (Nat.eqb 0) dialogue (win_init default_attr) = Some w /\
    wn_cells w = [(">", 2); ("x", 15); ("y", 7); ("z", 30)]%char%N /\ wn_text w 1 = "027"%char :: lit "[31me" /\ wn_text w 0 = [] /\
    option_map (fun v => map fst (wn_cells v)) (win_run false (Nat.eqb 0) dialogue (win_init default_attr)) =
      Some (("027"%char :: lit "[32m") ++ ("027"%char :: lit "[1m") ++ lit ">" ++ ("027"%char :: lit "[0m") ++ ("027"%char :: lit "[97m") ++ lit "x" ++
            ("027"%char :: lit "[0m") ++ lit "y" ++ ("027"%char :: lit "[44m") ++ ("027"%char :: lit "[93m") ++ lit "z") /\
    looks 30 = mkSight (mkShade true true false true) (mkShade false false true false).
Proof.
  split.
  { repeat constructor; cbn; intros H; decompose [or] H; try discriminate; assumption. }
  split.
  { intros H. apply Exists_exists in H as (a & Hin & Ha). unfold dialogue in Hin. cbn [In] in Hin. decompose [or] Hin; subst; try exact Ha; contradiction. }
  eexists. split; [vm_compute; reflexivity|]. split; [vm_compute; reflexivity|]. split; [vm_compute; reflexivity|].
  split; [vm_compute; reflexivity|]. split; vm_compute; reflexivity.
Qed.
