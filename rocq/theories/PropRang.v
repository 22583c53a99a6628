(** * C71: properties of coloured output *)

From Verif Require Import Base TerminalModel RangModel RangSpec RangProofs.
Open Scope nat_scope.
Open Scope list_scope.

(** C71: as long as TERM and the buffers of the standard streams are left alone, and the
    stream's formatting is harmless, prompts and input are coloured exactly when the
    colour flag is set, and resetting codes are written exactly to streams where
    colours were used before, or to terminals that support colours; whatever the
    program did before, on any streams. *)
Theorem C71_marks : forall out_tty err_tty bufs t l i k, Forall calm l ->
  let p := r_run out_tty err_tty l (rang_init bufs t) in
  let p' := put_mark out_tty err_tty i k p in
  harmless (st_fmt (pg_streams p i)) ->
  exists s, st_text (pg_streams p' i) = st_text (pg_streams p i) ++ s /\
    mark_writes (flag_after (rev l)) (may out_tty err_tty bufs t i (rev l)) k s /\
    forall j, j <> i -> pg_streams p' j = pg_streams p j.
Proof. exact marks_right. Qed.
Print Assumptions C71_marks.

(** These are the functions of TerminalModel.v, used for sessions: the parameter [tty]
    depends on the terminal and the stream's buffer only. *)
Theorem C71_model : forall out_tty err_tty bufs t, exists ttys : nat -> bool,
  (forall b, ttys b = true <-> colour_term t /\ on_terminal bufs out_tty err_tty b) /\
  forall l i k, Forall calm l ->
  let p := r_run out_tty err_tty l (rang_init bufs t) in
  let p' := put_mark out_tty err_tty i k p in
  harmless (st_fmt (pg_streams p i)) ->
  let tty := ttys (buf_after bufs i (rev l)) in
  let force := st_force (pg_streams p i) in
  let (s, force') := match k with
    | BeforePrompt => before_prompt (pg_color p) force
    | BeforeInput => before_input (pg_color p) force
    | AfterPrompt => (after_prompt tty force, force)
    | AfterInput => (after_input tty force, force)
    end in
  st_text (pg_streams p' i) = st_text (pg_streams p i) ++ s /\ st_force (pg_streams p' i) = force'.
Proof.
  intros out_tty err_tty bufs t. exists (tty_of out_tty err_tty bufs t).
  exact (conj (tty_of_spec out_tty err_tty bufs t) (marks_model out_tty err_tty bufs t)).
Qed.
Print Assumptions C71_model.

(** The formatting of a stream is the one set last, or the one of a new stream: the
    library sets none.  Only the width is used up. *)
Theorem C71_format : forall out_tty err_tty bufs t l i,
  up_to_width (st_fmt (pg_streams (r_run out_tty err_tty l (rang_init bufs t)) i)) (fmt_after i (rev l)).
Proof. exact fmt_last_set. Qed.
Print Assumptions C71_format.

(** What was found out about terminals at the first use stays, whatever happens. *)
Theorem C71_once : forall out_tty err_tty l p, kept p (r_run out_tty err_tty l p).
Proof. exact kept_run. Qed.
Print Assumptions C71_once.

(** So it may be wrong.  [std::cout] is given another buffer (9) before anything is
    printed: codes go there although nothing asked for them, and not to the terminal
    when its buffer (0) is back. *)
Theorem C71_redirect_refuted : exists bufs l,
  let p := r_run true true l (rang_init bufs (Some (lit "xterm"))) in
  l = [RBuf 0 9; RMark 0 AfterPrompt; RBuf 0 0; RText 0 (lit "hello"); RMark 0 AfterPrompt] /\
  bufs 0 = 0 /\ st_text (pg_streams p 0) = esc_code "0" ++ lit "hello".
Proof. exists (fun i => i). eexists. cbn zeta. split; [reflexivity|]. split; vm_compute; reflexivity. Qed.
Print Assumptions C71_redirect_refuted.

(** TERM is set after the first use. *)
Theorem C71_term_refuted : exists bufs l,
  let p := r_run true true l (rang_init bufs (Some (lit "dumb"))) in
  l = [RMark 0 AfterPrompt; RTerm (Some (lit "xterm")); RMark 0 AfterPrompt] /\ bufs 0 = 0 /\
  st_text (pg_streams p 0) = [].
Proof. exists (fun i => i). eexists. cbn zeta. split; [reflexivity|]. split; vm_compute; reflexivity. Qed.
Print Assumptions C71_term_refuted.

(** A command that leaves [std::hex] set: the next prompt is not green (the code is 20
    instead of 32), and input has code 61. *)
Theorem C71_hex_refuted : exists bufs l,
  let p := r_run false false l (rang_init bufs None) in
  l = [RFlag true; RFmt 5 (mkFmt Hex false false false 0 " "%char ARight); RMark 5 BeforePrompt; RMark 5 BeforeInput] /\
  bufs 0 = 0 /\ st_text (pg_streams p 5) = esc_code "20" ++ esc_code "1" ++ esc_code "61".
Proof. exists (fun i => i). eexists. cbn zeta. split; [reflexivity|]. split; vm_compute; reflexivity. Qed.
Print Assumptions C71_hex_refuted.

(** A terminal (stream 0), a telnet connection (5), the flag being set and cleared. *)
Example C71_nonvacuous :
  let l := [RMark 0 AfterPrompt; RMark 5 AfterPrompt; RFlag true; RText 5 (lit "x"); RMark 5 BeforeInput; RFlag false; RBuf 5 7] in
  let p := r_run true false l (rang_init (fun i => i) (Some (lit "xterm-256color"))) in
  Forall calm l /\ (forall i, harmless (st_fmt (pg_streams p i))) /\
  colour_term (Some (lit "xterm-256color")) /\ was_coloured 5 (rev l) /\ ~ was_coloured 0 (rev l) /\
  st_text (pg_streams p 0) = esc_code "0" /\
  st_text (pg_streams (put_mark true false 5 AfterInput p) 5) = lit "x" ++ esc_code "97" ++ esc_code "0".
Proof.
  cbn zeta. split; [repeat (apply Forall_cons; [cbn; auto; lia|]); apply Forall_nil|]. split.
  { intros i. do 6 (destruct i as [|i]; [vm_compute; auto|]). vm_compute. auto. }
  split; [exists (lit "xterm-256color"), [], (lit "xterm"), (lit "-256color"); cbn; tauto|].
  split; [exists [RBuf 5 7; RFlag false], BeforeInput, [RText 5 (lit "x"); RFlag true; RMark 5 AfterPrompt; RMark 0 AfterPrompt];
    split; [reflexivity|split; [right; reflexivity|reflexivity]]|].
  split.
  { intros H. apply (fo_force _ _ _ _ (follows_run true false (fun i => i) (Some (lit "xterm-256color"))
      [RMark 0 AfterPrompt; RMark 5 AfterPrompt; RFlag true; RText 5 (lit "x"); RMark 5 BeforeInput; RFlag false; RBuf 5 7]
      ltac:(repeat (apply Forall_cons; [cbn; auto; lia|]); apply Forall_nil)) 0) in H. vm_compute in H. discriminate. }
  split; vm_compute; reflexivity.
Qed.
