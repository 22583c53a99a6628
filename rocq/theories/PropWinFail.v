(** * C102: the Windows keyboard when calls fail *)

From Verif Require Import Base TerminalModel TelnetSpec WinKeyboardModel WinKeyboardSpec WinKeyboardProofs WinFailModel WinFailSpec WinFailProofs.
Open Scope nat_scope.
Open Scope list_scope.

(** If no call fails, everything is as in C65. *)
Theorem C102_conservative : forall debug l s, f_run debug (map FOk l) (FRun s) = option_map FRun (h_run l s).
Proof. exact ok_run. Qed.
Print Assumptions C102_conservative.
(** Whichever calls fail, no character is lost, repeated or moved: those that [_getch] gave, and those
    that are still there, are those that arrived.  The keys found are those that the characters say, in
    the tables of C65, with one for each [EOF] in its place: the end of the input, or, inside a key of
    two characters, an ignored one.  Only the key whose [Post] failed is not posted: this is the last one. *)
Theorem C102_keys : forall debug l s, f_run debug l (FRun wk_init) = Some (FRun s) ->
  exists items lost, fail_reading items = win_found s ++ lost /\ given items ++ win_half s ++ win_chars (wk_recs s) = win_chars (f_arrived l) /\
    ends_of items = failed FEof l /\ length lost = failed FPost l /\ (lost <> [] -> wk_w s = HDone).
Proof. exact fail_keys. Qed.
Print Assumptions C102_keys.
(** With assertions the first wait that fails ends the program, and nothing else does. *)
Theorem C102_debug : forall l c, f_run true l (FRun wk_init) = Some c ->
  (failed FWait l = 0 /\ exists s, c = FRun s) \/ (c = FAborted /\ exists l', l = l' ++ [FWait] /\ failed FWait l' = 0).
Proof. exact fail_debug. Qed.
Print Assumptions C102_debug.
(** If [SetEvent] worked, the keyboard's thread takes at most four steps more for each wait that fails,
    and one of the threads can go on, unless the keyboard's waits for a character. *)
Theorem C102_shutdown : forall debug l s l' s', f_run debug l (FRun wk_init) = Some (FRun s) -> wk_m s = DJoin -> failed FStop l = 0 ->
  f_run debug l' (FRun s) = Some (FRun s') ->
  length (filter by_thread l') <= 4 + 4 * failed FWait l' /\
  (wk_m s' = DGone \/ (exists s'', h_step HGo s' = Some s'') \/ (exists s'', h_step DGo s' = Some s'' /\ wk_m s'' = DGone) \/
   (win_getting (wk_w s') /\ filter character (wk_recs s') = [] /\ wk_crt s' = None)).
Proof. exact fail_shutdown. Qed.
Print Assumptions C102_shutdown.
(** When the destructor has ended, the thread has. *)
Theorem C102_over : forall debug l s, f_run debug l (FRun wk_init) = Some (FRun s) -> wk_m s = DGone -> wk_w s = HDone.
Proof. exact fail_over. Qed.
Print Assumptions C102_over.
(** The thread ends only if it was told to, or a key could not be posted. *)
Theorem C102_ends : forall debug l s, f_run debug l (FRun wk_init) = Some (FRun s) -> wk_w s = HDone ->
  failed FPost l > 0 \/ (failed FStop l = 0 /\ (wk_m s = DJoin \/ wk_m s = DGone)).
Proof. exact fail_ends. Qed.
Print Assumptions C102_ends.

(** A wait fails, so that the thread is in [_getch] when a key is pressed; an [EOF], alone and after a
    prefix; the last key cannot be posted. *)
Definition trouble : list fact :=
  [FWait; FOk (Arrive (RChar "a")); FOk HGo; FOk HGo; FWait; FEof; FOk HGo; FOk (Arrive (RChar "224")); FOk HGo; FOk HGo; FEof; FOk HGo;
   FOk (Arrive (RExt true "H")); FOk DGo; FOk HGo; FOk HGo; FOk DGo; FOk HGo].
Example C102_nonvacuous :
  (exists s, f_run false trouble (FRun wk_init) = Some (FRun s) /\ wk_m s = DJoin /\ failed FStop trouble = 0 /\ failed FWait trouble = 2 /\ failed FEof trouble = 2 /\
     wk_keys s = [KAscii "a"; KEof; KIgnored]%char /\ win_found s = [KAscii "a"; KEof; KIgnored; KUp]%char /\
     (exists s', f_run false [FPost; FOk DGo] (FRun s) = Some (FRun s') /\ wk_m s' = DGone /\ wk_keys s' = wk_keys s) /\
     (exists s', f_run false [FOk HGo; FWait; FEof; FOk HGo; FOk HGo; FOk DGo] (FRun s) = Some (FRun s') /\ wk_m s' = DGone /\ wk_keys s' = wk_keys s ++ [KUp; KEof])) /\
  f_run true (firstn 1 trouble) (FRun wk_init) = Some FAborted /\ f_run true trouble (FRun wk_init) = None.
Proof.
  split; [|split; vm_compute; reflexivity]. eexists. split; [vm_compute; reflexivity|]. split; [reflexivity|]. split; [reflexivity|]. split; [reflexivity|]. split; [reflexivity|]. split; [reflexivity|]. split; [reflexivity|].
  split; (eexists; split; [vm_compute; reflexivity|split; reflexivity]).
Qed.
Print Assumptions C102_nonvacuous.

(** If [SetEvent] fails, the destructor never ends, whatever is typed and whatever else happens, unless
    a key cannot be posted. *)
Theorem C102_unstopped_refuted : exists l s, f_run false l (FRun wk_init) = Some (FRun s) /\ wk_m s = DJoin /\ failed FWait l = 0 /\
  forall debug l' s', failed FPost l' = 0 -> f_run debug l' (FRun s) = Some (FRun s') -> wk_m s' = DJoin.
Proof.
  exists [FOk DGo; FStop]. eexists. split; [vm_compute; reflexivity|]. split; [reflexivity|]. split; [reflexivity|].
  intros debug l' s' Hf. apply deaf; [reflexivity|reflexivity|discriminate|exact Hf].
Qed.
Print Assumptions C102_unstopped_refuted.
(** If nothing can be waited for and there is no input (a standard input that is closed, say), then,
    without assertions, the keyboard posts the end of the input any number of times, and the destructor,
    although [SetEvent] worked, waits as long. *)
Theorem C102_flood_refuted : exists l s, f_run false l (FRun wk_init) = Some (FRun s) /\ wk_m s = DJoin /\ failed FStop l = 0 /\ f_arrived l = [] /\
  forall n, exists l' s', f_run false l' (FRun s) = Some (FRun s') /\ f_arrived l' = [] /\ wk_m s' = DJoin /\ wk_keys s' = repeat KEof n.
Proof.
  exists [FOk DGo; FOk DGo]. eexists. split; [vm_compute; reflexivity|]. split; [reflexivity|]. split; [reflexivity|]. split; [reflexivity|]. intros n.
  exists (concat (repeat [FWait; FEof; FOk HGo] n)). eexists. split; [apply flood; reflexivity|]. split; [|split; reflexivity].
  induction n as [|n IH]; [reflexivity|exact IH].
Qed.
Print Assumptions C102_flood_refuted.
