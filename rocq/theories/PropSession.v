(** * C04, C16, C27-C31: properties of feeding a line *)

From Verif Require Import Base SplitModel SplitSpec FromStringModel HistoryModel HistorySpec StorageModel MenuModel SessionModel ResolveSpec ResolveProofs SessionSpec
  TreeProofs SessionProofs InvariantProofs FeatureProofs Demo.
Open Scope nat_scope.
Open Scope list_scope.

(** C04: feeding a blank line changes nothing. *)
Theorem C04_blank_feed : forall E fuel line w, Forall blank line -> feed E (S fuel) line w = FOk w.
Proof. exact feed_blank. Qed.
Print Assumptions C04_blank_feed.
Example C04_feed_nonvacuous : Forall blank (lit "  ") /\ feed full_env 1 (lit "  ") demo_world = FOk demo_world.
Proof. split; [repeat constructor|reflexivity]. Qed.

(** C16: a recall line is recorded and forgotten again; then the entry held under
    that id is fed, or the failure is reported and nothing runs. *)
Theorem C16_recall : forall E size line a n w, size >= 1 -> reachable size (w_hist w) -> hooks_no_bad_cast E ->
  split line = Some [lit "!"; a] -> convert E (PInt UInt) a = COk (VInt n) ->
  exists h1 h2 id, new_command (w_hist w) line = Some h1 /\ forget_latest h1 = Some h2 /\ view h1 = view h2 ++ [(id, line)] /\
    forall fuel,
    (forall s, In (n, s) (view h2) ->
       feed E (S fuel) line w = match feed E fuel s (set_hist h2 w) with FExc x w' => report E line x w' | r => r end) /\
    ((forall s, ~ In (n, s) (view h2)) -> (0 < next_id h2)%Z ->
       feed E (S fuel) line w = report E line (XStd (lit "Index not found in history")) (set_hist h2 w)) /\
    (h_buf h2 = [] -> h_oldest h2 = 0%Z -> (n < 2 ^ 64)%Z -> feed E (S fuel) line w = FUB).
Proof. exact recall_found. Qed.
Print Assumptions C16_recall.

(** What is held then: everything held before, except the oldest entry when the
    history was full. *)
Theorem C16_recall_view : forall size h line h1 h2, size >= 1 -> reachable size h -> h_browse h = false ->
  last_text (view h) <> Some line -> new_command h line = Some h1 -> forget_latest h1 = Some h2 ->
  view h2 = if Nat.ltb (length (view h)) size then view h else tl (view h).
Proof. exact recall_view. Qed.
Print Assumptions C16_recall_view.

Example C16_nonvacuous :
  In (1%Z, lit "add 1 2") (view (w_hist demo_world)) /\
  (exists w', feed quiet_env 2 (lit "!1") demo_world = FOk w' /\ w_trace w' = [EvCall 0 0 [VInt 1; VInt 2]; EvOut 0 (lit "hi")] /\
     view (w_hist w') = view (w_hist demo_world)) /\
  (exists w', feed quiet_env 2 (lit "!7") demo_world = FOk w' /\ w_trace w' = [EvOut 0 (lit "Index not found in history" ++ nl)]).
Proof. split; [right; left; reflexivity|]. split; eexists; vm_compute; repeat split. Qed.

(** The oldest entry of a full history is listed, but cannot be recalled. *)
Theorem C16_oldest_refuted : exists E size w n s line, size >= 1 /\ reachable size (w_hist w) /\ In (n, s) (view (w_hist w)) /\
  split line = Some [lit "!"; lit "0"] /\ convert E (PInt UInt) (lit "0") = COk (VInt n) /\
  forall fuel, exists w', feed E (S fuel) line w = FOk w' /\ w_trace w' = w_trace w ++ [EvOut (w_sid w) (lit "Index not found in history" ++ nl)].
Proof.
  exists quiet_env, 2, (open_session 0 2 demo_root 20 (StVolatile 10 [lit "old"; lit "add 1 2"]) []), 0%Z, (lit "old"), (lit "!0").
  split; [lia|]. split; [exists [OLoad [lit "old"; lit "add 1 2"]]; reflexivity|].
  split; [left; reflexivity|]. split; [reflexivity|]. split; [reflexivity|]. intros fuel. eexists. split; reflexivity.
Qed.
Print Assumptions C16_oldest_refuted.

(** As the first command of a session, a recall is undefined behaviour. *)
Theorem C16_first_refuted : exists E size line, size >= 1 /\ recall E line /\
  forall fuel, feed E (S fuel) line (fresh_world size) = FUB.
Proof.
  exists quiet_env, 5, (lit "!0"). split; [lia|]. split; [exists (lit "0"), 0%Z; split; reflexivity|]. intros fuel. reflexivity.
Qed.
Print Assumptions C16_first_refuted.

(** C27: removing the disabled commands (and what they contain) from the menus
    changes neither what lines mean, nor execution, nor help. *)
Theorem C27_hidden_from_resolution : forall E ctx toks, toks <> [] ->
  (forall t, resolves E (map prune ctx) toks t <-> resolves E ctx toks t) /\
  (unresolved E (map prune ctx) toks <-> unresolved E ctx toks).
Proof. intros E ctx toks H. split; [intros t; apply resolves_prune; exact H|apply unresolved_prune; exact H]. Qed.
Print Assumptions C27_hidden_from_resolution.
Theorem C27_hidden_from_execution : forall E bi toks ctx w, toks <> [] ->
  scan E bi toks (map prune ctx) w = scan E bi toks ctx w.
Proof. exact scan_prune. Qed.
Print Assumptions C27_hidden_from_execution.
Theorem C27_hidden_from_help : forall ctx, main_help (map prune ctx) = main_help ctx.
Proof. exact help_prune. Qed.
Print Assumptions C27_hidden_from_help.
Example C27_nonvacuous : prune demo_root <> demo_root /\
  (exists w', scan quiet_env no_builtin [lit "hid"] [demo_root] demo_world = EDone false w') /\
  (exists w', scan quiet_env no_builtin [lit "say"; lit "hid"] [demo_root] demo_world = EDone true w').
Proof. split; [discriminate|]. split; eexists; reflexivity. Qed.

(** C28: every non-empty line resolves to exactly one target, or to none... *)
Theorem C28_resolution : forall E ctx toks, toks <> [] -> unresolved E ctx toks \/ exists t, resolves E ctx toks t.
Proof. exact resolves_or_not. Qed.
Print Assumptions C28_resolution.
Theorem C28_resolution_unique : forall E ctx toks t t', toks <> [] -> resolves E ctx toks t -> resolves E ctx toks t' -> t = t'.
Proof. exact resolves_unique. Qed.
Print Assumptions C28_resolution_unique.
(** ... and what it resolves to is done: a function is run with the converted
    arguments, *)
Theorem C28_run : forall E fuel line w w0 toks ctx, recorded line w toks w0 -> unique_ids (w_root w) -> in_menu w ctx ->
  forall u pars args vs, resolves E ctx toks (TRun (HUser u) pars args) -> converts E pars args vs ->
  (forall s, ur_end (e_handler E (w_sid w) u vs (w_trace w ++ [EvCall (w_sid w) u vs])) <> UThrow (XBadCast s)) ->
  feed E (S fuel) line w = after_call E line u vs w0.
Proof. exact feed_run. Qed.
Print Assumptions C28_run.
(** a free form function with the words, *)
Theorem C28_free : forall E fuel line w w0 toks ctx, recorded line w toks w0 -> unique_ids (w_root w) -> in_menu w ctx ->
  forall u args, resolves E ctx toks (TFree (HUser u) args) -> feed E (S fuel) line w = after_call E line u [VList args] w0.
Proof. exact feed_free. Qed.
Print Assumptions C28_free.
(** a menu is entered, *)
Theorem C28_goto : forall E fuel line w w0 toks ctx, recorded line w toks w0 -> unique_ids (w_root w) -> in_menu w ctx ->
  forall id, resolves E ctx toks (TGoto id) -> feed E (S fuel) line w = FOk (set_cur id w0).
Proof. exact feed_goto. Qed.
Print Assumptions C28_goto.
(** and the global commands do their job (help: C51, exit: C37, recall: C16). *)
Theorem C28_history : forall E size fuel line w w0, size >= 1 -> reachable size (w_hist w) -> recorded line w [lit "history"] w0 ->
  feed E (S fuel) line w = FOk (log (EvOut (w_sid w) (listing (view (w_hist w0)))) w0).
Proof. exact feed_history. Qed.
Print Assumptions C28_history.

Example C28_nonvacuous :
  (exists w0, recorded (lit "add 1 2") demo_world [lit "add"; lit "1"; lit "2"] w0) /\
  unique_ids (w_root demo_world) /\ in_menu demo_world [demo_root] /\
  resolves quiet_env [demo_root] [lit "add"; lit "1"; lit "2"] (TRun (HUser 0) [PInt Int; PInt Int] [lit "1"; lit "2"]) /\
  converts quiet_env [PInt Int; PInt Int] [lit "1"; lit "2"] [VInt 1; VInt 2] /\
  (exists w', feed quiet_env 1 (lit "add 1 2") demo_world = FOk w' /\ w_trace w' = [EvCall 0 0 [VInt 1; VInt 2]; EvOut 0 (lit "hi")]) /\
  (exists w', feed quiet_env 1 (lit "add 1 b") demo_world = FOk w' /\
     w_trace w' = [EvCall 0 1 [VStr (lit "1"); VStr (lit "b")]; EvOut 0 (lit "boom" ++ nl)]) /\
  (exists w', feed quiet_env 1 (lit "sub deep") demo_world = FOk w' /\ w_cur w' = 15).
Proof.
  split; [eexists; split; [reflexivity|split; [discriminate|eexists; split; reflexivity]]|].
  split; [unfold unique_ids; cbn; repeat constructor; cbn; intuition discriminate|].
  split; [split; [constructor; repeat eexists|do 2 eexists; split; reflexivity]|].
  split.
  { right. split.
    - intros p t H. inversion H; subst; cbn in *;
        repeat match goal with Hn : nth_error _ ?i = Some _ |- _ => destruct i; cbn in Hn end; discriminate.
    - exists [0]. split; [eapply rd_fn; reflexivity|]. split.
      + intros H. inversion H as [h pars args Hm]; subst. inversion Hm as [? ? ? ? Hc|? ? ? ? ? ? Hm']; subst; [discriminate Hc|].
        inversion Hm' as [? ? ? ? Hc|? ? ? ? ? ? Hm'']; subst; [discriminate Hc|inversion Hm''].
      + intros p t H Hb. inversion Hb as [i j a b Hij|i a b Hab]; subst; [lia|inversion Hab]. }
  split; [repeat econstructor|].
  repeat split; eexists; vm_compute; split; reflexivity.
Qed.

(** C29: one line runs at most one function. *)
Theorem C29_one_call : forall E line, ~ recall E line -> handlers_no_bad_cast E ->
  forall fuel w, f_grows 1 w (feed E (S fuel) line w).
Proof. exact feed_one_call. Qed.
Print Assumptions C29_one_call.
(** Recall lines included, if no hook throws [bad_cast] either. *)
Theorem C29_one_call_all : forall E fuel, handlers_no_bad_cast E -> hooks_no_bad_cast E ->
  forall line w, f_grows 1 w (feed E fuel line w).
Proof. exact feed_grows. Qed.
Print Assumptions C29_one_call_all.
Example C29_nonvacuous :
  let E := mkEnv (mkPlatform true false) (fun _ _ => None) (fun _ _ => None)
             (fun _ h _ _ => mkURes [OOut (lit "hi")] (if Nat.eqb h 0 then UReturn else UThrow XOther)) demo_hook (fun _ => false) in
  handlers_no_bad_cast E /\ ~ recall E (lit "say a b") /\
  exists w', feed E 1 (lit "say a b") demo_world = FOk w' /\ calls (w_trace w') = 1.
Proof.
  cbn zeta. split; [intros sid h args tr s; cbn; destruct (Nat.eqb h 0); discriminate|].
  split; [intros (a & n & H & _); discriminate|]. eexists. split; reflexivity.
Qed.
(** A function throwing [bad_cast] is taken for a mismatch: the next match runs too. *)
Theorem C29_bad_cast_refuted : exists E line w, ~ recall E line /\
  forall fuel, exists w', feed E (S fuel) line w = FOk w' /\ calls (w_trace w') = 2.
Proof.
  exists quiet_env, (lit "go"), bad_world. split; [intros (a & n & H & _); discriminate|].
  intros fuel. eexists. split; reflexivity.
Qed.
Print Assumptions C29_bad_cast_refuted.

(** C30: a line that resolves to nothing is recorded, handed to the wrong-command
    handler once or reported on the stream; no function runs and the menu stays. *)
Theorem C30_unmatched : forall E fuel line w w0 toks ctx, recorded line w toks w0 -> unique_ids (w_root w) -> in_menu w ctx ->
  unresolved E ctx toks -> feed E (S fuel) line w = reject E line w0.
Proof. exact feed_unresolved. Qed.
Print Assumptions C30_unmatched.
Example C30_nonvacuous :
  unresolved quiet_env [demo_root] [lit "add"; lit "1"] /\
  (exists w', feed quiet_env 1 (lit "add 1") demo_world = FOk w' /\ w_trace w' = [EvOut 0 (lit "wrong command: add 1" ++ nl)] /\
     last_text (view (w_hist w')) = Some (lit "add 1")) /\
  (exists w', feed full_env 1 (lit "add 1") demo_world = FOk w' /\ w_trace w' = [EvHook 0 KWrong [lit "add 1"]; EvBroadcast (lit "hook")]).
Proof.
  split.
  { split; intros p t H; inversion H; subst; cbn in *;
      repeat match goal with Hn : nth_error _ ?i = Some _ |- _ => destruct i; cbn in Hn end; try discriminate.
    all: try match goal with Hn : Some _ = Some _ |- _ => injection Hn; intros; subst end; try discriminate.
    all: match goal with Hn : CMenu _ _ _ _ _ _ = demo_sub |- _ => discriminate | _ => idtac end. }
  split; eexists; vm_compute; repeat split.
Qed.

(** C31: an exception leaves [Feed] only if the user's exception handler threw it. *)
Theorem C31_no_escape : forall E fuel line w x w', feed E fuel line w = FExc x w' ->
  e_has E KExcept = true /\ exists sid args tr, ur_end (e_hook E sid KExcept args tr) = UThrow x.
Proof. exact feed_exc. Qed.
Print Assumptions C31_no_escape.
(** What a function throws is reported once ([after_call], [report]): see C28_run and
    C28_free. *)
Theorem C31_reported_once : forall E fuel line w w0 toks ctx, recorded line w toks w0 -> unique_ids (w_root w) -> in_menu w ctx ->
  forall u pars args vs x, resolves E ctx toks (TRun (HUser u) pars args) -> converts E pars args vs ->
  let w1 := log (EvCall (w_sid w0) u vs) w0 in
  let r := e_handler E (w_sid w0) u vs (w_trace w1) in
  ur_end r = UThrow x -> (forall s, x <> XBadCast s) ->
  feed E (S fuel) line w = report E line x (apply_ops (ur_ops r) w1).
Proof.
  intros E fuel line w w0 toks ctx Hr Hu Hm u pars args vs x Hres Hc w1 r Hx Hb.
  destruct (recorded_same _ _ _ _ Hr) as (_ & _ & Hsid & Htr & _).
  rewrite (feed_run E fuel line w w0 toks ctx Hr Hu Hm u pars args vs Hres Hc).
  - unfold after_call. fold w1. fold r. rewrite Hx. reflexivity.
  - intros s H. unfold r, w1 in Hx. cbn in Hx. rewrite Hsid, Htr, H in Hx. injection Hx as <-. exact (Hb s eq_refl).
Qed.
Print Assumptions C31_reported_once.
Example C31_nonvacuous :
  (exists w', feed quiet_env 1 (lit "sub x") demo_world = FOk w' /\ w_trace w' = [EvCall 0 1 []; EvOut 0 (lit "boom" ++ nl)]) /\
  (exists w', feed full_env 1 (lit "sub x") demo_world = FOk w' /\
     w_trace w' = [EvCall 0 1 []; EvHook 0 KExcept [lit "sub x"; lit "boom"]; EvBroadcast (lit "hook")]).
Proof. split; eexists; split; reflexivity. Qed.
