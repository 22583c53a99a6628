(** * Claim about colours *)

From Verif Require Import Base FromStringModel HistoryModel StorageModel TerminalModel TerminalSpec MenuModel SessionModel ResolveSpec SessionSpec
  CompletionModel ProcessorModel ProcessorSpec DisplayProofs Demo ColorSpec ColorProofs.
Open Scope nat_scope.
Open Scope list_scope.

(** C56: two sessions where the same keys are pressed, on any kinds of streams and
    with the colours switched on and off at any moments, do the same and print the
    same up to colour codes. *)
Theorem C56_same : forall E fuel tty tty' c c' ks ks' w, blind anything E -> map ks_key ks = map ks_key ks' ->
  alike_outcome anything (run_session E fuel tty c ks w) (run_session E fuel tty' c' ks' w).
Proof. exact colours_behaviour. Qed.
Print Assumptions C56_same.
(** Also from states reached with different colours. *)
Theorem C56_same_on : forall E fuel tty tty' ks ks' p p', blind anything E -> map ks_key ks = map ks_key ks' -> alike_proc anything p p' ->
  alike_outcome anything (presses E fuel tty ks p) (presses E fuel tty' ks' p').
Proof. exact colours_from_there. Qed.
Print Assumptions C56_same_on.
(** Their users see the same screens, if no text holds escape characters or leaves
    escape sequences open. *)
Theorem C56_screen : forall E fuel tty tty' c c' ks ks' w p p' sc,
  blind not_escape E -> code_in not_escape whole E -> world_in not_escape whole w ->
  Forall (fun k => key_in not_escape (ks_key k)) ks -> map ks_key ks = map ks_key ks' -> sc_esc (screen_of sc w) = Ground ->
  run_session E fuel tty c ks w = POk p -> run_session E fuel tty' c' ks' w = POk p' ->
  screen_of sc (p_world p) = screen_of sc (p_world p').
Proof. exact colours_screen. Qed.
Print Assumptions C56_screen.
(** While the colours have never been on, and not on a colour terminal, no code is
    written. *)
Theorem C56_off : forall E fuel ks w, code_in not_escape (Forall not_escape) E -> world_in not_escape (Forall not_escape) w ->
  Forall (fun k => key_in not_escape (ks_key k)) ks -> Forall (fun k => ks_color k = false /\ ks_color' k = false) ks ->
  match run_session E fuel false false ks w with
  | POk p | PExc _ p => exists evs, w_trace (p_world p) = w_trace w ++ evs /\ Forall plain_event evs
  | _ => True
  end.
Proof. intros E fuel ks w Hc Hw Hk. exact (colours_off E fuel false ks w Hc Hw Hk eq_refl). Qed.
Print Assumptions C56_off.

Definition mono (k : key) : keystroke := mkStroke k false false.
Definition lit_up (k : key) : keystroke := mkStroke k true false.
Definition demo_keys : list key := map KAscii (lit "ad") ++ [KLeft; KAscii "009"; KUp; KRet; KClear; KEof].

(** Once switched on and off again, codes are still written. *)
Theorem C56_again_refuted : exists p p',
  run_session quiet_env 10 false true [] demo_world = POk p /\
  presses quiet_env 10 false [mono (KAscii "x")] p = POk p' /\
  w_trace (p_world p') = w_trace (p_world p) ++ [EvOut 0 (lit "x" ++ sgr 0)].
Proof. eexists _, _. split; [vm_compute; reflexivity|]. split; vm_compute; reflexivity. Qed.
Print Assumptions C56_again_refuted.

(** A line holding an escape character looks different with colours. *)
Theorem C56_escape_refuted : exists w p p' sc,
  run_session quiet_env 10 false false [mono KUp] w = POk p /\ run_session quiet_env 10 false true [lit_up KUp] w = POk p' /\
  sc_esc (screen_of sc w) = Ground /\ screen_of sc (p_world p) <> screen_of sc (p_world p').
Proof.
  exists (open_session 0 5 demo_root 20 (StVolatile 10 [["a"; "027"]%char]) []). eexists _, _, (mkScreen [] [] [] 0 Ground).
  split; [vm_compute; reflexivity|]. split; [vm_compute; reflexivity|]. split; [reflexivity|]. vm_compute. discriminate.
Qed.
Print Assumptions C56_escape_refuted.

Lemma demo_tidy (N : str -> Prop) : (forall s, Forall not_escape s -> N s) -> code_in not_escape N full_env /\ world_in not_escape N demo_world.
Proof.
  intros HN. assert (HL : forall s, forallb (fun c => negb (Ascii.eqb c "027")) s = true -> Forall not_escape s) by (apply chars_dec; auto).
  assert (Hr : forall r, r = mkURes [OOut (lit "hi")] UReturn \/ r = mkURes [] (UThrow (XStd (lit "boom"))) \/
    r = mkURes [OOut (lit "no")] (UThrow (XBadCast (lit "cast"))) \/ r = mkURes [ORemove 13] UReturn \/
    r = mkURes [ODisable 11; OInsert 10 (CFn 0 (lit "new") true [] [] [] (HUser 0))] UReturn \/
    r = mkURes [] (UThrow XOther) \/ r = mkURes [OBroadcast (lit "hook")] UReturn -> result_in not_escape N r).
  { assert (H1 : forall o, op_in not_escape N o -> Forall (op_in not_escape N) [o]) by (intros o Ho; constructor; [exact Ho|constructor]).
    assert (HT : forall s, forallb (fun c => negb (Ascii.eqb c "027")) s = true -> N s) by (intros s Hs; apply HN, HL, Hs).
    assert (H0 : N []) by (apply HN; constructor).
    intros r [->|[->|[->|[->|[->|[->| ->]]]]]]; (split; cbn [ur_ops ur_end exn_in]); try exact Logic.I; try (apply HT; reflexivity);
      try apply Forall_nil; try (apply H1; exact Logic.I); try (apply H1, HT; reflexivity).
    constructor; [exact Logic.I|]. apply H1. cbn. split; [|exact Logic.I]. split; [apply HL; reflexivity|]. split; [exact H0|split; constructor]. }
  split.
  - split; intros; apply Hr; [|tauto]. cbn. do 5 (destruct h as [|h]; [tauto|]). tauto.
  - split; [|repeat constructor; discriminate].
    repeat (cbn [every demo_world open_session w_root demo_root demo_sub texts_in cmd_name]; repeat split; try exact Logic.I;
      try (apply HL; reflexivity); try (apply HN, HL; reflexivity); try (apply Forall_nil);
      try (apply Forall_cons; [apply HN, HL; reflexivity|apply Forall_nil]);
      try (apply Forall_forall; intros ? Hp; cbn in Hp; intuition (subst; exact Logic.I))).
Qed.
Example C56_nonvacuous :
  blind anything full_env /\ blind not_escape full_env /\ code_in not_escape whole full_env /\ world_in not_escape whole demo_world /\
  code_in not_escape (Forall not_escape) full_env /\ world_in not_escape (Forall not_escape) demo_world /\
  Forall (key_in not_escape) demo_keys /\
  exists p p', run_session full_env 20 false false (map mono demo_keys) demo_world = POk p /\
    run_session full_env 20 true true (map lit_up demo_keys) demo_world = POk p' /\ w_trace (p_world p) <> w_trace (p_world p').
Proof.
  split; [split; intros; reflexivity|]. split; [split; intros; reflexivity|].
  destruct (demo_tidy whole whole_text) as (H1 & H2). destruct (demo_tidy (Forall not_escape) (fun s H => H)) as (H3 & H4).
  split; [exact H1|]. split; [exact H2|]. split; [exact H3|]. split; [exact H4|].
  split; [repeat constructor; discriminate|]. eexists _, _. split; [vm_compute; reflexivity|]. split; [vm_compute; reflexivity|].
  vm_compute. discriminate.
Qed.
