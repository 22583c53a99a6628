(** * C74: user code that calls its session *)

From Verif Require Import Base SplitModel FromStringModel HistoryModel HistorySpec StorageModel TerminalModel MenuModel SessionModel ResolveSpec SessionSpec
  HistoryProofs InvariantProofs TreeProofs SafetyProofs ReentModel ReentSpec ReentProofs Demo.
Open Scope nat_scope.
Open Scope list_scope.

(** A command calling [Feed] on its session: function 4 feeds three lines, 5 shows the
    history, exits and goes on. *)
Definition reent_handler (sid n : nat) (args : list value) (tr : list event) : prog :=
  match n with
  | 0 => PDo (RDo (OOut (lit "hi"))) (fun _ _ => PEnd UReturn)
  | 1 => PEnd (UThrow (XStd (lit "boom")))
  | 4 => feeding [lit "add 1 2"; lit "sub"; lit "x"]
  | 5 => PDo (RCall KShow) (fun _ _ => PDo (RCall KExit) (fun _ _ => PDo (RCall (KFeed (lit "add 3 4"))) (fun _ _ => PEnd UReturn)))
  | _ => PEnd (UThrow XOther)
  end.
Definition reent_hook (a sid : nat) (k : hook) (args : list str) (tr : list event) : prog :=
  match k with KWrong => PDo (RCall KHelp) (fun _ _ => PEnd UReturn) | _ => PEnd UReturn end.
Definition reent_env : renv := mkREnv full_env reent_handler reent_hook.
(** Action 0 everywhere. *)
Definition demo_acts : acts := mkActs (fun _ => Some 0) [].
Definition demo_state : rstate := mkR demo_world 0 demo_acts.

Lemma demo_unique : unique_ids demo_root.
Proof. unfold unique_ids. cbn. repeat constructor; cbn; intuition discriminate. Qed.

(** C74: the model agrees with that of sessions (C28 to C37, C57) when user code does not
    call the session, *)
Theorem C74_conservative : forall E fuel line s, acts_of E s ->
  agrees E (run_call (plain E) fuel (KFeed line) s) (feed E fuel line (r_w s)).
Proof. intros. apply run_agrees. assumption. Qed.
Print Assumptions C74_conservative.
Theorem C74_conservative_calls : forall E fuel s, acts_of E s ->
  agrees_h E (run_call (plain E) (S fuel) KEnter s) (session_enter E (r_w s)) /\
  agrees_h E (run_call (plain E) (S fuel) KExit s) (session_exit E (r_w s)).
Proof. intros E fuel s H. split; [apply enter_agrees, H|apply exit_agrees, H]. Qed.
Print Assumptions C74_conservative_calls.
(** and the nesting depth only limits it. *)
Theorem C74_fuel : forall R n m c s, n <= m -> run_call R n c s <> RFuel -> run_call R m c s = run_call R n c s.
Proof. intros. apply run_fuel; assumption. Qed.
Print Assumptions C74_fuel.

Example C74_nonvacuous : exists s,
  run_call reent_env 3 (KFeed (lit "chg")) demo_state = ROk None s /\
  w_cur (r_w s) = 13 /\ w_trace (r_w s) = [EvCall 0 4 []; EvCall 0 0 [VInt 1; VInt 2]; EvOut 0 (lit "hi"); EvCall 0 1 []; EvHook 0 KExcept [lit "x"; lit "boom"]] /\
  map snd (view (w_hist (r_w s))) = [lit "add 1 2"; lit "chg"; lit "add 1 2"; lit "sub"; lit "x"] /\
  run_call reent_env 1 (KFeed (lit "chg")) demo_state = RFuel /\ acts_of full_env demo_state.
Proof.
  eexists. split; [vm_compute; reflexivity|]. do 4 (split; [vm_compute; reflexivity|]). intros k. split; [reflexivity|discriminate].
Qed.

(** Whatever user code does, calls only add events, a session that has exited stays so,
    command identifiers stay unique, and the history stays within its size. *)
Theorem C74_later : forall R fuel c s, left_in (later s) (run_call R fuel c s).
Proof. exact run_later. Qed.
Print Assumptions C74_later.
(** [Exit] that returns has stored the history and ended the session. *)
Theorem C74_exit : forall R fuel s a s', run_call R fuel KExit s = ROk a s' ->
  w_exit (r_w s') = true /\
  exists st cmds, get_commands (w_hist (r_w s')) = Some cmds /\ w_store (r_w s') = st_store st cmds.
Proof. exact exit_done. Qed.
Print Assumptions C74_exit.
(** [Prompt], called at any moment, writes the prompt of the menu that is current then, with the codes
    for the colours of the stream, or nothing after [Exit], and does nothing else. *)
Theorem C74_prompt : forall R fuel tty color force w t ac m anc, unique_ids (w_root w) -> in_menu w (m :: anc) ->
  exists p text, menu_prompt m = Some p /\ run_call R (S fuel) (KPrompt tty color force) (mkR w t ac) = ROk None (mkR (log (EvOut (w_sid w) text) w) t ac) /\
    text = if w_exit w then [] else (if color then sgr 32 ++ sgr 1 else []) ++ p ++ (if force || color || tty then sgr 0 else []) ++ lit "> ".
Proof. exact prompt_called. Qed.
Print Assumptions C74_prompt.
(** From the menu in which it is called: a command goes to the menu [sub], prompts, exits and prompts. *)
Definition prompting : renv :=
  mkREnv full_env (fun _ _ _ _ => PDo (RCall (KFeed (lit "sub"))) (fun _ _ => PDo (RCall (KPrompt false false false)) (fun _ _ =>
    PDo (RCall KExit) (fun _ _ => PDo (RCall (KPrompt true true false)) (fun _ _ => PEnd UReturn))))) (fun _ _ _ _ _ => PEnd UReturn).
Example C74_prompt_nonvacuous : in_menu demo_world [demo_root] /\ unique_ids (w_root demo_world) /\
  exists s, run_call prompting 3 (KFeed (lit "chg")) demo_state = ROk None s /\
    w_trace (r_w s) = [EvCall 0 4 []; EvOut 0 (lit "sub> "); EvHook 0 KSesExit []; EvHook 0 KCliExit []; EvOut 0 []].
Proof.
  split; [split; [apply chain_root; repeat eexists|exists demo_root, []; split; reflexivity]|]. split; [exact demo_unique|]. eexists. split; vm_compute; reflexivity.
Qed.
(** Only the exception handler of the user makes [Feed] throw. *)
Theorem C74_escape : forall R fuel line s x s', run_call R fuel (KFeed line) s = RExc x s' ->
  exists a sid what tr, ends (re_hook R a sid KExcept [line; what] tr) (UThrow x).
Proof. exact feed_escape. Qed.
Print Assumptions C74_escape.

Definition leaving_root : cmd := CMenu 10 (lit "cli") true [] (lit "cli") [CFn 11 (lit "bye") true [] [] [] (HUser 5); CFn 12 (lit "add") true [] [PInt Int; PInt Int] [] (HUser 0)].
Definition leaving_state : rstate := mkR (open_session 0 5 leaving_root 20 (StVolatile 10 []) []) 0 demo_acts.
Definition throwing_env : renv := mkREnv full_env reent_handler (fun _ _ k _ _ => match k with KExcept => PEnd (UThrow XOther) | _ => PEnd UReturn end).
Example C74_exit_nonvacuous :
  (exists s, run_call reent_env 3 (KFeed (lit "bye")) leaving_state = ROk None s /\ w_exit (r_w s) = true /\
     w_store (r_w s) = StVolatile 10 [lit "bye"] /\ map snd (view (w_hist (r_w s))) = [lit "bye"; lit "add 3 4"]) /\
  (exists s, run_call reent_env 3 KExit demo_state = ROk None s) /\
  (exists s, run_call throwing_env 3 (KFeed (lit "sub x")) demo_state = RExc XOther s).
Proof. split; [eexists; split; [vm_compute; reflexivity|]; vm_compute; repeat split|]. split; eexists; vm_compute; reflexivity. Qed.

(** Feeding a line, whether user code does it or not, runs the command it resolves to in
    the state it is fed in, and reports what that throws. *)
Theorem C74_run : forall R fuel line w w0 t ac toks ctx, recorded line w toks w0 -> unique_ids (w_root w) -> in_menu w ctx ->
  (forall u pars args vs, resolves (re_env R) ctx toks (TRun (HUser u) pars args) -> converts (re_env R) pars args vs ->
     (forall what s, command_code R fuel u vs (mkR w0 t ac) <> RExc (XBadCast what) s) ->
     run_call R (S fuel) (KFeed line) (mkR w t ac) = reported R fuel line (command_code R fuel u vs (mkR w0 t ac))) /\
  (forall u args, resolves (re_env R) ctx toks (TFree (HUser u) args) ->
     run_call R (S fuel) (KFeed line) (mkR w t ac) = reported R fuel line (command_code R fuel u [VList args] (mkR w0 t ac))) /\
  (forall id, resolves (re_env R) ctx toks (TGoto id) -> run_call R (S fuel) (KFeed line) (mkR w t ac) = ROk None (mkR (set_cur id w0) t ac)) /\
  (unresolved (re_env R) ctx toks ->
     run_call R (S fuel) (KFeed line) (mkR w t ac) =
     reported R fuel line (hook_code R fuel KWrong [line] (out (lit "wrong command: " ++ line ++ nl)) (mkR w0 t ac))) /\
  (forall c, global_call (re_env R) toks c ->
     (forall what s, run_call R (S fuel) c (mkR w0 t ac) <> RExc (XBadCast what) s) ->
     run_call R (S fuel) (KFeed line) (mkR w t ac) = reported R fuel line (run_call R (S fuel) c (mkR w0 t ac))).
Proof.
  intros R fuel line w w0 t ac toks ctx Hr Hu Hm. split; [|split; [|split; [|split]]]; intros.
  - eapply reent_run; eassumption.
  - eapply reent_free; eassumption.
  - eapply reent_goto; eassumption.
  - eapply reent_unresolved; eassumption.
  - eapply reent_global; eassumption.
Qed.
Print Assumptions C74_run.
(** A command that feeds lines does what feeding them one after another does. *)
Theorem C74_macro : forall R fuel line w w0 t ac toks ctx u args lines, recorded line w toks w0 -> unique_ids (w_root w) -> in_menu w ctx ->
  resolves (re_env R) ctx toks (TFree (HUser u) args) ->
  re_handler R (w_sid w0) u [VList args] (w_trace w0 ++ [EvCall (w_sid w0) u [VList args]]) = feeding lines ->
  run_call R (S fuel) (KFeed line) (mkR w t ac) =
  reported R fuel line (r_feeds R fuel lines (mkR (log (EvCall (w_sid w0) u [VList args]) w0) t ac)).
Proof.
  intros R fuel line w w0 t ac toks ctx u args lines Hr Hu Hm Hres Hh. rewrite (reent_free R fuel line w w0 t ac toks ctx Hr Hu Hm u args Hres).
  unfold command_code. cbn zeta. cbn [log w_sid w_trace]. rewrite Hh, feeding_run. reflexivity.
Qed.
Print Assumptions C74_macro.

Definition macro_env : renv := mkREnv full_env (fun sid n args tr => match n with 0 => feeding [lit "sub"; lit "x"] | _ => PEnd UReturn end) reent_hook.
Example C74_run_nonvacuous :
  recorded (lit "say it") demo_world [lit "say"; lit "it"] (set_hist (mkHistory 5 [lit "say it"; lit "add 1 2"; lit "old"] 0 1 false 0) demo_world) /\
  unique_ids (w_root demo_world) /\ in_menu demo_world [demo_root] /\
  resolves (re_env macro_env) [demo_root] [lit "say"; lit "it"] (TFree (HUser 0) [lit "it"]) /\
  re_handler macro_env 0 0 [VList [lit "it"]] [EvCall 0 0 [VList [lit "it"]]] = feeding [lit "sub"; lit "x"] /\
  global_call (re_env macro_env) [lit "!"; lit "1"] (KFromHistory 1).
Proof.
  assert (Hu : unique_ids (w_root demo_world)) by (unfold unique_ids; cbn; repeat constructor; cbn; intuition discriminate).
  split; [split; [reflexivity|split; [discriminate|eexists; split; reflexivity]]|].
  split; [exact Hu|].
  split; [split; [constructor; repeat eexists|do 2 eexists; split; reflexivity]|].
  split; [|split; [reflexivity|constructor; reflexivity]].
  right. split.
  - intros p t H. apply SessionProofs.global_readings in H as [(H & _)|[(H & _)|[(H & _)|(a & H & _)]]]; discriminate.
  - exists [1]. split; [eapply rd_free; reflexivity|]. split; [intros H; inversion H|].
    intros p t H Hb. apply ResolveProofs.in_choices in H; [|discriminate]. vm_compute in H. destruct H as [H|[]].
    inversion H; subst. inversion Hb; subst; [lia|]. match goal with H : before _ _ |- _ => inversion H end.
Qed.

(** User code that keeps to the rules (ReentSpec.v) never leads to undefined behaviour,
    and the session stays healthy; [RFuel]: its calls are nested deeper. *)
Theorem C74_safe : forall R (D M : nat -> Prop) size, size >= 1 -> fair_code R D M -> forall fuel c s,
  fair_call (re_env R) M c -> healthy (re_env R) D size (r_w s) -> have M (r_w s) ->
  used (r_w s) \/ (exists line, c = KFeed line /\ ~ recall (re_env R) line) ->
  r_safe (re_env R) (fun w => healthy (re_env R) D size w /\ have M w /\ (used (r_w s) -> used w)) (run_call R fuel c s).
Proof. intros R D M size Hsz Hc. apply reent_safe; assumption. Qed.
Print Assumptions C74_safe.

(** Feeds lines found in the history, and visits a menu. *)
Definition fair_handler (sid n : nat) (args : list value) (tr : list event) : prog :=
  match n with
  | 0 => PDo (RDo (ORemove 11)) (fun _ _ => PEnd UReturn)
  | 4 => PDo (RDo (ORemove 11)) (fun _ _ => PDo (RCall (KPrevious (lit "say"))) (fun a _ =>
           match a with AGot (Some t) => PDo (RCall (KFeed t)) (fun _ _ => PEnd UReturn) | _ => PEnd UReturn end))
  | 1 => PDo (RCall (KCurrent 13)) (fun _ _ => PDo (RCall (KFeed (lit "! 1"))) (fun a _ => match a with AThrew x => PEnd (UThrow x) | _ => PEnd UReturn end))
  | _ => PEnd (UThrow XOther)
  end.
Definition fair_env : renv := mkREnv full_env fair_handler reent_hook.
Example C74_safe_nonvacuous :
  fair_code fair_env (fun i => i = 11) (fun i => i = 13) /\ fair_call (re_env fair_env) (fun i => i = 13) (KFeed (lit "sub x")) /\
  healthy (re_env fair_env) (fun i => i = 11) 5 demo_world /\ have (fun i => i = 13) demo_world /\ used demo_world /\
  exists s, run_call fair_env 4 (KFeed (lit "sub x")) demo_state = ROk None s /\ w_cur (r_w s) = 13.
Proof.
  assert (Hleg : forall s, Forall (fun c => (N_of_ascii c < 128)%N) s -> legible full_env s) by (intros s H; right; exact H).
  split; [|split; [|split; [|split; [|split]]]].
  - split; [reflexivity|]. split.
    + intros sid n args tr. cbn [re_handler fair_env re_env]. destruct n as [|[|[|[|[|n]]]]]; cbn [fair_handler]; try (constructor; intros x H; inversion H; subst; intros (what & Hw); discriminate).
      * constructor; [reflexivity|]. intros _. constructor. intros ? H; discriminate H.
      * constructor; [reflexivity|]. intros _ _ _. constructor; [apply Hleg; repeat constructor|].
        intros [a|x] _ Ha; constructor; intros y H; inversion H; subst; exact Ha.
      * constructor; [reflexivity|]. intros _. constructor.
        -- cbn. split; [apply Hleg; repeat constructor|]. intros (a & n & H & _). discriminate.
        -- intros a _ Ha. destruct a as [[t|]|x]; try (constructor; intros ? H; discriminate H).
           constructor; [exact Ha|]. intros _ _ _. constructor. intros ? H; discriminate H.
    + intros a sid k args tr. cbn. destruct k; try (constructor; intros ? H; discriminate H).
      constructor; [exact Logic.I|]. intros _ _ _. constructor. intros ? H; discriminate H.
  - apply Hleg. repeat constructor.
  - apply (proj1 (open_healthy full_env (fun i => i = 11) 5 0 demo_root 20 (StVolatile 10 [lit "old"; lit "add 1 2"]) [] ltac:(lia)
      ltac:(unfold unique_ids; cbn; repeat constructor; cbn; intuition discriminate) ltac:(cbn; repeat constructor) ltac:(repeat eexists)
      ltac:(intros id ->; split; [lia|]; intros m anc Hc He;
            assert (Hin : In (cmd_id m) (menu_ids demo_root)) by (apply (chain_menu_ids demo_world); eauto);
            rewrite He in Hin; cbn in Hin; intuition discriminate)
      ltac:(cbn; repeat split; eexists; reflexivity) ltac:(repeat constructor; right; repeat constructor)
      ltac:(intros s [<-|[<-|[]]] (a & n & H & _); discriminate))).
  - intros id ->. exists demo_sub, [demo_root]. split; [|reflexivity]. constructor; [constructor; repeat eexists|cbn; tauto|repeat eexists].
  - left. discriminate.
  - eexists. split; vm_compute; reflexivity.
Qed.

(** What does not hold.  A command feeding its own line never comes to an end, nor does an
    exit action calling [Exit]. *)
Definition loop_env : renv :=
  mkREnv full_env (fun _ _ _ _ => PDo (RCall (KFeed (lit "say"))) (fun _ _ => PEnd UReturn))
                  (fun _ _ _ _ _ => PDo (RCall KExit) (fun _ _ => PEnd UReturn)).
Lemma demo_say E : resolves E [demo_root] [lit "say"] (TFree (HUser 0) []).
Proof.
  right. split.
  - intros p t H. apply SessionProofs.global_readings in H as [(H & _)|[(H & _)|[(H & _)|(a & H & _)]]]; discriminate.
  - exists [1]. split; [eapply rd_free; reflexivity|]. split; [intros H; inversion H|].
    intros p t H Hb. apply ResolveProofs.in_choices in H; [|discriminate]. vm_compute in H. destruct H as [H|[]].
    inversion H; subst. inversion Hb; subst; [lia|]. match goal with H : before _ _ |- _ => inversion H end.
Qed.
Lemma feed_loop fuel : forall w t ac, w_root w = demo_root -> w_cur w = 10 -> reachable 5 (w_hist w) ->
  run_call loop_env fuel (KFeed (lit "say")) (mkR w t ac) = RFuel.
Proof.
  induction fuel as [|n IH]; intros w t ac Hr Hc Hh; [reflexivity|].
  destruct (reachable_inv 5 _ ltac:(lia) Hh) as (I & Mx).
  destruct (new_command (w_hist w) (lit "say")) as [h|] eqn:Hn; [|destruct (new_command_inv (w_hist w) (lit "say") I) as (h & Hh' & _); [lia|congruence]].
  rewrite (reent_free loop_env n (lit "say") w (set_hist h w) t ac [lit "say"] [demo_root]) with (u := 0) (args := []).
  - unfold command_code. cbn zeta. cbn [re_handler loop_env run_prog]. rewrite IH; [reflexivity|exact Hr|exact Hc|].
    eapply reachable_step with (o := ONew (lit "say")); [exact Hh|]. exact Hn.
  - split; [reflexivity|]. split; [discriminate|]. exists h. split; [exact Hn|reflexivity].
  - rewrite Hr. exact demo_unique.
  - split; [rewrite Hr; constructor; repeat eexists|]. rewrite Hc. do 2 eexists; split; reflexivity.
  - apply demo_say.
Qed.
Lemma exit_loop fuel : forall s, a_now (r_acts s) KSesExit <> None -> run_call loop_env fuel KExit s = RFuel.
Proof.
  induction fuel as [|n IH]; intros s Hs; [reflexivity|]. cbn [run_call r_call]. unfold r_exit, r_hook.
  destruct (a_now (r_acts s) KSesExit) as [a|] eqn:Ha; [|congruence]. cbn -[run_call]. rewrite IH by (cbn; congruence). reflexivity.
Qed.
Theorem C74_loop_refuted : exists R s, (forall fuel, run_call R fuel (KFeed (lit "say")) s = RFuel) /\
  (forall fuel, run_call R fuel KExit s = RFuel).
Proof. exists loop_env, demo_state. split; intros; [apply feed_loop; try reflexivity; eexists [OLoad _]; reflexivity|apply exit_loop; discriminate]. Qed.
Print Assumptions C74_loop_refuted.
(** The line of a command that calls [ExecFromHistory] is not recorded: the line forgotten
    is the running command's. *)
Definition recall_env : renv :=
  mkREnv full_env (fun _ n _ _ => match n with 4 => PDo (RCall (KFromHistory 1)) (fun _ _ => PEnd UReturn) | _ => PEnd UReturn end)
                  (fun _ _ _ _ _ => PEnd UReturn).
Theorem C74_record_refuted : exists R fuel line w s,
  ~ recall (re_env R) line /\ h_max (w_hist w) >= 5 /\ length (h_buf (w_hist w)) = 2 /\
  run_call R fuel (KFeed line) (mkR w 0 demo_acts) = ROk None s /\ ~ In line (h_buf (w_hist (r_w s))).
Proof.
  exists recall_env, 3, (lit "chg"), demo_world. eexists. split; [intros (a & n & H & _); discriminate|].
  split; [cbn; lia|]. split; [reflexivity|]. split; [vm_compute; reflexivity|].
  vm_compute. intros [H|[H|[]]]; discriminate.
Qed.
Print Assumptions C74_record_refuted.
(** Called when the history is empty, e.g. by the enter action of a new session,
    [ExecFromHistory] takes the first element of an empty deque. *)
Theorem C74_empty_refuted : exists R fuel size n, (forall a sid k args tr, re_hook R a sid k args tr = PDo (RCall (KFromHistory n)) (fun _ _ => PEnd UReturn)) /\
  run_call R fuel KEnter (mkR (fresh_world size) 0 demo_acts) = RUB.
Proof.
  exists (mkREnv full_env (fun _ _ _ _ => PEnd UReturn) (fun _ _ _ _ _ => PDo (RCall (KFromHistory 0)) (fun _ _ => PEnd UReturn))), 3, 5, 0%Z.
  split; [reflexivity|vm_compute; reflexivity].
Qed.
Print Assumptions C74_empty_refuted.
