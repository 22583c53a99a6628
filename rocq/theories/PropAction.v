(** * C94: actions and handlers may be set at any time *)

From Verif Require Import Base SplitModel FromStringModel HistoryModel HistorySpec StorageModel MenuModel SessionModel ResolveSpec SessionSpec
  ReentModel ReentSpec ReentProofs ActionProofs Demo PropReent.
Open Scope nat_scope.
Open Scope list_scope.

(** C94: whatever user code does, and whenever it sets them, each action or handler called
    is the one last set for its purpose, those reported as called are called, and those in
    use at the end are the last ones set; *)
Theorem C94_in_use : forall R fuel c s, left_in (faithful s) (run_call R fuel c s).
Proof. exact run_faithful. Qed.
Print Assumptions C94_in_use.
(** there is one at a time. *)
Theorem C94_one : forall now k l a b, in_use now k l a -> in_use now k l b -> a = b.
Proof. exact in_use_fun. Qed.
Print Assumptions C94_one.

(** Function 0 ([say]) sets the exception handler and throws; handler 7 sets the next one,
    and the action for wrong lines; that one removes itself. *)
Definition act_handler (sid n : nat) (args : list value) (tr : list event) : prog :=
  match n with
  | 0 => PDo (RCall (KSet KExcept (Some 7))) (fun _ _ => PEnd (UThrow (XStd (lit "boom"))))
  | _ => PEnd (UThrow (XStd (lit "late")))
  end.
Definition act_hook (a sid : nat) (k : hook) (args : list str) (tr : list event) : prog :=
  match a with
  | 7 => PDo (RCall (KSet KExcept None)) (fun _ _ => PDo (RCall (KSet KWrong (Some 9))) (fun _ _ => PEnd UReturn))
  | 9 => PDo (RDo (OOut (lit "nine"))) (fun _ _ => PDo (RCall (KSet KWrong None)) (fun _ _ => PEnd UReturn))
  | _ => PEnd UReturn
  end.
Definition act_env : renv := mkREnv full_env act_handler act_hook.
Example C94_nonvacuous : exists s,
  r_feeds act_env 4 [lit "say"; lit "what"; lit "what"; lit "chg"] demo_state = ROk None s /\
  w_trace (r_w s) = [EvCall 0 0 [VList []]; EvHook 0 KExcept [lit "say"; lit "boom"]; EvHook 0 KWrong [lit "what"]; EvOut 0 (lit "nine");
                     EvOut 0 (lit "wrong command: what" ++ nl); EvCall 0 4 []; EvOut 0 (lit "late" ++ nl)] /\
  a_notes (r_acts s) = [NSet KExcept (Some 7); NRun KExcept 7; NSet KExcept None; NSet KWrong (Some 9); NRun KWrong 9; NSet KWrong None; NEmpty KWrong; NEmpty KExcept].
Proof. eexists. split; [vm_compute; reflexivity|]. split; vm_compute; reflexivity. Qed.

(** What a handler set by the function itself gets: the exception the function throws next. *)
Theorem C94_same_line : forall R fuel line w w0 t ac toks ctx u args b what, recorded line w toks w0 -> unique_ids (w_root w) -> in_menu w ctx ->
  resolves (re_env R) ctx toks (TFree (HUser u) args) ->
  re_handler R (w_sid w0) u [VList args] (w_trace w0 ++ [EvCall (w_sid w0) u [VList args]]) =
    PDo (RCall (KSet KExcept b)) (fun _ _ => PEnd (UThrow (XStd what))) ->
  run_call R (S (S fuel)) (KFeed line) (mkR w t ac) =
  let w1 := log (EvCall (w_sid w0) u [VList args]) w0 in
  match b with
  | None => ROk None (mkR (out (what ++ nl) w1) t (noted (NEmpty KExcept) (set_act KExcept b ac)))
  | Some a =>
      let w2 := log (EvHook (w_sid w0) KExcept [line; what]) w1 in
      run_prog (run_call R (S fuel)) (re_hook R a (w_sid w0) KExcept [line; what] (w_trace w2)) (mkR w2 t (noted (NRun KExcept a) (set_act KExcept b ac)))
  end.
Proof. exact set_then_throw. Qed.
Print Assumptions C94_same_line.
(** A line that means nothing: the handler in use gets it; without one there is a message. *)
Theorem C94_wrong : forall R fuel line w w0 t ac toks ctx, recorded line w toks w0 -> unique_ids (w_root w) -> in_menu w ctx ->
  unresolved (re_env R) ctx toks ->
  (a_now ac KWrong = None ->
     run_call R (S fuel) (KFeed line) (mkR w t ac) = ROk None (mkR (out (lit "wrong command: " ++ line ++ nl) w0) t (noted (NEmpty KWrong) ac))) /\
  (forall a, a_now ac KWrong = Some a ->
     run_call R (S fuel) (KFeed line) (mkR w t ac) =
     let w1 := log (EvHook (w_sid w0) KWrong [line]) w0 in
     reported R fuel line (run_prog (run_call R fuel) (re_hook R a (w_sid w0) KWrong [line] (w_trace w1)) (mkR w1 t (noted (NRun KWrong a) ac)))).
Proof. intros. split; intros; [eapply unresolved_line|eapply unresolved_action]; eassumption. Qed.
Print Assumptions C94_wrong.
(** [Exit] while the session has an empty exit action throws, and the session goes on. *)
Theorem C94_no_exit_action : forall R fuel s, a_now (r_acts s) KSesExit = None ->
  exists s', run_call R (S fuel) KExit s = RExc bad_function_call s' /\ r_w s' = r_w s.
Proof. intros R fuel s H. eexists. split; [apply exit_empty, H|reflexivity]. Qed.
Print Assumptions C94_no_exit_action.

Example C94_line_nonvacuous :
  recorded (lit "say") demo_world [lit "say"] (set_hist (mkHistory 5 [lit "say"; lit "add 1 2"; lit "old"] 0 1 false 0) demo_world) /\
  unique_ids (w_root demo_world) /\ in_menu demo_world [demo_root] /\
  resolves (re_env act_env) [demo_root] [lit "say"] (TFree (HUser 0) []) /\
  re_handler act_env 0 0 [VList []] [EvCall 0 0 [VList []]] = PDo (RCall (KSet KExcept (Some 7))) (fun _ _ => PEnd (UThrow (XStd (lit "boom")))) /\
  unresolved (re_env act_env) [demo_root] [lit "what"] /\
  (exists s, r_feeds act_env 4 [lit "say"; lit "what"] demo_state = ROk None s /\ a_now (r_acts s) KWrong = None /\ a_now (r_acts s) KSesExit = Some 0) /\
  (exists s, run_call act_env 1 (KSet KSesExit None) demo_state = ROk None s /\ a_now (r_acts s) KSesExit = None).
Proof.
  split; [split; [reflexivity|split; [discriminate|eexists; split; reflexivity]]|].
  split; [exact demo_unique|].
  split; [split; [constructor; repeat eexists|do 2 eexists; split; reflexivity]|].
  split; [apply demo_say|]. split; [reflexivity|].
  split; [split; intros p t H; apply ResolveProofs.in_choices in H; try discriminate; vm_compute in H; destruct H|].
  split; eexists; vm_compute; repeat split.
Qed.
