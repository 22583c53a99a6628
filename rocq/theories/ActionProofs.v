(** * Proofs about the actions in use *)

From Verif Require Import Base FromStringModel HistoryModel StorageModel MenuModel SessionModel ResolveSpec SessionSpec TreeProofs SessionProofs InvariantProofs ReentModel ReentSpec ReentProofs.
Open Scope nat_scope.
Open Scope list_scope.

Lemma hook_eqb_spec j k : hook_eqb j k = true <-> j = k.
Proof. destruct j, k; cbn; split; congruence. Qed.
Lemma hook_eqb_refl k : hook_eqb k k = true.
Proof. apply hook_eqb_spec. reflexivity. Qed.

Lemma in_use_app now now' k l b x a : in_use now k l b -> in_use now' k x a -> now' k = b -> in_use now k (l ++ x) a.
Proof.
  intros Hl Hx. revert Hl. induction Hx as [|x a|x n a Hn Hx IH]; intros Hl Hb.
  - rewrite app_nil_r, Hb. exact Hl.
  - rewrite app_assoc. constructor.
  - rewrite app_assoc. constructor; [exact Hn|]. apply IH; assumption.
Qed.
Definition latest (now : hook -> option nat) (k : hook) (l : list note) : option nat :=
  fold_left (fun b n => match n with NSet j x => if hook_eqb j k then x else b | _ => b end) l (now k).
Lemma in_use_latest now k l a : in_use now k l a -> a = latest now k l.
Proof.
  intros H. induction H as [|l a|l n a Hn H IH]; [reflexivity| |]; unfold latest in *; rewrite fold_left_app; cbn.
  - rewrite hook_eqb_refl. reflexivity.
  - destruct n as [j x|j x|j]; try exact IH. destruct (hook_eqb j k) eqn:E; [|exact IH]. apply hook_eqb_spec in E as ->. exfalso. apply (Hn x). reflexivity.
Qed.
Lemma in_use_fun now k l a b : in_use now k l a -> in_use now k l b -> a = b.
Proof. intros Ha Hb. apply in_use_latest in Ha, Hb. congruence. Qed.

Lemma faithful_refl s : faithful s s.
Proof.
  exists [], []. rewrite !app_nil_r. split; [reflexivity|]. split; [reflexivity|]. split; [|split; [reflexivity|intros; constructor]].
  intros [|] ? ? H; discriminate.
Qed.
Lemma app_cons_split {A} (l l' l1 : list A) n l2 : l ++ l' = l1 ++ n :: l2 ->
  (exists m, l = l1 ++ n :: m) \/ (exists m, l1 = l ++ m /\ l' = m ++ n :: l2).
Proof.
  revert l1. induction l as [|x l IH]; intros l1 H; [right; exists l1; auto|]. destruct l1 as [|y l1]; cbn in H; inversion H; subst.
  - left. exists l. reflexivity.
  - destruct (IH _ H2) as [(m & ->)|(m & -> & ->)]; [left; exists m; reflexivity|right; exists m; auto].
Qed.
Lemma faithful_trans s1 s2 s3 : faithful s1 s2 -> faithful s2 s3 -> faithful s1 s3.
Proof.
  intros (l & e & A1 & B1 & C1 & D1 & F1) (l' & e' & A2 & B2 & C2 & D2 & F2). exists (l ++ l'), (e ++ e').
  split; [rewrite A2, A1, app_assoc; reflexivity|]. split; [rewrite B2, B1, app_assoc; reflexivity|].
  split; [|split; [unfold hooks, runs in *; rewrite !flat_map_app, D1, D2; reflexivity|intros k; eapply in_use_app; [apply F1|apply F2|reflexivity]]].
  intros l1 n l2 H. destruct (app_cons_split _ _ _ _ _ H) as [(m & E1)|(m & -> & E1)]; [eapply C1, E1|].
  specialize (C2 _ _ _ E1). destruct n as [k a|k a|k]; cbn in *; [exact Logic.I| |]; (eapply in_use_app; [apply F1|exact C2|reflexivity]).
Qed.
Lemma faithful_quiet s s' evs : r_acts s' = r_acts s -> w_trace (r_w s') = w_trace (r_w s) ++ evs -> hooks evs = [] -> faithful s s'.
Proof.
  intros Ha He Hh. exists [], evs. rewrite Ha, app_nil_r. split; [reflexivity|]. split; [exact He|]. split; [|split; [exact Hh|intros; constructor]].
  intros [|] ? ? H; discriminate.
Qed.
Lemma faithful_one s s' n evs : fits (a_now (r_acts s)) [] n -> a_notes (r_acts s') = a_notes (r_acts s) ++ [n] ->
  w_trace (r_w s') = w_trace (r_w s) ++ evs -> hooks evs = runs [n] ->
  (forall k, in_use (a_now (r_acts s)) k [n] (a_now (r_acts s') k)) -> faithful s s'.
Proof.
  intros Hf Hn He Hh Hk. exists [n], evs. split; [exact Hn|]. split; [exact He|]. split; [|split; assumption].
  intros [|m l1] n' l2 H; inversion H; subst; [exact Hf|]. destruct l1; discriminate.
Qed.
Lemma other_kept now k n : (forall x, n <> NSet k x) -> in_use now k [n] (now k).
Proof. intros H. apply (iu_other now k [] n (now k) H). constructor. Qed.
Lemma op_hooks w o : exists evs, w_trace (apply_op w o) = w_trace w ++ evs /\ hooks evs = [].
Proof.
  destruct o; cbn; try (exists []; rewrite app_nil_r; split; reflexivity); try (eexists; split; reflexivity).
  destruct (relabel (w_next w) c). cbn. first [eexists; split; reflexivity|exists []; rewrite app_nil_r; split; reflexivity].
Qed.
Lemma run_faithful R fuel c s : left_in (faithful s) (run_call R fuel c s).
Proof.
  apply run_left; clear.
  - apply faithful_refl.
  - apply faithful_trans.
  - intros e s He. apply (faithful_quiet _ _ [e]); [reflexivity|reflexivity|]. destruct e; try reflexivity. exfalso. eapply He. reflexivity.
  - intros o s. destruct (op_hooks (r_w s) o) as (evs & H & Hh). apply (faithful_quiet _ _ evs); [reflexivity|exact H|exact Hh].
  - intros k a args s Ha. apply (faithful_one _ _ (NRun k a) [EvHook (w_sid (r_w s)) k args]); try reflexivity.
    + cbn. rewrite <- Ha. constructor.
    + intros j. apply other_kept. discriminate.
  - intros k s Ha. apply (faithful_one _ _ (NEmpty k) []); try reflexivity.
    + cbn. rewrite <- Ha. constructor.
    + cbn. symmetry. apply app_nil_r.
    + intros j. apply other_kept. discriminate.
  - intros k a s. apply (faithful_one _ _ (NSet k a) []); try reflexivity; [cbn; symmetry; apply app_nil_r|].
    intros j. cbn. destruct (hook_eqb j k) eqn:E.
    + apply hook_eqb_spec in E as ->. apply (iu_set _ _ []).
    + apply other_kept. intros x H. inversion H; subst. rewrite hook_eqb_refl in E. discriminate.
  - intros id s. apply (faithful_quiet _ _ []); [reflexivity|cbn; symmetry; apply app_nil_r|reflexivity].
  - intros h s _. apply (faithful_quiet _ _ []); [reflexivity|cbn; symmetry; apply app_nil_r|reflexivity].
  - intros st s. apply (faithful_quiet _ _ []); [reflexivity|cbn; symmetry; apply app_nil_r|reflexivity].
Qed.

(** ** Without an exit action *)
Lemma exit_empty R fuel s : a_now (r_acts s) KSesExit = None ->
  run_call R (S fuel) KExit s = RExc bad_function_call (upd_acts (noted (NEmpty KSesExit)) s).
Proof. intros H. cbn [run_call r_call]. unfold r_exit, r_hook. rewrite H. reflexivity. Qed.

(** ** Set and then needed *)
Lemma set_then_throw R fuel line w w0 t ac toks ctx u args b what : recorded line w toks w0 -> unique_ids (w_root w) -> in_menu w ctx ->
  resolves (re_env R) ctx toks (TFree (HUser u) args) ->
  re_handler R (w_sid w0) u [VList args] (w_trace w0 ++ [EvCall (w_sid w0) u [VList args]]) =
    PDo (RCall (KSet KExcept b)) (fun _ _ => PEnd (UThrow (XStd what))) ->
  run_call R (S (S fuel)) (KFeed line) (mkR w t ac) =
  let w1 := log (EvCall (w_sid w0) u [VList args]) w0 in
  match b with
  | None => ROk None (mkR (out (what ++ nl) w1) t (noted (NEmpty KExcept) (set_act KExcept b ac)))
  | Some a =>
      let w2 := log (EvHook (w_sid w0) KExcept [line; what]) w1 in
      run_prog (run_call R (S fuel)) (re_hook R a (w_sid w0) KExcept [line; what] (w_trace w2)) (mkR w2 t (noted (NRun KExcept a) (set_act KExcept b ac)))
  end.
Proof.
  intros Hr Hu Hm Hres Hh. rewrite (reent_free R (S fuel) line w w0 t ac toks ctx Hr Hu Hm u args Hres).
  unfold command_code. cbn zeta. cbn [log w_sid w_trace]. rewrite Hh. destruct b; reflexivity.
Qed.
Lemma unresolved_line R fuel line w w0 t ac toks ctx : recorded line w toks w0 -> unique_ids (w_root w) -> in_menu w ctx ->
  unresolved (re_env R) ctx toks -> a_now ac KWrong = None ->
  run_call R (S fuel) (KFeed line) (mkR w t ac) = ROk None (mkR (out (lit "wrong command: " ++ line ++ nl) w0) t (noted (NEmpty KWrong) ac)).
Proof.
  intros Hr Hu Hm Hun Ha. rewrite (reent_unresolved R fuel line w w0 t ac toks ctx Hr Hu Hm Hun).
  unfold hook_code. destruct ac as [now l]. cbn [r_acts a_now] in *. rewrite Ha. reflexivity.
Qed.
Lemma unresolved_action R fuel line w w0 t ac toks ctx a : recorded line w toks w0 -> unique_ids (w_root w) -> in_menu w ctx ->
  unresolved (re_env R) ctx toks -> a_now ac KWrong = Some a ->
  run_call R (S fuel) (KFeed line) (mkR w t ac) =
  let w1 := log (EvHook (w_sid w0) KWrong [line]) w0 in
  reported R fuel line (run_prog (run_call R fuel) (re_hook R a (w_sid w0) KWrong [line] (w_trace w1)) (mkR w1 t (noted (NRun KWrong a) ac))).
Proof.
  intros Hr Hu Hm Hun Ha. rewrite (reent_unresolved R fuel line w w0 t ac toks ctx Hr Hu Hm Hun).
  unfold hook_code. destruct ac as [now l]. cbn [r_acts a_now] in *. rewrite Ha. reflexivity.
Qed.
