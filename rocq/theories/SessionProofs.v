(** * Proofs about sessions *)

From Verif Require Import Base SplitModel SplitSpec SplitProofs FromStringModel HistoryModel HistorySpec HistoryProofs StorageModel TerminalModel
  MenuModel SessionModel ResolveSpec ResolveProofs SessionSpec TreeProofs.
Open Scope nat_scope.
Open Scope list_scope.

Ltac dend := match goal with |- context[ur_end ?r] => destruct (ur_end r) end.

(** ** What user code can change *)
Lemma apply_ops_ind (P : world -> Prop) os w : P w -> (forall w o, In o os -> P w -> P (apply_op w o)) -> P (apply_ops os w).
Proof.
  revert w. induction os as [|o os IH]; intros w H Hs; [exact H|]. cbn. apply IH.
  - apply Hs; [left; reflexivity|exact H].
  - intros w' o' Hin. apply Hs. right. exact Hin.
Qed.

Definition same_session (w w' : world) : Prop :=
  w_store w' = w_store w /\ w_sid w' = w_sid w /\ w_cur w' = w_cur w /\ w_hist w' = w_hist w /\ w_exit w' = w_exit w.
Lemma same_session_refl w : same_session w w.
Proof. repeat split. Qed.
Lemma same_session_trans a b c : same_session a b -> same_session b c -> same_session a c.
Proof. unfold same_session. intuition congruence. Qed.
Lemma same_log e w : same_session w (log e w).
Proof. repeat split. Qed.
Lemma same_out e w : same_session w (out e w).
Proof. repeat split. Qed.

Lemma apply_op_same w o : same_session w (apply_op w o).
Proof. destruct o; try (repeat split; fail). cbn. destruct (relabel (w_next w) c). repeat split. Qed.
Lemma apply_ops_same os w : same_session w (apply_ops os w).
Proof.
  apply (apply_ops_ind (same_session w)); [apply same_session_refl|].
  intros w' o _ H. eapply same_session_trans; [exact H|apply apply_op_same].
Qed.

(** The events only grow; [grows n]: at most [n] calls of command functions. *)
Lemma grows_refl w : grows 0 w w.
Proof. exists []. rewrite app_nil_r. split; [reflexivity|cbn; lia]. Qed.
Lemma calls_app a b : calls (a ++ b) = calls a + calls b.
Proof. unfold calls. rewrite filter_app, app_length. reflexivity. Qed.
Lemma grows_trans n m a b c : grows n a b -> grows m b c -> grows (n + m) a c.
Proof.
  intros (e1 & H1 & C1) (e2 & H2 & C2). exists (e1 ++ e2).
  rewrite H2, H1, app_assoc. split; [reflexivity|]. rewrite calls_app. lia.
Qed.
Lemma grows_weak n m a b : n <= m -> grows n a b -> grows m a b.
Proof. intros H (e & H1 & H2). exists e. split; [exact H1|lia]. Qed.
Lemma grows_log e w : is_call e = false -> grows 0 w (log e w).
Proof. intros H. exists [e]. split; [reflexivity|]. cbn. rewrite H. cbn. lia. Qed.
Lemma grows_call sid u vs w : grows 1 w (log (EvCall sid u vs) w).
Proof. exists [EvCall sid u vs]. split; [reflexivity|]. cbn. lia. Qed.

Lemma apply_op_grows w o : grows 0 w (apply_op w o).
Proof.
  destruct o as [s|s|id|id|id|pid c]; cbn [apply_op].
  1: apply (grows_log (EvOut (w_sid w) s)); reflexivity.
  1: apply grows_log; reflexivity.
  1-3: exists []; rewrite app_nil_r; split; [reflexivity|cbn; lia].
  destruct (relabel (w_next w) c). exists [EvInsert pid (w_next w)]. split; [reflexivity|cbn; lia].
Qed.
Lemma apply_ops_grows os w : grows 0 w (apply_ops os w).
Proof.
  apply (apply_ops_ind (grows 0 w)); [apply grows_refl|].
  intros w' o _ H. apply (grows_trans 0 0 _ w'); [exact H|apply apply_op_grows].
Qed.

Lemma set_hist_grows h w : grows 0 w (set_hist h w).
Proof. exists []. rewrite app_nil_r. split; [reflexivity|cbn; lia]. Qed.

(** ** The readings of the global commands *)
Lemma global_readings toks p t : reading [global_menu] toks p t <->
  (toks = [lit "help"] /\ p = [0] /\ t = TRun HHelp [] []) \/
  (toks = [lit "exit"] /\ p = [1] /\ t = TRun HExit [] []) \/
  (toks = [lit "history"] /\ p = [2] /\ t = TRun HHistory [] []) \/
  (exists a, toks = [lit "!"; a] /\ p = [3] /\ t = TRun HBang [PInt UInt] [a]).
Proof.
  split.
  - intros H. inversion H as
      [m anc i id name desc pars pdesc h args He Hn Hl|m anc i id name desc pdesc h args He Hn|
       m anc i id name desc pr kids He Hn|m anc i sub id name en desc pr kids rest path t0 He Hn Hs Hr| |]; subst.
    + assert (Hi : i < 4) by (apply (nth_error_Some (cmd_kids global_menu)); congruence).
      destruct i as [|[|[|[|i]]]]; [| | | |lia]; cbn in Hn; injection Hn as <- <- <- <- <- <-;
        try (destruct args; [|discriminate]); [tauto|tauto|tauto|].
      destruct args as [|a [|b args]]; try discriminate. right. right. right. exists a. auto.
    + destruct i as [|[|[|[|i]]]]; cbn in Hn; try discriminate. destruct i; discriminate.
    + destruct i as [|[|[|[|i]]]]; cbn in Hn; try discriminate. destruct i; discriminate.
    + destruct i as [|[|[|[|i]]]]; cbn in Hn; try discriminate. destruct i; discriminate.
  - intros [(-> & -> & ->)|[(-> & -> & ->)|[(-> & -> & ->)|(a & -> & -> & ->)]]].
    + eapply (rd_fn global_menu [] 0); reflexivity.
    + eapply (rd_fn global_menu [] 1); reflexivity.
    + eapply (rd_fn global_menu [] 2); reflexivity.
    + eapply (rd_fn global_menu [] 3); reflexivity.
Qed.

Section Env.
Context (E : env).

(** A single reading is the first match. *)
Lemma only_reading toks ctx p t : reading ctx toks p t -> (forall p' t', reading ctx toks p' t' -> p' = p) ->
  ~ unusable E t -> first_match E ctx toks t.
Proof.
  intros H Ho Hu. exists p. split; [exact H|]. split; [exact Hu|].
  intros p' t' H' Hb. rewrite (Ho _ _ H') in Hb. destruct (before_irrefl _ Hb).
Qed.

Lemma global_words toks :
  toks <> [lit "help"] -> toks <> [lit "exit"] -> toks <> [lit "history"] -> (forall a, toks <> [lit "!"; a]) ->
  no_match E [global_menu] toks.
Proof.
  intros H1 H2 H3 H4 p t H. apply global_readings in H as [(-> & _)|[(-> & _)|[(-> & _)|(a & -> & _)]]]; exfalso;
    [apply H1|apply H2|apply H3|apply (H4 a)]; reflexivity.
Qed.

Lemma run_not_unusable h : ~ unusable E (TRun h [] []).
Proof. intros H. inversion H as [? ? ? Hm]; subst. inversion Hm. Qed.

Lemma first_help : first_match E [global_menu] [lit "help"] (TRun HHelp [] []).
Proof.
  eapply only_reading; [apply global_readings; left; repeat split| |apply run_not_unusable].
  intros p' t' H. apply global_readings in H as [(_ & -> & _)|[(H & _)|[(H & _)|(a & H & _)]]]; try discriminate. reflexivity.
Qed.
Lemma first_exit : first_match E [global_menu] [lit "exit"] (TRun HExit [] []).
Proof.
  eapply only_reading; [apply global_readings; right; left; repeat split| |apply run_not_unusable].
  intros p' t' H. apply global_readings in H as [(H & _)|[(_ & -> & _)|[(H & _)|(a & H & _)]]]; try discriminate. reflexivity.
Qed.
Lemma first_history : first_match E [global_menu] [lit "history"] (TRun HHistory [] []).
Proof.
  eapply only_reading; [apply global_readings; right; right; left; repeat split| |apply run_not_unusable].
  intros p' t' H. apply global_readings in H as [(H & _)|[(H & _)|[(_ & -> & _)|(a & H & _)]]]; try discriminate. reflexivity.
Qed.
Lemma first_bang a n : convert E (PInt UInt) a = COk (VInt n) ->
  first_match E [global_menu] [lit "!"; a] (TRun HBang [PInt UInt] [a]).
Proof.
  intros Hc. eapply only_reading; [apply global_readings; right; right; right; eexists; repeat split| |].
  - intros p' t' H. apply global_readings in H as [(H & _)|[(H & _)|[(H & _)|(b & _ & -> & _)]]]; try discriminate. reflexivity.
  - intros H. inversion H as [? ? ? Hm]; subst. inversion Hm as [? ? ? ? Hb|? ? ? ? ? _ Hb]; subst; [congruence|].
    inversion Hb.
Qed.

(** ** Resolution and dispatch *)
Lemma hook_spec k args w : run_hook E k args w =
  let w1 := log (EvHook (w_sid w) k args) w in
  let r := e_hook E (w_sid w) k args (w_trace w1) in
  match ur_end r with UReturn => HOk (apply_ops (ur_ops r) w1) | UThrow x => HExc x (apply_ops (ur_ops r) w1) end.
Proof. reflexivity. Qed.

Lemma std_exception_report line what w : hres_fres (std_exception E line what w) = report E line (XStd what) w.
Proof.
  unfold std_exception, report. destruct (e_has E KExcept); [|reflexivity].
  rewrite hook_spec. cbn zeta. dend; reflexivity.
Qed.

(** [Feed] after dispatching. *)
Definition finish (line : str) (r : eres) : fres :=
  match r with
  | EDone _ w => FOk w
  | EExc x w => report E line x w
  | EUB => FUB
  | EFuel => FFuel
  end.
Lemma feed_body_spec rec line w toks w0 : recorded line w toks w0 ->
  feed_body E rec line w = finish line (dispatch E (builtin E rec) toks line w0).
Proof.
  intros (Hs & Hne & h & Hh & ->). unfold feed_body. rewrite Hs, Hh.
  destruct toks as [|t toks]; [congruence|].
  destruct (dispatch E (builtin E rec) (t :: toks) line (set_hist h w)) as [b w'|x w'| |]; try reflexivity.
  cbn [finish]. destruct x as [s|s|]; cbn [report]; [apply std_exception_report|apply std_exception_report|reflexivity].
Qed.
Lemma recorded_ne line w toks w0 : recorded line w toks w0 -> toks <> [].
Proof. intros (_ & H & _). exact H. Qed.
Lemma recorded_same line w toks w0 : recorded line w toks w0 ->
  w_root w0 = w_root w /\ w_cur w0 = w_cur w /\ w_sid w0 = w_sid w /\ w_trace w0 = w_trace w /\ w_next w0 = w_next w.
Proof. intros (_ & _ & h & _ & ->). repeat split. Qed.

(** The attempt of the first match decides, unless it is refused. *)
Lemma dispatch_resolved bi toks line w ctx t : toks <> [] -> unique_ids (w_root w) -> in_menu w ctx ->
  resolves E ctx toks t -> (forall bi w', attempt E bi t w <> EDone false w') ->
  (forall bi', attempt E bi' t w = attempt E bi t w) ->
  dispatch E bi toks line w = attempt E bi t w.
Proof.
  intros Hne Hu Hm [Hf|(Hn & Hf)] Hd Hsame; unfold dispatch.
  - rewrite (scan_first E bi toks [global_menu] t w Hne Hf (Hd bi)).
    specialize (Hd bi). destruct (attempt E bi t w) as [[] ?| | |]; try reflexivity. exfalso. eapply Hd. reflexivity.
  - rewrite (scan_no_match E bi toks [global_menu] w Hne Hn). cbn [e_bind].
    rewrite (in_menu_locate w ctx Hu Hm). rewrite (scan_first E no_builtin toks ctx t w Hne Hf (Hd no_builtin)).
    rewrite Hsame. specialize (Hd bi). destruct (attempt E bi t w) as [[] ?| | |]; try reflexivity. exfalso. eapply Hd. reflexivity.
Qed.
Lemma dispatch_global bi toks line w t : toks <> [] ->
  first_match E [global_menu] toks t -> (forall w', attempt E bi t w <> EDone false w') ->
  dispatch E bi toks line w = attempt E bi t w.
Proof.
  intros Hne Hf Hd. unfold dispatch. rewrite (scan_first E bi toks [global_menu] t w Hne Hf Hd).
  destruct (attempt E bi t w) as [[] ?| | |]; try reflexivity. exfalso. eapply Hd. reflexivity.
Qed.
Lemma dispatch_unresolved bi toks line w ctx : toks <> [] -> unique_ids (w_root w) -> in_menu w ctx ->
  unresolved E ctx toks ->
  finish line (dispatch E bi toks line w) = reject E line w.
Proof.
  intros Hne Hu Hm (Hg & Hc). unfold dispatch.
  rewrite (scan_no_match E bi toks [global_menu] w Hne Hg). cbn [e_bind].
  rewrite (in_menu_locate w ctx Hu Hm). rewrite (scan_no_match E no_builtin toks ctx w Hne Hc). cbn [e_bind].
  unfold wrong_command, reject. destruct (e_has E KWrong); [|reflexivity].
  rewrite hook_spec. cbn zeta. dend; reflexivity.
Qed.

(** *** C28, C30, C31 *)
Section Feed.
Context (fuel : nat) (line : str) (w w0 : world) (toks : list str) (ctx : list cmd)
  (Hrec : recorded line w toks w0) (Hu : unique_ids (w_root w)) (Hm : in_menu w ctx).

Lemma feed_run u pars args vs :
  resolves E ctx toks (TRun (HUser u) pars args) -> converts E pars args vs ->
  (forall s, ur_end (e_handler E (w_sid w) u vs (w_trace w ++ [EvCall (w_sid w) u vs])) <> UThrow (XBadCast s)) ->
  feed E (S fuel) line w = after_call E line u vs w0.
Proof.
  intros Hr Hc Hb. cbn [feed]. rewrite (feed_body_spec _ _ _ _ _ Hrec).
  pose proof (recorded_same _ _ _ _ Hrec) as (Hroot & Hcur & Hsid & Htr & _).
  assert (Hl : length args = length pars).
  { destruct Hr as [(p & H & _)|(_ & p & H & _)]; apply reading_sized in H; exact H. }
  assert (Ha : forall bi, attempt E bi (TRun (HUser u) pars args) w0 =
    let w1 := log (EvCall (w_sid w0) u vs) w0 in
    let r := e_handler E (w_sid w0) u vs (w_trace w1) in
    match ur_end r with UReturn => EDone true (apply_ops (ur_ops r) w1) | UThrow x => EExc x (apply_ops (ur_ops r) w1) end).
  { intros bi. cbn [attempt]. apply (convert_all_ok E) in Hc; [|exact Hl]. rewrite Hc.
    rewrite <- Hsid, <- Htr in Hb. cbn [run_fn]. unfold call_user. cbn zeta. cbn [log w_sid w_trace].
    set (r := e_handler _ _ _ _ _) in *. clearbody r.
    destruct (ur_end r) as [|[s|s|]] eqn:He; try reflexivity.
    exfalso. apply (Hb s). reflexivity. }
  rewrite (dispatch_resolved _ toks line w0 ctx (TRun (HUser u) pars args) (recorded_ne _ _ _ _ Hrec)).
  - rewrite Ha. cbn zeta. unfold after_call. cbn zeta. dend; reflexivity.
  - rewrite Hroot. exact Hu.
  - unfold in_menu. rewrite Hroot, Hcur. exact Hm.
  - exact Hr.
  - intros bi w'. rewrite Ha. cbn zeta. dend; discriminate.
  - intros bi. rewrite !Ha. reflexivity.
Qed.

Lemma feed_free u args :
  resolves E ctx toks (TFree (HUser u) args) ->
  feed E (S fuel) line w = after_call E line u [VList args] w0.
Proof.
  intros Hr. cbn [feed]. rewrite (feed_body_spec _ _ _ _ _ Hrec).
  pose proof (recorded_same _ _ _ _ Hrec) as (Hroot & Hcur & Hsid & Htr & _).
  rewrite (dispatch_resolved _ toks line w0 ctx (TFree (HUser u) args) (recorded_ne _ _ _ _ Hrec)).
  - cbn. unfold after_call. cbn. dend; reflexivity.
  - rewrite Hroot. exact Hu.
  - unfold in_menu. rewrite Hroot, Hcur. exact Hm.
  - exact Hr.
  - intros bi w'. cbn. dend; discriminate.
  - reflexivity.
Qed.

Lemma feed_goto id : resolves E ctx toks (TGoto id) -> feed E (S fuel) line w = FOk (set_cur id w0).
Proof.
  intros Hr. cbn [feed]. rewrite (feed_body_spec _ _ _ _ _ Hrec).
  pose proof (recorded_same _ _ _ _ Hrec) as (Hroot & Hcur & Hsid & Htr & _).
  rewrite (dispatch_resolved _ toks line w0 ctx (TGoto id) (recorded_ne _ _ _ _ Hrec)).
  - reflexivity.
  - rewrite Hroot. exact Hu.
  - unfold in_menu. rewrite Hroot, Hcur. exact Hm.
  - exact Hr.
  - intros bi w'. discriminate.
  - reflexivity.
Qed.

Lemma feed_unresolved : unresolved E ctx toks -> feed E (S fuel) line w = reject E line w0.
Proof.
  intros Hr. cbn [feed]. rewrite (feed_body_spec _ _ _ _ _ Hrec).
  pose proof (recorded_same _ _ _ _ Hrec) as (Hroot & Hcur & Hsid & Htr & _).
  apply (dispatch_unresolved _ _ _ _ ctx); [exact (recorded_ne _ _ _ _ Hrec)| | |exact Hr].
  - rewrite Hroot. exact Hu.
  - unfold in_menu. rewrite Hroot, Hcur. exact Hm.
Qed.
End Feed.

(** Targets of user menus run user functions, or else only global ones. *)
Lemma resolves_or_not ctx toks : toks <> [] -> unresolved E ctx toks \/ exists t, resolves E ctx toks t.
Proof.
  intros Hne. destruct (match_or_not E toks [global_menu] Hne) as [Hg|(t & Hg)].
  - destruct (match_or_not E toks ctx Hne) as [Hc|(t & Hc)].
    + left. split; assumption.
    + right. exists t. right. split; assumption.
  - right. exists t. left. exact Hg.
Qed.
Lemma resolves_unique ctx toks t t' : toks <> [] -> resolves E ctx toks t -> resolves E ctx toks t' -> t = t'.
Proof.
  intros Hne H H'.
  assert (Hc : forall t, no_match E [global_menu] toks -> first_match E [global_menu] toks t -> False).
  { intros t0 Hn (p & Hr & Hu & _). apply Hu. eapply Hn. exact Hr. }
  destruct H as [H|(Hn & H)], H' as [H'|(Hn' & H')].
  - eapply first_unique; eassumption.
  - exfalso. eapply Hc; eassumption.
  - exfalso. eapply Hc; eassumption.
  - eapply first_unique; eassumption.
Qed.

(** ** Blank lines *)
Lemma feed_blank fuel line w : Forall blank line -> feed E (S fuel) line w = FOk w.
Proof. intros H. cbn [feed]. unfold feed_body. rewrite (blank_line line H). reflexivity. Qed.

(** ** Exceptions *)
Lemma report_exc line x w y w' : report E line x w = FExc y w' ->
  e_has E KExcept = true /\ exists sid args tr, ur_end (e_hook E sid KExcept args tr) = UThrow y.
Proof.
  unfold report. destruct x as [s|s|]; try discriminate;
    (destruct (e_has E KExcept); [|discriminate]; cbn zeta;
     destruct (ur_end (e_hook E (w_sid w) KExcept [line; s] (w_trace (log (EvHook (w_sid w) KExcept [line; s]) w)))) eqn:He; [discriminate|];
     intros H; injection H as -> _; split; [reflexivity|]; do 3 eexists; exact He).
Qed.

Lemma feed_exc fuel : forall line w x w', feed E fuel line w = FExc x w' ->
  e_has E KExcept = true /\ exists sid args tr, ur_end (e_hook E sid KExcept args tr) = UThrow x.
Proof.
  destruct fuel as [|fuel]; intros line w x w' H; [discriminate|]. cbn [feed] in H. unfold feed_body in H.
  destruct (split line) as [[|t toks]|]; try discriminate.
  destruct (new_command (w_hist w) line) as [h|]; try discriminate.
  destruct (dispatch _ _ _ _ _) as [b w1|y w1| |]; try discriminate.
  destruct y as [s|s|]; try discriminate; rewrite std_exception_report in H; eapply report_exc; exact H.
Qed.

(** ** Calls of command functions (C29) *)
Lemma run_hook_grows k args w : match run_hook E k args w with HOk w' | HExc _ w' => grows 0 w w' | _ => True end.
Proof.
  rewrite hook_spec. cbn zeta.
  assert (H : forall os, grows 0 w (apply_ops os (log (EvHook (w_sid w) k args) w))).
  { intros os. apply (grows_trans 0 0 _ (log (EvHook (w_sid w) k args) w)); [apply grows_log; reflexivity|apply apply_ops_grows]. }
  dend; apply H.
Qed.
Lemma opt_hook_grows k w : match (if e_has E k then run_hook E k [] w else HOk w) with HOk w' | HExc _ w' => grows 0 w w' | _ => True end.
Proof. destruct (e_has E k); [apply run_hook_grows|apply grows_refl]. Qed.
Lemma session_exit_grows w : match session_exit E w with HOk w' | HExc _ w' => grows 0 w w' | _ => True end.
Proof.
  unfold session_exit.
  assert (H1 : match (if e_has E KSesExit then run_hook E KSesExit [] w else HExc bad_function_call w) with
               HOk w' | HExc _ w' => grows 0 w w' | _ => True end)
    by (destruct (e_has E KSesExit); [apply run_hook_grows|apply grows_refl]).
  destruct (if e_has E KSesExit then _ else _) as [w1|x w1| |]; cbn [h_bind]; auto.
  pose proof (opt_hook_grows KCliExit w1) as H2.
  destruct (if e_has E KCliExit then _ else _) as [w2|x w2| |]; cbn [h_bind]; auto.
  - destruct (get_commands (w_hist w2)); [|exact Logic.I]. exact (grows_trans 0 0 _ _ _ H1 H2).
  - exact (grows_trans 0 0 _ _ _ H1 H2).
Qed.

Definition e_grows (w : world) (r : eres) : Prop :=
  match r with EDone true w' => grows 1 w w' | EDone false w' => grows 0 w w' | EExc _ w' => grows 1 w w' | _ => True end.

Lemma e_bind_grows w r f : e_grows w r -> (forall w', e_grows w' (f w')) -> e_grows w (e_bind r f).
Proof.
  intros Hr Hf. destruct r as [[] w'|x w'| |]; cbn in *; auto.
  specialize (Hf w'). destruct (f w') as [[] w2|x w2| |]; cbn in *; auto;
    eapply (grows_trans 0); eassumption.
Qed.

(** The global functions, given what [rec] does. *)
Definition b_grows (w : world) (r : hres) : Prop :=
  match r with HOk w' => grows 1 w w' | HExc (XBadCast _) w' => grows 0 w w' | HExc _ w' => grows 1 w w' | _ => True end.
Lemma builtin_grows rec : (forall line w, f_grows 1 w (rec line w)) ->
  (forall line w x w', rec line w = FExc x w' -> forall s, x <> XBadCast s) ->
  forall h args w, b_grows w (builtin E rec h args w).
Proof.
  intros Hg Hx h args w. destruct h as [u| | | |]; cbn [builtin].
  - destruct args as [|[] [|]]; exact Logic.I.
  - destruct (help_text w); [|exact Logic.I]. eapply grows_weak; [|apply grows_log; reflexivity]. lia.
  - pose proof (session_exit_grows w) as H. destruct (session_exit E w) as [w'|[s|s|] w'| |]; cbn; auto;
      (eapply grows_weak; [|exact H]; lia).
  - destruct (show (w_hist w)); cbn.
    + eapply grows_weak; [|apply grows_log; reflexivity]. lia.
    + eapply grows_weak; [|apply grows_refl]. lia.
  - destruct args as [|[n| | | | | |] [|]]; try exact Logic.I.
    destruct (forget_latest (w_hist w)) as [h'|]; [|exact Logic.I].
    destruct (at_id h' n) as [l| |]; cbn; auto.
    + specialize (Hg l (set_hist h' w)). destruct (rec l (set_hist h' w)) as [w2|x w2| |] eqn:Hr; cbn in *; auto.
      destruct x as [s|s|]; auto. exfalso. eapply Hx; [exact Hr|reflexivity].
    + eapply grows_weak; [|apply set_hist_grows]. lia.
Qed.

Lemma attempt_grows bi t w : handlers_no_bad_cast E -> (forall h args w, b_grows w (bi h args w)) ->
  e_grows w (attempt E bi t w).
Proof.
  intros Hh Hb.
  assert (Hcall : forall u vs w, grows 1 w (snd (call_user E u vs w))).
  { intros u vs w'. unfold call_user. cbn [snd]. apply (grows_trans 1 0 _ (log (EvCall (w_sid w') u vs) w'));
      [apply grows_call|apply apply_ops_grows]. }
  assert (Hrun : forall h vs, e_grows w (run_fn E bi h vs w)).
  { intros h vs. unfold run_fn.
    assert (Hbi : match (match bi h vs w with
        | HOk w' => EDone true w' | HExc (XBadCast _) w' => EDone false w' | HExc x w' => EExc x w'
        | HUB => EUB | HFuel => EFuel end) with r => e_grows w r end).
    { specialize (Hb h vs w). destruct (bi h vs w) as [w'|[s|s|] w'| |]; cbn in *; auto. }
    destruct h as [u| | | |]; try exact Hbi.
    specialize (Hcall u vs w). destruct (call_user E u vs w) as (r, w') eqn:Hc. cbn [snd] in Hcall.
    unfold call_user in Hc. injection Hc as Hr Hw.
    destruct (ur_end r) as [|[s|s|]] eqn:He; cbn; auto.
    exfalso. rewrite <- Hr in He. apply Hh in He. exact He. }
  destruct t as [h pars args|h args|id]; cbn [attempt].
  - destruct (convert_all E pars args); [apply Hrun|apply grows_refl|exact Logic.I].
  - unfold run_free. destruct h as [u| | | |]; try exact Logic.I.
    specialize (Hcall u [VList args] w). destruct (call_user E u [VList args] w) as (r, w'). cbn [snd] in Hcall.
    destruct (ur_end r); cbn; auto.
  - exists []. rewrite app_nil_r. split; [reflexivity|cbn; lia].
Qed.

Lemma attempts_grows bi l : handlers_no_bad_cast E -> (forall h args w, b_grows w (bi h args w)) ->
  forall w, e_grows w (attempts E bi l w).
Proof.
  intros Hh Hb. induction l as [|x l IH]; intros w; cbn [attempts]; [apply grows_refl|].
  apply e_bind_grows; [apply attempt_grows; assumption|exact IH].
Qed.

Lemma report_grows line x w : f_grows 0 w (report E line x w).
Proof.
  unfold report. destruct x as [s|s|]; try (apply grows_log; reflexivity);
   (destruct (e_has E KExcept); [|apply grows_log; reflexivity]; cbn zeta;
    match goal with |- context[apply_ops ?o ?w1] => assert (H : grows 0 w (apply_ops o w1))
      by (apply (grows_trans 0 0 _ w1); [apply grows_log; reflexivity|apply apply_ops_grows]) end;
    dend; exact H).
Qed.

Lemma dispatch_grows bi toks line w : toks <> [] -> handlers_no_bad_cast E -> (forall h args w, b_grows w (bi h args w)) ->
  f_grows 1 w (finish line (dispatch E bi toks line w)).
Proof.
  intros Hne Hh Hb.
  assert (H : match dispatch E bi toks line w with EDone _ w' | EExc _ w' => grows 1 w w' | _ => True end).
  { unfold dispatch. rewrite scan_attempts by exact Hne.
    pose proof (attempts_grows bi (choices toks [global_menu]) Hh Hb w) as H1.
    destruct (attempts _ _ _ w) as [[] w1|x w1| |]; cbn [e_bind]; auto.
    destruct (locate (w_cur w1) [] (w_root w1)) as [ctx|]; [|exact Logic.I].
    rewrite scan_attempts by exact Hne.
    pose proof (attempts_grows no_builtin (choices toks ctx) Hh (fun _ _ _ => Logic.I) w1) as H2.
    destruct (attempts _ _ _ w1) as [[] w2|x w2| |]; cbn [e_bind]; auto;
      try (exact (grows_trans 0 1 _ _ _ H1 H2)).
    assert (H3 : match wrong_command E line w2 with HOk w' | HExc _ w' => grows 0 w2 w' | _ => True end).
    { unfold wrong_command. destruct (e_has E KWrong); [apply run_hook_grows|apply grows_log; reflexivity]. }
    destruct (wrong_command E line w2) as [w3|x w3| |]; auto;
      (eapply grows_weak; [|exact (grows_trans 0 0 _ _ _ (grows_trans 0 0 _ _ _ H1 H2) H3)]; lia). }
  destruct (dispatch _ _ _ _ _) as [b w'|x w'| |]; cbn [finish f_grows]; auto.
  pose proof (report_grows line x w') as Hr. destruct (report E line x w') as [w2|y w2| |]; cbn in *; auto;
    exact (grows_trans 1 0 _ _ _ H Hr).
Qed.

Lemma feed_body_grows rec line w : handlers_no_bad_cast E -> (forall h args w, b_grows w (builtin E rec h args w)) ->
  f_grows 1 w (feed_body E rec line w).
Proof.
  intros Hh Hb. destruct (split line) as [[|t toks]|] eqn:Hs.
  - unfold feed_body. rewrite Hs. exact (grows_weak 0 1 _ _ (Nat.le_0_1) (grows_refl _)).
  - destruct (new_command (w_hist w) line) as [h|] eqn:Hn.
    + rewrite (feed_body_spec rec line w (t :: toks) (set_hist h w)).
      * pose proof (dispatch_grows (builtin E rec) (t :: toks) line (set_hist h w) ltac:(discriminate) Hh Hb) as H.
        exact H.
      * split; [exact Hs|]. split; [discriminate|]. exists h. auto.
    + unfold feed_body. rewrite Hs, Hn. exact Logic.I.
  - unfold feed_body. rewrite Hs. exact Logic.I.
Qed.

(** At most one call, recalls included. *)
Lemma feed_grows fuel : handlers_no_bad_cast E -> hooks_no_bad_cast E ->
  forall line w, f_grows 1 w (feed E fuel line w).
Proof.
  intros Hh Hk. induction fuel as [|fuel IH]; intros line w; [exact Logic.I|].
  cbn [feed]. apply feed_body_grows; [exact Hh|]. apply builtin_grows; [exact IH|].
  intros l w1 x w2 H s ->. apply feed_exc in H as (_ & sid & args & tr & H). eapply Hk. exact H.
Qed.

(** A line that is no recall does not use [rec]. *)
Lemma attempt_rec rec rec' t w : (forall h pars args, t = TRun h pars args -> h <> HBang \/ forall vs, convert_all E pars args <> COk vs) ->
  attempt E (builtin E rec) t w = attempt E (builtin E rec') t w.
Proof.
  intros H. destruct t as [h pars args|h args|id]; try reflexivity. cbn [attempt].
  destruct (convert_all E pars args) as [vs| |] eqn:Hc; try reflexivity.
  destruct (H h pars args eq_refl) as [Hh|Hv]; [|congruence].
  destruct h; try reflexivity. congruence.
Qed.
End Env.

(** ** Fuel *)
Lemma attempts_ext E bi bi' l : (forall x w, In x l -> attempt E bi (snd x) w = attempt E bi' (snd x) w) ->
  forall w, attempts E bi l w = attempts E bi' l w.
Proof.
  induction l as [|x l IH]; intros H w; [reflexivity|]. cbn [attempts].
  rewrite (H x w) by (left; reflexivity). apply e_bind_ext. apply IH. intros y w' Hy. apply H. right. exact Hy.
Qed.
