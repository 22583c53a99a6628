(** * Two sessions side by side: what does not depend on the events so far *)

From Verif Require Import Base SplitModel FromStringModel HistoryModel StorageModel PrefixModel TerminalModel MenuModel SessionModel CompletionModel ProcessorModel.
Open Scope nat_scope.
Open Scope list_scope.

Section Sim.
(** [TR]: the relation between the events of both; [SR]: between the storages. *)
Context (TR : list event -> list event -> Prop) (SR : storage -> storage -> Prop) (sid0 : nat).
Context (HTR : forall t t' e, TR t t' -> TR (t ++ [e]) (t' ++ [e])) (HSR : forall s s' l, SR s s' -> SR (st_store s l) (st_store s' l)).

Definition sim (w w' : world) : Prop :=
  w_root w = w_root w' /\ w_next w = w_next w' /\ SR (w_store w) (w_store w') /\ w_sid w = w_sid w' /\
  w_cur w = w_cur w' /\ w_hist w = w_hist w' /\ w_exit w = w_exit w' /\ TR (w_trace w) (w_trace w') /\ w_sid w = sid0.
Definition h_sim (r r' : hres) : Prop :=
  match r, r' with
  | HOk w, HOk w' => sim w w'
  | HExc x w, HExc x' w' => x = x' /\ sim w w'
  | HUB, HUB | HFuel, HFuel => True
  | _, _ => False
  end.
Definition e_sim (r r' : eres) : Prop :=
  match r, r' with
  | EDone b w, EDone b' w' => b = b' /\ sim w w'
  | EExc x w, EExc x' w' => x = x' /\ sim w w'
  | EUB, EUB | EFuel, EFuel => True
  | _, _ => False
  end.
Definition f_sim (r r' : fres) : Prop :=
  match r, r' with
  | FOk w, FOk w' => sim w w'
  | FExc x w, FExc x' w' => x = x' /\ sim w w'
  | FUB, FUB | FFuel, FFuel => True
  | _, _ => False
  end.

Lemma sim_set_root r n w w' : sim w w' -> sim (set_root r n w) (set_root r n w').
Proof. unfold sim. cbn. tauto. Qed.
Lemma sim_store l w w' : sim w w' -> sim (set_store (st_store (w_store w) l) w) (set_store (st_store (w_store w') l) w').
Proof. unfold sim. cbn. intuition. Qed.
Lemma sim_set_cur i w w' : sim w w' -> sim (set_cur i w) (set_cur i w').
Proof. unfold sim. cbn. tauto. Qed.
Lemma sim_set_hist h w w' : sim w w' -> sim (set_hist h w) (set_hist h w').
Proof. unfold sim. cbn. tauto. Qed.
Lemma sim_set_exit b w w' : sim w w' -> sim (set_exit b w) (set_exit b w').
Proof. unfold sim. cbn. tauto. Qed.
Lemma sim_log e w w' : sim w w' -> sim (log e w) (log e w').
Proof. unfold sim. cbn. intuition. Qed.
Lemma sim_out_same s w w' : sim w w' -> sim (out s w) (out s w').
Proof. intros H. unfold out. replace (w_sid w') with (w_sid w) by apply H. apply sim_log, H. Qed.
Lemma sim_op o w w' : sim w w' -> sim (apply_op w o) (apply_op w' o).
Proof.
  intros H. pose proof H as (H1 & H2 & _). destruct o; cbn [apply_op].
  - apply sim_out_same, H.
  - apply sim_log, H.
  - rewrite H1, H2. apply sim_set_root, H.
  - rewrite H1, H2. apply sim_set_root, H.
  - rewrite H1, H2. apply sim_set_root, H.
  - rewrite H1, H2. destruct (relabel (w_next w') c) as (c', n). apply sim_log. apply sim_set_root, H.
Qed.
Lemma sim_ops os : forall w w', sim w w' -> sim (apply_ops os w) (apply_ops os w').
Proof. induction os as [|o os IH]; intros w w' H; [exact H|]. cbn. apply IH, sim_op, H. Qed.

Section Run.
Context (E : env)
  (Hhandler : forall h args t t', TR t t' -> e_handler E sid0 h args (t ++ [EvCall sid0 h args]) = e_handler E sid0 h args (t' ++ [EvCall sid0 h args]))
  (Hhook : forall k args t t', TR t t' -> e_hook E sid0 k args (t ++ [EvHook sid0 k args]) = e_hook E sid0 k args (t' ++ [EvHook sid0 k args])).

Lemma sim_hook k args w w' : sim w w' -> h_sim (run_hook E k args w) (run_hook E k args w').
Proof.
  intros H. unfold run_hook. replace (w_sid w') with sid0 by (rewrite <- (proj1 (proj2 (proj2 (proj2 H)))); symmetry; apply H).
  replace (w_sid w) with sid0 by (symmetry; apply H). cbn zeta.
  assert (H1 : sim (log (EvHook sid0 k args) w) (log (EvHook sid0 k args) w')) by (apply sim_log, H).
  replace (w_sid (log (EvHook sid0 k args) w')) with sid0 by (rewrite <- (proj1 (proj2 (proj2 (proj2 H1)))); symmetry; apply H1).
  replace (w_sid (log (EvHook sid0 k args) w)) with sid0 by (symmetry; apply H1). cbn [log w_trace].
  rewrite <- (Hhook k args (w_trace w) (w_trace w')) by apply H.
  destruct (ur_end (e_hook E sid0 k args _)); cbn; [|split; [reflexivity|]]; apply sim_ops, H1.
Qed.
Lemma sim_call n args w w' : sim w w' ->
  fst (call_user E n args w) = fst (call_user E n args w') /\ sim (snd (call_user E n args w)) (snd (call_user E n args w')).
Proof.
  intros H. unfold call_user. replace (w_sid w') with sid0 by (rewrite <- (proj1 (proj2 (proj2 (proj2 H)))); symmetry; apply H).
  replace (w_sid w) with sid0 by (symmetry; apply H). cbn zeta.
  assert (H1 : sim (log (EvCall sid0 n args) w) (log (EvCall sid0 n args) w')) by (apply sim_log, H).
  replace (w_sid (log (EvCall sid0 n args) w')) with sid0 by (rewrite <- (proj1 (proj2 (proj2 (proj2 H1)))); symmetry; apply H1).
  replace (w_sid (log (EvCall sid0 n args) w)) with sid0 by (symmetry; apply H1). cbn [log w_trace fst snd].
  rewrite <- (Hhandler n args (w_trace w) (w_trace w')) by apply H.
  split; [reflexivity|]. apply sim_ops, H1.
Qed.

Lemma sim_e_bind r r' f f' : e_sim r r' -> (forall w w', sim w w' -> e_sim (f w) (f' w')) -> e_sim (e_bind r f) (e_bind r' f').
Proof.
  intros H Hf. destruct r as [b w|x w| |], r' as [b' w'|x' w'| |]; try contradiction; try exact H.
  destruct H as (<- & H). destruct b; cbn; [split; [reflexivity|exact H]|apply Hf, H].
Qed.
Lemma sim_h_bind r r' f f' : h_sim r r' -> (forall w w', sim w w' -> h_sim (f w) (f' w')) -> h_sim (h_bind r f) (h_bind r' f').
Proof. intros H Hf. destruct r, r'; try contradiction; try exact H. cbn. apply Hf, H. Qed.

Section Exec.
Context (bi : hid -> list value -> world -> hres).
Context (Hbi : forall h args w w', sim w w' -> h_sim (bi h args w) (bi h args w')).

Lemma sim_run_fn h args w w' : sim w w' -> e_sim (run_fn E bi h args w) (run_fn E bi h args w').
Proof.
  intros H. destruct h as [n| | | |].
  { cbn [run_fn]. destruct (sim_call n args w w' H) as (H1 & H2).
    destruct (call_user E n args w) as (r, w1), (call_user E n args w') as (r', w1'). cbn [fst snd] in *. subst r'.
    destruct (ur_end r) as [|[]]; try (split; [reflexivity|exact H2]).
    destruct (existsb is_tree_op (ur_ops r)); [exact Logic.I|split; [reflexivity|exact H2]]. }
  all: cbn [run_fn]; match goal with |- context[bi ?h] => pose proof (Hbi h args w w' H) as Hb; destruct (bi h args w) as [v|x v| |], (bi h args w') as [v'|x' v'| |] end;
    try contradiction; try exact Logic.I; try (split; [reflexivity|exact Hb]);
    destruct Hb as (<- & Hb); destruct x; split; try reflexivity; exact Hb.
Qed.
Lemma sim_run_free h args w w' : sim w w' -> e_sim (run_free E h args w) (run_free E h args w').
Proof.
  intros H. destruct h as [n| | | |]; try exact Logic.I. cbn [run_free]. destruct (sim_call n [VList args] w w' H) as (H1 & H2).
  destruct (call_user E n _ w) as (r, w1), (call_user E n _ w') as (r', w1'). cbn [fst snd] in *. subst r'.
  destruct (ur_end r); split; try reflexivity; exact H2.
Qed.
Lemma sim_leaf c toks w w' : sim w w' -> e_sim (exec_leaf E bi c toks w) (exec_leaf E bi c toks w').
Proof.
  intros H. assert (Hf : e_sim (EDone false w) (EDone false w')) by (split; [reflexivity|exact H]).
  destruct c as [i n e d ps pd h|i n e d pd h|i n e d p ks]; cbn [exec_leaf]; [| |exact Hf].
  - destruct (negb e); [exact Hf|]. destruct (negb _); [exact Hf|]. destruct toks as [|t args]; [exact Logic.I|].
    destruct (str_eqb n t); [|exact Hf]. destruct (convert_all E ps args); [|exact Hf|exact Logic.I]. apply sim_run_fn, H.
  - destruct (negb e); [exact Hf|]. destruct toks as [|t args]; [exact Logic.I|].
    destruct (str_eqb n t); [|exact Hf]. apply sim_run_free, H.
Qed.
Lemma sim_try_all f l : (forall k w w', sim w w' -> e_sim (f k w) (f k w')) ->
  forall w w', sim w w' -> e_sim (try_all f l w) (try_all f l w').
Proof.
  intros Hf. induction l as [|k l IH]; intros w w' H; cbn [try_all]; [split; [reflexivity|exact H]|].
  apply sim_e_bind; [apply Hf, H|exact IH].
Qed.
Lemma sim_handle toks : forall up ctx w w', sim w w' -> e_sim (handle E bi toks up ctx w) (handle E bi toks up ctx w').
Proof.
  induction toks as [|t rest IH]; intros up ctx w w' H; assert (Hf : e_sim (EDone false w) (EDone false w')) by (split; [reflexivity|exact H]).
  - destruct ctx as [|[| |i n e d p ks] anc]; cbn [handle]; try exact Hf. destruct (negb e); [exact Hf|exact Logic.I].
  - destruct ctx as [|[| |i n e d p ks] anc]; cbn [handle]; try exact Hf. destruct (negb e); [exact Hf|].
    destruct (str_eqb n t || _); [|exact Hf]. destruct rest as [|t2 rest]; [split; [reflexivity|apply sim_set_cur, H]|].
    apply sim_e_bind.
    + apply sim_try_all; [|exact H]. intros k v v' Hv. destruct k; [apply sim_leaf, Hv|apply sim_leaf, Hv|apply IH, Hv].
    + intros v v' Hv. destruct anc; [split; [reflexivity|exact Hv]|]. apply IH, Hv.
Qed.
Lemma sim_scan toks ctx w w' : sim w w' -> e_sim (scan E bi toks ctx w) (scan E bi toks ctx w').
Proof.
  intros H. destruct ctx as [|m anc]; cbn [scan]; [split; [reflexivity|exact H]|].
  destruct (negb (cmd_en m)); [split; [reflexivity|exact H]|]. apply sim_e_bind.
  - apply sim_try_all; [|exact H]. intros k v v' Hv. destruct k; cbn [exec]; [apply sim_leaf, Hv|apply sim_leaf, Hv|apply sim_handle, Hv].
  - intros v v' Hv. destruct anc; [split; [reflexivity|exact Hv]|]. apply sim_handle, Hv.
Qed.
End Exec.

Lemma sim_exit w w' : sim w w' -> h_sim (session_exit E w) (session_exit E w').
Proof.
  intros H. unfold session_exit. apply sim_h_bind.
  - destruct (e_has E KSesExit); [apply sim_hook, H|split; [reflexivity|exact H]].
  - intros v v' Hv. apply sim_h_bind.
    + destruct (e_has E KCliExit); [apply sim_hook, Hv|exact Hv].
    + intros u u' Hu. pose proof Hu as (_ & _ & _ & _ & _ & H6 & _). rewrite H6. destruct (get_commands (w_hist u')); [|exact Logic.I].
      apply sim_set_exit, sim_store, Hu.
Qed.
Lemma sim_enter w w' : sim w w' -> h_sim (session_enter E w) (session_enter E w').
Proof.
  intros H. unfold session_enter. apply sim_h_bind.
  - destruct (e_has E KCliEnter); [apply sim_hook, H|exact H].
  - intros v v' Hv. destruct (e_has E KSesEnter); [apply sim_hook, Hv|exact Hv].
Qed.
Lemma sim_help w w' : sim w w' -> help_text w = help_text w'.
Proof. intros (H1 & _ & _ & _ & H5 & _). unfold help_text. rewrite H1, H5. reflexivity. Qed.
Lemma sim_builtin rec : (forall l w w', sim w w' -> f_sim (rec l w) (rec l w')) ->
  forall h args w w', sim w w' -> h_sim (builtin E rec h args w) (builtin E rec h args w').
Proof.
  intros Hrec h args w w' H. pose proof H as (_ & _ & _ & _ & _ & H6 & _).
  destruct h; cbn [builtin]; try exact Logic.I.
  - rewrite (sim_help w w' H). destruct (help_text w'); [apply sim_out_same, H|exact Logic.I].
  - apply sim_exit, H.
  - rewrite H6. destruct (show (w_hist w')); [apply sim_out_same, H|split; [reflexivity|exact H]].
  - destruct args as [|[]  [|]]; try exact Logic.I. rewrite H6. destruct (forget_latest (w_hist w')) as [h'|]; [|exact Logic.I].
    destruct (at_id h' z) as [l| |]; [|split; [reflexivity|apply sim_set_hist, H]|exact Logic.I].
    pose proof (Hrec l _ _ (sim_set_hist h' w w' H)) as Hr.
    destruct (rec l (set_hist h' w)), (rec l (set_hist h' w')); try contradiction; exact Hr.
Qed.
Lemma sim_wrong line w w' : sim w w' -> h_sim (wrong_command E line w) (wrong_command E line w').
Proof. intros H. unfold wrong_command. destruct (e_has E KWrong); [apply sim_hook, H|apply sim_out_same, H]. Qed.
Lemma sim_std line what w w' : sim w w' -> h_sim (std_exception E line what w) (std_exception E line what w').
Proof. intros H. unfold std_exception. destruct (e_has E KExcept); [apply sim_hook, H|apply sim_out_same, H]. Qed.
Lemma sim_dispatch bi toks line w w' : (forall h args w w', sim w w' -> h_sim (bi h args w) (bi h args w')) ->
  sim w w' -> e_sim (dispatch E bi toks line w) (dispatch E bi toks line w').
Proof.
  intros Hbi H. unfold dispatch. apply sim_e_bind; [apply sim_scan; assumption|]. intros v v' Hv.
  pose proof Hv as (H1 & _ & _ & _ & H5 & _). rewrite H1, H5. destruct (locate (w_cur v') [] (w_root v')) as [ctx|]; [|exact Logic.I].
  apply sim_e_bind; [apply sim_scan; [intros; exact Logic.I|exact Hv]|]. intros u u' Hu.
  pose proof (sim_wrong line u u' Hu) as Hr. destruct (wrong_command E line u), (wrong_command E line u'); try contradiction; try exact Hr.
  split; [reflexivity|exact Hr].
Qed.
Lemma sim_feed fuel : forall line w w', sim w w' -> f_sim (feed E fuel line w) (feed E fuel line w').
Proof.
  induction fuel as [|fuel IH]; intros line w w' H; [exact Logic.I|]. cbn [feed]. unfold feed_body.
  destruct (split line) as [[|t toks]|]; [exact H| |exact Logic.I].
  pose proof H as (_ & _ & _ & _ & _ & H6 & _). rewrite H6. destruct (new_command (w_hist w') line) as [h|]; [|exact Logic.I].
  pose proof (sim_dispatch (builtin E (feed E fuel)) (t :: toks) line _ _ (sim_builtin _ IH) (sim_set_hist h w w' H)) as Hd.
  destruct (dispatch E _ _ _ (set_hist h w)) as [b v|x v| |], (dispatch E _ _ _ (set_hist h w')) as [b' v'|x' v'| |]; try contradiction; try exact Logic.I.
  - apply Hd.
  - destruct Hd as (<- & Hd). destruct x as [what|what|]; [| |apply sim_out_same, Hd].
    all: pose proof (sim_std line what v v' Hd) as Hs; destruct (std_exception E line what v), (std_exception E line what v'); try contradiction; exact Hs.
Qed.

(** ** Interactive sessions *)
Definition p_sim (p p' : proc) : Prop := sim (p_world p) (p_world p') /\ p_term p = p_term p'.
Definition o_sim (r r' : pres) : Prop :=
  match r, r' with POk p, POk p' => p_sim p p' | PExc x p, PExc x' p' => x = x' /\ p_sim p p' | PUB, PUB => True | PFuel, PFuel => True | _, _ => False end.
Lemma sim_p_bind r r' f f' : o_sim r r' -> (forall p p', p_sim p p' -> o_sim (f p) (f' p')) -> o_sim (p_bind r f) (p_bind r' f').
Proof. intros H Hf. destruct r, r'; try contradiction; try exact H. cbn. apply Hf, H. Qed.
Lemma sim_of_h r r' t : h_sim r r' -> o_sim (of_hres r t) (of_hres r' t).
Proof. destruct r, r'; cbn; intros H; try contradiction; try exact H; [split; [exact H|reflexivity]|]. destruct H as (-> & H). split; [reflexivity|split; [exact H|reflexivity]]. Qed.
Lemma sim_of_f r r' t : f_sim r r' -> o_sim (of_fres r t) (of_fres r' t).
Proof. destruct r, r'; cbn; intros H; try contradiction; try exact H; [split; [exact H|reflexivity]|]. destruct H as (-> & H). split; [reflexivity|split; [exact H|reflexivity]]. Qed.
Lemma sim_p_out s p p' : p_sim p p' -> p_sim (p_out s p) (p_out s p').
Proof. intros (H & Ht). split; [apply sim_out_same, H|exact Ht]. Qed.
Lemma sim_p_prompt tty c p p' : p_sim p p' -> o_sim (p_prompt tty c p) (p_prompt tty c p').
Proof.
  intros (H & Ht). unfold p_prompt, prompt, prompt_text. pose proof H as (H1 & _ & _ & _ & H5 & _ & H7 & _). rewrite <- H1, <- H5, <- H7, <- Ht.
  match goal with |- context[match ?x with Some _ => _ | None => PUB end] => destruct x as [(b, f)|] end; [|exact Logic.I]. cbn. apply sim_p_out. split; [exact H|reflexivity].
Qed.
Lemma sim_p_set_line tty c s p p' : p_sim p p' -> p_sim (p_set_line tty c s p) (p_set_line tty c s p').
Proof. intros (H & Ht). unfold p_set_line. rewrite <- Ht. destruct (set_line tty c s (p_term p)) as (b, t). apply sim_p_out. split; [exact H|reflexivity]. Qed.
Lemma sim_reprint tty c s p p' : p_sim p p' ->
  o_sim (p_bind (p_prompt tty c (p_out s p)) (fun p1 => POk (p_set_line tty c (get_line (p_term p)) (p_reset_cursor p1))))
    (p_bind (p_prompt tty c (p_out s p')) (fun p1 => POk (p_set_line tty c (get_line (p_term p')) (p_reset_cursor p1)))).
Proof.
  intros H. apply sim_p_bind; [apply sim_p_prompt, sim_p_out, H|]. intros p1 p1' (H1 & Ht). cbn. rewrite (proj2 H). apply sim_p_set_line.
  split; [exact H1|]. cbn. rewrite Ht. reflexivity.
Qed.
Lemma sim_process fuel tty c sy p p' : p_sim p p' -> o_sim (process E fuel tty c sy p) (process E fuel tty c sy p').
Proof.
  intros H. pose proof H as (Hw & Ht). pose proof Hw as (H1 & _ & _ & H4 & H5 & H6 & _). destruct sy; cbn [process].
  - exact H.
  - rewrite <- H4. apply sim_p_bind.
    + cbn [p_log p_world p_term]. rewrite <- Ht. apply sim_of_f, sim_feed, sim_log, Hw.
    + intros p2 p2' H2. apply sim_p_bind; [apply sim_p_prompt, H2|]. intros p3 p3' (H3 & Ht3). cbn.
      replace (w_sid (p_world p3')) with (w_sid (p_world p3)) by apply H3. split; [apply sim_log, H3|exact Ht3].
  - unfold previous_cmd. rewrite <- H6, <- Ht. destruct (previous _ _) as [(s, h)|]; [|exact Logic.I].
    apply sim_p_set_line. split; [apply sim_set_hist, Hw|reflexivity].
  - unfold next_cmd. rewrite <- H6, <- Ht. destruct (next _) as [(s, h)|]; [|exact Logic.I].
    apply sim_p_set_line. split; [apply sim_set_hist, Hw|reflexivity].
  - unfold get_completions. rewrite <- H1, <- H5, <- Ht.
    match goal with |- context[match ?x with GOk _ => _ | GUB => PUB | GFuel => PFuel end] => destruct x as [l| |] end; try exact Logic.I.
    destruct l as [|a [|a' l]]; [exact H|apply sim_p_set_line, H|]. destruct (common_prefix _) as [q|]; [|exact Logic.I].
    destruct (Nat.ltb _ _); [apply sim_p_set_line, H|]. pose proof (sim_reprint tty c (nl ++ flat_map (fun c => tab ++ c) (a :: a' :: l) ++ nl) p p' H) as Hr.
    rewrite <- Ht in Hr. exact Hr.
  - rewrite <- Ht. apply sim_of_h, sim_exit, Hw.
  - apply sim_reprint, H.
Qed.
Lemma sim_press fuel tty k p p' : p_sim p p' -> o_sim (press E fuel tty k p) (press E fuel tty k p').
Proof.
  intros (H & Ht). unfold press. rewrite <- Ht. destruct (keypressed tty (ks_color k) (ks_key k) (p_term p)) as [((b, sy), t)|]; [|exact Logic.I].
  apply sim_process, sim_p_out. split; [exact H|reflexivity].
Qed.
End Run.
End Sim.
