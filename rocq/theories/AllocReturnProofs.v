(** * Proofs about Return when memory runs out *)

From Verif Require Import Base SplitModel HistoryModel HistorySpec TerminalModel TerminalSpec TerminalProofs MenuModel SessionModel SessionSpec ProcessorModel
  ProcessorSpec ProcessorProofs AllocModel AllocProofs AllocTermModel AllocTermSpec AllocTermProofs AllocFeedModel AllocFeedProofs AllocReturnModel AllocReturnSpec.
Open Scope nat_scope.
Open Scope list_scope.

Lemma feed_ran E ok ok' fuel line w r : feed_m E ok ok' (S fuel) line w = MRan r -> r = feed E (S fuel) line w.
Proof.
  unfold feed_m. destruct ok; cbn [negb]; [|discriminate]. intro H.
  destruct (split line) as [[|a l]|] eqn:Sp; try (injection H as <-; reflexivity).
  destruct (new_command_either ok' (w_hist w) line) as [X|[_ X]]; rewrite X in H; [|discriminate].
  rewrite new_command_ok in H. destruct (new_command (w_hist w) line) eqn:N; injection H as <-; [reflexivity|].
  cbn [feed]. unfold feed_body. rewrite Sp, N. reflexivity.
Qed.
Lemma feed_plenty E fuel line w : feed_m E true true (S fuel) line w = MRan (feed E (S fuel) line w).
Proof.
  destruct (feed_m E true true (S fuel) line w) as [r|w'] eqn:F; [apply feed_ran in F; subst r; reflexivity|].
  unfold feed_m in F. cbn [negb] in F. destruct (split line) as [[|a l]|]; try discriminate.
  rewrite new_command_ok in F. destruct (new_command (w_hist w) line); discriminate.
Qed.
Lemma feed_threw_ok E ok ok' fuel line w w' : feed_m E ok ok' (S fuel) line w = MThrew w' -> ok && ok' = false.
Proof. destruct ok; [|reflexivity]. destruct ok'; [|reflexivity]. rewrite feed_plenty. discriminate. Qed.

(** The four ways Return goes. *)
Lemma ret_cases E fuel ltr tty color color' ok p e : holds (p_term p) e ->
  let r := return_m E (S fuel) ltr tty color color' ok p in
  (ok 0 && ok 1 = false /\ exists t, holds t (if ok 0 then mkEd [] [] else e) /\ r = RThrew (mkProc (out crlf (p_world p)) t)) \/
  (ok 0 && ok 1 = true /\ ok 2 && ok 3 = false /\ exists w t, r = RThrew (mkProc w t) /\ holds t (mkEd [] []) /\
     feed_m E (ok 2) (ok 3) (S fuel) (ed_text e) (after_ret p) = MThrew w) \/
  (ok 0 && ok 1 = true /\ ok 4 = false /\ exists w t, feed E (S fuel) (ed_text e) (after_ret p) = FOk w /\
     w_exit w = false /\ holds t (mkEd [] []) /\ tm_force t = (tm_force (p_term p) || (ltr && color')) /\
     r = RThrew (mkProc (if ltr then out (prompt_colour color') w else w) t)) \/
  (ok 0 && ok 1 = true /\ r = RRan (press E (S fuel) tty (mkStroke KRet color color') p)).
Proof.
  intros H r. subst r. pose proof (proj1 H) as L. unfold return_m, keypressed_m, press. cbn [ks_key ks_color ks_color' keypressed].
  destruct (ok 0) eqn:O0; cbn [negb andb].
  2:{ left. split; [reflexivity|]. exists (p_term p). split; [exact H|]. reflexivity. }
  assert (He : forall f, holds (mkTerm [] 0 f) (mkEd [] [])) by (intro f; split; reflexivity).
  destruct (ok 1) eqn:O1; cbn [negb andb].
  2:{ left. split; [reflexivity|]. eexists. split; [apply He|]. reflexivity. }
  right. rewrite L. cbn [p_out p_log p_world p_term log out w_sid]. change (["013"; "010"]%char) with crlf.
  fold (after_ret p).
  destruct (feed_m E (ok 2) (ok 3) (S fuel) (ed_text e) _) as [r|w] eqn:F.
  2:{ left. split; [reflexivity|]. split; [exact (feed_threw_ok _ _ _ _ _ _ _ F)|]. exists w. eexists. split; [reflexivity|]. split; [apply He|reflexivity]. }
  right. apply feed_ran in F. subst r. unfold process. cbn [p_log p_world p_term p_out out log w_sid].
  match goal with |- context[p_bind (of_fres ?x _) _] => change x with (feed E (S fuel) (ed_text e) (after_ret p)) end.
  destruct (feed E (S fuel) (ed_text e) (after_ret p)) as [w|x w| |] eqn:G; cbn [of_fres p_bind];
    try (right; split; reflexivity).
  unfold prompt_m. destruct (p_prompt tty color' _) as [p3|x p3| |] eqn:P; cbn [p_bind]; try (right; split; reflexivity).
  cbn [p_world]. destruct (w_exit w) eqn:X; [right; split; reflexivity|].
  destruct (ok 4) eqn:O4; [right; split; reflexivity|].
  left. split; [reflexivity|]. split; [reflexivity|].
  destruct ltr.
  - cbn [p_term tm_force tm_line tm_pos]. unfold before_prompt, prompt_colour.
    destruct color'; (exists w; eexists; split; [reflexivity|]; split; [exact X|]; split; [|split; [|reflexivity]]; [split; reflexivity|]);
      cbn [tm_force andb]; destruct (tm_force (p_term p)); reflexivity.
  - exists w. eexists. split; [reflexivity|]. split; [exact X|]. split; [apply He|]. split; [cbn; rewrite orb_false_r; reflexivity|reflexivity].
Qed.

Lemma after_ret_off p : input_on (w_sid (p_world p)) (w_trace (after_ret p)) = false.
Proof.
  unfold after_ret. cbn [log out w_trace w_sid]. rewrite input_on_app. cbn [fold_left]. rewrite Nat.eqb_refl. reflexivity.
Qed.
Lemma out_input s b w : input_on s (w_trace (out b w)) = input_on s (w_trace w).
Proof. unfold out. cbn [log w_trace]. rewrite input_on_app. reflexivity. Qed.

(** Whether the device is on when [bad_alloc] has left the handling of Return. *)
Lemma ret_input E fuel ltr tty color color' ok p e p' : holds (p_term p) e ->
  input_on (w_sid (p_world p)) (w_trace (p_world p)) = true ->
  return_m E (S fuel) ltr tty color color' ok p = RThrew p' ->
  input_on (w_sid (p_world p)) (w_trace (p_world p')) = negb (ok 0 && ok 1).
Proof.
  intros H On R.
  destruct (ret_cases E fuel ltr tty color color' ok p e H)
    as [(O & t & _ & X)|[(O & _ & w & t & X & _ & F)|[(O & _ & w & t & F & _ & _ & _ & X)|(O & X)]]]; rewrite O; cbn [negb].
  - rewrite R in X. injection X as ->. cbn [p_world]. rewrite out_input. exact On.
  - rewrite R in X. injection X as ->. cbn [p_world]. apply feed_throws in F as [->|(h & -> & _)]; apply after_ret_off.
  - pose proof (feed_no_input E (S fuel) (ed_text e) (after_ret p)) as N. rewrite F in N. destruct N as (_ & evs & T & N).
    assert (D : input_on (w_sid (p_world p)) (w_trace w) = false)
      by (rewrite T, input_on_app, after_ret_off; apply no_input_fold; exact N).
    rewrite R in X. injection X as ->. cbn [p_world]. destruct ltr; [rewrite out_input|]; exact D.
  - rewrite R in X. discriminate.
Qed.

(** What has been done of the line. *)
Lemma ret_lost E fuel ltr tty color color' ok p e p' : holds (p_term p) e ->
  return_m E (S fuel) ltr tty color color' ok p = RThrew p' ->
  (holds (p_term p') e /\ p_world p' = out crlf (p_world p)) \/
  (holds (p_term p') (mkEd [] []) /\
   ((exists evs, w_trace (p_world p') = w_trace (p_world p) ++ evs /\ calls evs = 0 /\
      w_root (p_world p') = w_root (p_world p) /\ w_cur (p_world p') = w_cur (p_world p) /\
      view (w_hist (p_world p')) = view (w_hist (p_world p))) \/
    (exists w, feed E (S fuel) (ed_text e) (after_ret p) = FOk w /\
      (p_world p' = w \/ p_world p' = out (prompt_colour color') w)))).
Proof.
  intros H R.
  destruct (ret_cases E fuel ltr tty color color' ok p e H)
    as [(O & t & Ht & X)|[(O & _ & w & t & X & Ht & F)|[(O & _ & w & t & F & _ & Ht & _ & X)|(O & X)]]].
  - rewrite R in X. injection X as ->. destruct (ok 0); [right|left; split; [exact Ht|reflexivity]].
    split; [exact Ht|]. left. eexists. split; [cbn; reflexivity|]. repeat split.
  - rewrite R in X. injection X as ->. right. split; [exact Ht|]. left. unfold after_ret in F.
    apply feed_throws in F as [->|(h & -> & V & _)]; (eexists; split; [cbn; rewrite <- app_assoc; reflexivity|repeat split]).
    exact V.
  - right. rewrite R in X. injection X as ->. split; [exact Ht|]. right. exists w. split; [exact F|]. destruct ltr; [right|left]; reflexivity.
  - rewrite R in X. discriminate.
Qed.

Lemma ret_ran E fuel ltr tty color color' ok p e r : holds (p_term p) e ->
  return_m E (S fuel) ltr tty color color' ok p = RRan r -> r = press E (S fuel) tty (mkStroke KRet color color') p.
Proof.
  intros H R.
  destruct (ret_cases E fuel ltr tty color color' ok p e H)
    as [(O & t & Ht & X)|[(O & _ & w & t & X & Ht & F)|[(O & _ & w & t & F & _ & Ht & _ & X)|(O & X)]]];
    rewrite R in X; try discriminate. injection X as ->. reflexivity.
Qed.
Lemma ret_plenty E fuel ltr tty color color' ok p e : holds (p_term p) e -> (forall n, ok n = true) ->
  return_m E (S fuel) ltr tty color color' ok p = RRan (press E (S fuel) tty (mkStroke KRet color color') p).
Proof.
  intros H A.
  destruct (ret_cases E fuel ltr tty color color' ok p e H) as [(O & _)|[(_ & O & _)|[(_ & O & _)|(_ & X)]]];
    try (rewrite !A in O; discriminate). exact X.
Qed.

(** Typing. *)
Lemma edit_step ltr tty color k ok t e : holds t e ->
  exists b t' e', (outcome (keypressed_m ltr tty color ok k t)) = Some (b, fst (ed_op_m (mkOpm color (EKey k) ok) e), t') /\ holds t' e'.
Proof.
  intro H. destruct (step_m ltr tty (mkOpm color (EKey k) ok) t e H) as (b & t' & O & Ht & _).
  exists b, t'. eexists. split; [exact O|exact Ht].
Qed.
Lemma a_step_on E fuel ltr tty k p p' : (exists e, holds (p_term p) e) -> unharmed k = true ->
  input_on (w_sid (p_world p)) (w_trace (p_world p)) = true -> a_step E (S fuel) ltr tty k p = Some p' ->
  (exists e, holds (p_term p') e) /\ w_sid (p_world p') = w_sid (p_world p) /\
  input_on (w_sid (p_world p)) (w_trace (p_world p')) = true.
Proof.
  intros (e & H) U On R. destruct k as [color k ok|color color' ok]; cbn [a_step unharmed] in *.
  - destruct (edit_step ltr tty color k ok (p_term p) e H) as (b & t & e' & O & Ht).
    destruct (keypressed_m ltr tty color ok k (p_term p)) as [b1 sy t1|b1 t1|]; cbn [outcome] in O; try discriminate;
      injection O as -> _ ->; injection R as <-; (split; [exists e'; exact Ht|]; split; [reflexivity|];
      cbn [p_out p_world]; rewrite out_input; exact On).
  - destruct (ret_cases E fuel ltr tty color color' ok p e H)
      as [(O & t & Ht & X)|[(O & O' & _)|[(O & O' & _)|(O & X)]]].
    + rewrite X in R. injection R as <-. split; [eexists; exact Ht|]. split; [reflexivity|]. cbn [p_world]. rewrite out_input. exact On.
    + rewrite O, O' in U. discriminate.
    + rewrite O, O', andb_false_r in U. discriminate.
    + rewrite X in R. pose proof (press_holds E (S fuel) tty (mkStroke KRet color color') p (ex_intro _ e H)) as Hh.
      pose proof (press_input E (S fuel) tty (mkStroke KRet color color') p (ex_intro _ e H) On) as (Hi & _).
      destruct (press _ _ _ _ _) as [p1|x p1| |]; try discriminate. injection R as <-. split; [exact Hh|exact Hi].
Qed.
Lemma a_run_on E fuel ltr tty ks : forall p p', (exists e, holds (p_term p) e) ->
  input_on (w_sid (p_world p)) (w_trace (p_world p)) = true -> a_run E (S fuel) ltr tty ks p = Some p' ->
  input_on (w_sid (p_world p)) (w_trace (p_world p')) = false -> existsb (fun k => negb (unharmed k)) ks = true.
Proof.
  induction ks as [|k ks IH]; intros p p' H On R Off; cbn [a_run existsb] in *.
  - injection R as <-. congruence.
  - destruct (unharmed k) eqn:U; [|reflexivity]. cbn [negb orb].
    destruct (a_step E (S fuel) ltr tty k p) as [p1|] eqn:St; [|discriminate].
    destruct (a_step_on E fuel ltr tty k p p1 H U On St) as (H1 & S1 & On1).
    apply (IH p1 p' H1); rewrite ?S1; assumption.
Qed.
Lemma a_run_line E fuel ltr tty ks : forall p p', (exists e, holds (p_term p) e) ->
  input_on (w_sid (p_world p)) (w_trace (p_world p)) = true -> forallb unharmed ks = true ->
  a_run E (S fuel) ltr tty ks p = Some p' ->
  (exists e, holds (p_term p') e) /\ input_on (w_sid (p_world p)) (w_trace (p_world p')) = true.
Proof.
  induction ks as [|k ks IH]; intros p p' H On U R; cbn [a_run forallb] in *.
  - injection R as <-. split; assumption.
  - apply andb_true_iff in U as (U & Us). destruct (a_step E (S fuel) ltr tty k p) as [p1|] eqn:St; [|discriminate].
    destruct (a_step_on E fuel ltr tty k p p1 H U On St) as (H1 & S1 & On1). rewrite <- S1. apply IH; rewrite ?S1; assumption.
Qed.
