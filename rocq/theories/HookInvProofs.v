(** * Invariants of sessions that hold whenever no user code is running *)

From Verif Require Import Base SplitModel SplitSpec SplitProofs FromStringModel HistoryModel HistorySpec HistoryProofs StorageModel PrefixModel TerminalModel
  MenuModel SessionModel CompletionModel ProcessorModel ResolveSpec ResolveProofs SessionSpec TreeProofs SessionProofs InvariantProofs ProcessorSpec ProcessorProofs.
Open Scope nat_scope.
Open Scope list_scope.

Section Inv.
Context (E : env) (P : world -> Prop).
Context
  (Huser : forall u vs w, P w -> P (snd (call_user E u vs w)))
  (Hhook : forall k args w, P w -> h_inv P (run_hook E k args w))
  (Hout : forall s w, P w -> P (out s w))
  (Hcur : forall id w, P w -> P (set_cur id w))
  (Hstore : forall st w, P w -> P (set_store st w))
  (Hexit : forall w, P w -> P (set_exit true w))
  (Hhist : forall h w, P w -> P (set_hist h w)).

Lemma hk_exit_inv w : P w -> h_inv P (session_exit E w).
Proof.
  intros H. unfold session_exit.
  assert (H1 : h_inv P (if e_has E KSesExit then run_hook E KSesExit [] w else HExc bad_function_call w)).
  { destruct (e_has E KSesExit); [apply Hhook; exact H|exact H]. }
  destruct (if e_has E KSesExit then _ else _) as [w1|x w1| |]; cbn [h_bind]; try exact H1.
  assert (H2 : h_inv P (if e_has E KCliExit then run_hook E KCliExit [] w1 else HOk w1)).
  { destruct (e_has E KCliExit); [apply Hhook; exact H1|exact H1]. }
  destruct (if e_has E KCliExit then _ else _) as [w2|x w2| |]; cbn [h_bind]; try exact H2.
  destruct (get_commands (w_hist w2)) as [cmds|] eqn:Hg; [|exact Logic.I]. cbn. apply Hexit, Hstore. exact H2.
Qed.
Lemma hk_enter_inv w : P w -> h_inv P (session_enter E w).
Proof.
  intros H. unfold session_enter.
  assert (H1 : h_inv P (if e_has E KCliEnter then run_hook E KCliEnter [] w else HOk w)).
  { destruct (e_has E KCliEnter); [apply Hhook; exact H|exact H]. }
  destruct (if e_has E KCliEnter then _ else _) as [w1|x w1| |]; cbn [h_bind]; try exact H1.
  destruct (e_has E KSesEnter); [apply Hhook; exact H1|exact H1].
Qed.

(** Trying readings of user menus. *)
Lemma hk_user_attempt_inv ctx toks p t w : reading ctx toks p t -> P w -> in_menu w ctx ->
  e_inv P (fun w' => P w' /\ in_menu w' ctx) (attempt E no_builtin t w).
Proof.
  intros Hr H Hm. destruct t as [h pars args|h args|id]; cbn [attempt].
  - destruct (convert_all E pars args) as [vs| |]; [|split; assumption|exact Logic.I].
    destruct h as [u| | | |]; cbn [run_fn no_builtin]; try exact Logic.I.
    pose proof (Huser u vs w H) as Hc. destruct (call_user E u vs w) as (r, w') eqn:Hcu. cbn [snd] in Hc.
    destruct (ur_end r) as [|[s|s|]]; cbn; auto.
    destruct (existsb is_tree_op (ur_ops r)) eqn:Hx; [exact Logic.I|]. cbn. split; [exact Hc|].
    unfold call_user in Hcu. injection Hcu as <- <-.
    apply no_tree_ops with (w := log (EvCall (w_sid w) u vs) w) in Hx as (Hroot & Hcu).
    unfold in_menu. rewrite Hroot, Hcu. exact Hm.
  - destruct h as [u| | | |]; cbn [run_free]; try exact Logic.I.
    pose proof (Huser u [VList args] w H) as Hc. destruct (call_user E u [VList args] w) as (r, w').
    cbn [snd] in Hc. destruct (ur_end r); exact Hc.
  - cbn. apply Hcur; assumption.
Qed.
Lemma hk_user_attempts_inv ctx toks l : (forall p t, In (p, t) l -> reading ctx toks p t) ->
  forall w, P w -> in_menu w ctx -> e_inv P P (attempts E no_builtin l w).
Proof.
  induction l as [|(p, t) l IH]; intros Hl w H Hm; cbn [attempts snd]; [exact H|].
  pose proof (hk_user_attempt_inv ctx toks p t w (Hl p t (or_introl eq_refl)) H Hm) as Ha.
  destruct (attempt E no_builtin t w) as [[] w1|x w1| |]; cbn [e_bind]; try exact Ha.
  destruct Ha as (Ha & Hm1). apply IH; auto. intros p' t' Hin. apply Hl. right. exact Hin.
Qed.

Lemma hk_report_inv line x w : P w -> f_inv P (report E line x w).
Proof.
  intros H. assert (Hs : forall what, f_inv P (report E line (XStd what) w)).
  { intros what. rewrite <- std_exception_report. unfold std_exception. destruct (e_has E KExcept); [|cbn; apply Hout; exact H].
    pose proof (Hhook KExcept [line; what] w H) as Hk. destruct (run_hook E KExcept [line; what] w); exact Hk. }
  destruct x as [s|s|]; [exact (Hs s)|exact (Hs s)|cbn; apply Hout; exact H].
Qed.

(** The part of [Feed] after the global commands. *)
Lemma hk_menus_inv toks line w1 : toks <> [] -> P w1 ->
  f_inv P (finish E line
    match locate (w_cur w1) [] (w_root w1) with
    | None => EUB
    | Some ctx =>
        e_bind (scan E no_builtin toks ctx w1) (fun w2 =>
        match wrong_command E line w2 with
        | HOk w3 => EDone false w3
        | HExc x w3 => EExc x w3
        | HUB => EUB
        | HFuel => EFuel
        end)
    end).
Proof.
  intros Hne H. destruct (locate (w_cur w1) [] (w_root w1)) as [ctx|] eqn:Hl; [|exact Logic.I].
  apply locate_in_menu in Hl. rewrite scan_attempts by exact Hne.
  assert (Ha : e_inv P P (attempts E no_builtin (choices toks ctx) w1)).
  { apply (hk_user_attempts_inv ctx toks); [|exact H|exact Hl]. intros p t Hin. apply in_choices in Hin; assumption. }
  destruct (attempts E no_builtin (choices toks ctx) w1) as [[] w2|x w2| |]; cbn [e_bind finish]; try exact Ha.
  - assert (Hw : h_inv P (wrong_command E line w2)).
    { unfold wrong_command. destruct (e_has E KWrong); [apply Hhook; exact Ha|apply Hout; exact Ha]. }
    destruct (wrong_command E line w2); cbn [finish]; try exact Hw. apply hk_report_inv. exact Hw.
  - apply hk_report_inv. exact Ha.
Qed.

(** The global functions other than recall. *)
Lemma hk_global_attempts_inv toks w : toks <> [] ->
  (forall a n, toks = [lit "!"; a] -> convert E (PInt UInt) a <> COk (VInt n)) -> P w ->
  forall rec, e_inv P P (attempts E (builtin E rec) (choices toks [global_menu]) w).
Proof.
  intros Hne Hn H rec.
  assert (Hl : forall l, (forall p t, In (p, t) l -> reading [global_menu] toks p t) -> forall w, P w ->
    e_inv P P (attempts E (builtin E rec) l w)).
  { induction l as [|(p, t) l IH]; intros Hin w1 H1; cbn [attempts snd]; [exact H1|].
    assert (Ha : e_inv P P (attempt E (builtin E rec) t w1)).
    { specialize (Hin p t (or_introl eq_refl)).
      apply global_readings in Hin as [(_ & _ & ->)|[(_ & _ & ->)|[(_ & _ & ->)|(a & Ht & _ & ->)]]]; cbn [attempt convert_all].
      - cbn. destruct (help_text w1); [|exact Logic.I]. cbn. apply Hout; exact H1.
      - cbn. pose proof (hk_exit_inv w1 H1) as He. destruct (session_exit E w1) as [w2|[s|s|] w2| |]; exact He.
      - cbn. destruct (show (w_hist w1)); cbn; [apply Hout|]; exact H1.
      - destruct (convert E (PInt UInt) a) as [v| |] eqn:Hv; cbn [cbind cmap]; [|exact H1|exact Logic.I].
        destruct (convert_uint _ _ _ Hv) as (n & ->). exfalso. eapply Hn; eassumption. }
    destruct (attempt E (builtin E rec) t w1) as [[] w2|x w2| |]; cbn [e_bind]; try exact Ha.
    apply IH; [|exact Ha]. intros p' t' Hin'. apply Hin. right. exact Hin'. }
  apply Hl; [|exact H]. intros p t Hin. apply in_choices in Hin; assumption.
Qed.

Lemma hk_feed_inv fuel : forall line w, P w -> f_inv P (feed E fuel line w).
Proof.
  induction fuel as [|fuel IH]; intros line w H; [exact Logic.I|]. cbn [feed].
  destruct (split line) as [[|t toks]|] eqn:Hs.
  1,3: unfold feed_body; rewrite Hs; exact H || exact Logic.I.
  destruct (new_command (w_hist w) line) as [h|] eqn:Hh; [|unfold feed_body; rewrite Hs, Hh; exact Logic.I].
  rewrite (feed_body_spec E _ line w (t :: toks) (set_hist h w)) by (split; [exact Hs|split; [discriminate|eauto]]).
  unfold dispatch. rewrite scan_attempts by discriminate.
  destruct (recall_dec E line) as [(a & n & Hs' & Hc)|Hnr].
  - rewrite Hs' in Hs. injection Hs as <- <-.
    rewrite (global_recall E _ a n _ Hc). cbn [run_fn builtin set_hist w_hist].
    destruct (forget_latest h) as [h2|] eqn:Hf; [|exact Logic.I].
    change (set_hist h2 (set_hist h w)) with (set_hist h2 w).
    assert (H2 : P (set_hist h2 w)) by (apply Hhist; exact H).
    destruct (at_id h2 n) as [l| |]; [|apply hk_report_inv; exact H2|exact Logic.I].
    specialize (IH l (set_hist h2 w) H2).
    destruct (feed E fuel l (set_hist h2 w)) as [w3|[s|s|] w3| |]; cbn [e_bind]; try exact IH.
    + apply hk_menus_inv; [discriminate|exact IH].
    + apply hk_report_inv. exact IH.
    + apply hk_report_inv. exact IH.
  - assert (H1 : P (set_hist h w)) by (apply Hhist; exact H).
    pose proof (hk_global_attempts_inv (t :: toks) (set_hist h w) ltac:(discriminate)) as Hg.
    specialize (Hg (fun a n Ht Hc => Hnr (ex_intro _ a (ex_intro _ n (conj (eq_trans Hs (f_equal Some Ht)) Hc)))) H1 (feed E fuel)).
    destruct (attempts _ _ _ _) as [[] w1|x w1| |]; cbn [e_bind finish]; try exact Hg.
    + apply hk_menus_inv; [discriminate|exact Hg].
    + apply hk_report_inv. exact Hg.
Qed.


(** The same for keys: also when the input device is (de)activated. *)
Context (Hinput : forall b w, P w -> P (log (EvInput (w_sid w) b) w)).
Definition hp_inv (r : pres) : Prop := match r with POk p | PExc _ p => P (p_world p) | _ => True end.
Lemma hk_prompt tty c p : P (p_world p) -> hp_inv (p_prompt tty c p).
Proof. intros H. unfold p_prompt. destruct (prompt _ _ _ _) as [(b, f)|]; [|exact Logic.I]. cbn. apply Hout, H. Qed.
Lemma hk_set_line tty c s p : P (p_world p) -> P (p_world (p_set_line tty c s p)).
Proof. intros H. unfold p_set_line. destruct (set_line _ _ _ _). cbn. apply Hout, H. Qed.
Lemma hk_reprint tty c s line p : P (p_world p) ->
  hp_inv (p_bind (p_prompt tty c (p_out s p)) (fun p1 => POk (p_set_line tty c line (p_reset_cursor p1)))).
Proof.
  intros H. pose proof (hk_prompt tty c (p_out s p) (Hout _ _ H)) as Hp. destruct (p_prompt _ _ _) as [p1|x p1| |]; try exact Hp.
  cbn. apply hk_set_line, Hp.
Qed.
Lemma hk_process fuel tty c sy p : P (p_world p) -> hp_inv (process E fuel tty c sy p).
Proof.
  intros H. destruct sy; cbn [process].
  - exact H.
  - pose proof (hk_feed_inv fuel cmd (p_world (p_log (EvInput (w_sid (p_world p)) false) p)) (Hinput _ _ H)) as Hf.
    destruct (feed E fuel cmd _) as [w2|x w2| |]; try exact Hf. cbn [of_fres p_bind].
    pose proof (hk_prompt tty c (mkProc w2 (p_term (p_log (EvInput (w_sid (p_world p)) false) p))) Hf) as Hp.
    destruct (p_prompt _ _ _) as [p3|x p3| |]; try exact Hp. cbn. apply Hinput, Hp.
  - unfold previous_cmd. destruct (previous _ _) as [(s, h)|]; [|exact Logic.I]. apply hk_set_line. cbn. apply Hhist, H.
  - unfold next_cmd. destruct (next _) as [(s, h)|]; [|exact Logic.I]. apply hk_set_line. cbn. apply Hhist, H.
  - destruct (get_completions _ _ _ _) as [l| |]; try exact Logic.I. destruct l as [|a [|a' l]]; [exact H|apply hk_set_line, H|].
    destruct (common_prefix _); [|exact Logic.I]. destruct (Nat.ltb _ _); [apply hk_set_line, H|apply hk_reprint, H].
  - pose proof (hk_exit_inv (p_world p) H) as He. destruct (session_exit E (p_world p)); exact He.
  - apply hk_reprint, H.
Qed.
Lemma hk_press fuel tty k p : P (p_world p) -> hp_inv (press E fuel tty k p).
Proof.
  intros H. unfold press. destruct (keypressed _ _ _ _) as [((b, sy), t)|]; [|exact Logic.I]. apply hk_process. cbn. apply Hout, H.
Qed.
End Inv.
