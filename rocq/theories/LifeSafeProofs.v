(** * Proofs: programs that follow the rules run into no undefined behaviour *)

From Verif Require Import Base SplitModel FromStringModel HistoryModel HistorySpec HistoryProofs StorageModel StorageSpec StorageProofs TerminalModel
  MenuModel SessionModel ResolveSpec ResolveProofs SessionSpec TreeProofs SessionProofs InvariantProofs FeatureProofs SafetyProofs
  CompletionModel CompletionSpec CompletionProofs ProcessorModel ProcessorSpec ProcessorProofs DisplayProofs InteractiveProofs LifeModel LifeSpec LifeProofs.
Open Scope nat_scope.
Open Scope list_scope.

(** ** What is stored *)
Lemma store_all (Q : str -> Prop) st cmds : (forall s, Q s -> one_line s) -> Forall Q (st_commands st) -> Forall Q cmds ->
  Forall Q (st_commands (st_store st cmds)).
Proof.
  intros H1 Hs Hc. assert (Hl : forall max l, Forall Q l -> Forall Q (lastn max (l ++ cmds))) by (intros; apply Forall_lastn, Forall_app; auto).
  destruct st as [max l|max f]; cbn [st_store st_commands v_commands v_store] in *.
  - rewrite append_trim_lastn. apply Hl, Hs.
  - unfold f_store. rewrite append_trim_lastn. cbn [f_commands]. rewrite getlines_put; [apply Hl, Hs|].
    eapply Forall_impl; [exact H1|apply Hl, Hs].
Qed.
Lemma commands_all (Q : str -> Prop) h cmds : Forall Q (h_buf h) -> get_commands h = Some cmds -> Forall Q cmds.
Proof.
  intros H Hg. unfold get_commands in Hg.
  assert (Hf : forall n l, Forall Q l -> Forall Q (rev (firstn n l))).
  { intros n l Hl. apply Forall_rev. rewrite <- (firstn_skipn n l) in Hl. apply Forall_app in Hl. apply Hl. }
  destruct (h_browse h); [destruct (h_buf h); [discriminate|]; inversion H; subst|]; injection Hg as <-; apply Hf; assumption.
Qed.

Section Lines.
Context (E : env).
Definition stored (w : world) : Prop := Forall (plain_line E) (h_buf (w_hist w)) /\ Forall (plain_line E) (st_commands (w_store w)).
Lemma stored_store cmds w : stored w -> get_commands (w_hist w) = Some cmds -> stored (set_store (st_store (w_store w) cmds) w).
Proof.
  intros (H1 & H2) Hg. split; [exact H1|]. apply store_all; [intros s ((_ & H) & _); exact H|exact H2|]. eapply commands_all; eassumption.
Qed.
Lemma stored_op w o : True -> stored w -> stored (apply_op w o).
Proof. intros _ H. unfold stored. destruct (apply_op_same w o) as (-> & _ & _ & -> & _). exact H. Qed.
Lemma stored_feed fuel : forall line w, decent_line E line -> stored w -> f_inv stored (feed E fuel line w).
Proof.
  assert (Hlog : forall e w, stored w -> stored (log e w)) by (intros; assumption).
  induction fuel as [|fuel IH]; intros line w Hline Hw; [exact Logic.I|]. cbn [feed].
  destruct (split line) as [[|t toks]|] eqn:Hs.
  1,3: unfold feed_body; rewrite Hs; exact Hw || exact Logic.I.
  destruct (new_command (w_hist w) line) as [h|] eqn:Hh; [|unfold feed_body; rewrite Hs, Hh; exact Logic.I].
  rewrite (feed_body_spec E _ line w (t :: toks) (set_hist h w)) by (split; [exact Hs|split; [discriminate|eauto]]).
  assert (Hm : forall w1, stored w1 -> f_inv stored (finish E line
    match locate (w_cur w1) [] (w_root w1) with
    | None => EUB
    | Some ctx =>
        e_bind (scan E no_builtin (t :: toks) ctx w1) (fun w2 =>
        match wrong_command E line w2 with
        | HOk w3 => EDone false w3
        | HExc x w3 => EExc x w3
        | HUB => EUB
        | HFuel => EFuel
        end)
    end)).
  { intros w1 Hw1. apply (menus_inv E stored (fun _ => True) (code_ops_all E)); try assumption; try discriminate; try exact stored_op.
    intros; assumption. }
  unfold dispatch. rewrite scan_attempts by discriminate.
  destruct (recall_dec E line) as [(a & n & Hs' & Hc)|Hnr].
  - rewrite Hs' in Hs. injection Hs as <- <-.
    rewrite (global_recall E _ a n _ Hc). cbn [run_fn builtin set_hist w_hist].
    destruct (forget_latest h) as [h2|] eqn:Hf; [|exact Logic.I].
    change (set_hist h2 (set_hist h w)) with (set_hist h2 w).
    assert (H2 : stored (set_hist h2 w)).
    { split; [|apply Hw]. apply Forall_forall. intros s Hin. cbn in Hin. destruct Hw as (Hw & _). rewrite Forall_forall in Hw. apply Hw. eapply bang_in; eassumption. }
    destruct (at_id h2 n) as [l| |] eqn:Hat; [|apply (report_inv E stored (fun _ => True) (code_ops_all E)); try assumption; exact stored_op|exact Logic.I].
    assert (Hl : plain_line E l) by (apply at_id_in in Hat; destruct H2 as (H2 & _); cbn in H2; rewrite Forall_forall in H2; auto).
    specialize (IH l (set_hist h2 w) (proj1 Hl) H2).
    destruct (feed E fuel l (set_hist h2 w)) as [w3|[s|s|] w3| |]; cbn [e_bind]; try exact IH.
    + apply Hm. exact IH.
    + apply (report_inv E stored (fun _ => True) (code_ops_all E)); try assumption. exact stored_op.
  - assert (H1 : stored (set_hist h w)).
    { split; [|apply Hw]. apply Forall_forall. intros s Hin. cbn in Hin. destruct (new_command_in _ _ _ _ Hh Hin) as [->|Hi]; [split; assumption|].
      destruct Hw as (Hw & _). rewrite Forall_forall in Hw. auto. }
    pose proof (global_attempts_inv E stored (fun _ => True) (code_ops_all E) Hlog stored_op) as Hg.
    specialize (Hg stored_store ltac:(intros; assumption) (t :: toks) (set_hist h w) ltac:(discriminate)).
    specialize (Hg (fun a n Ht Hc => Hnr (ex_intro _ a (ex_intro _ n (conj (eq_trans Hs (f_equal Some Ht)) Hc)))) H1 (feed E fuel)).
    destruct (attempts _ _ _ _) as [[] w1|x w1| |]; cbn [e_bind finish]; try exact Hg.
    + apply Hm. exact Hg.
    + apply (report_inv E stored (fun _ => True) (code_ops_all E)); try assumption. exact stored_op.
Qed.
Lemma stored_exit w : stored w -> h_inv stored (session_exit E w).
Proof. apply (exit_inv E stored (fun _ => True) (code_ops_all E)); try (intros; assumption); [exact stored_op|exact stored_store]. Qed.
Lemma stored_enter w : stored w -> h_inv stored (session_enter E w).
Proof. apply (enter_inv E stored (fun _ => True) (code_ops_all E)); try (intros; assumption). exact stored_op. Qed.
End Lines.

(** ** Calls *)
Section Calls.
Context (E : env) (R : nat -> Prop) (size : nat) (Hsz : size >= 1) (Ht : tame E R) (Hlc : legible_code E).
Definition fits (w : world) : Prop := fit E R size w /\ stored E w.
Definition menus_stay (w w' : world) : Prop := forall b, In b (menu_ids (w_root w)) -> In b (menu_ids (w_root w')).
Definition goes_on (w w' : world) : Prop := fits w' /\ (used w -> used w') /\ menus_stay w w'.

Definition other (b : nat) (w : world) : Prop := guarded R (set_cur b w).
Lemma other_code : code_ops E (tame_op R).
Proof. destruct Ht as (H1 & H2 & _). split; assumption. Qed.
Lemma other_op b w o : tame_op R o -> other b w -> other b (apply_op w o).
Proof.
  intros Ho H. unfold other in *. replace (set_cur b (apply_op w o)) with (apply_op (set_cur b w) o).
  - apply guarded_op; [apply tame_guard; exact Ho|exact H].
  - destruct o as [s|s|id|id|id|pid c]; try reflexivity. cbn. destruct (relabel (w_next w) c). reflexivity.
Qed.
Lemma stay_intro w w' : fit E R size w -> (forall b, other b w -> other b w') -> menus_stay w w'.
Proof.
  intros ((_ & _ & C & _) & _) H b Hb. assert (Ho : other b w).
  { split; [|apply live_spec; exact Hb]. intros id Hid. destruct (C id Hid) as (H1 & H2). split; [exact H1|]. intros Hi.
    apply chain_menu_ids in Hi as (m & anc & Hc & Hm). exact (H2 m anc Hc Hm). }
  apply H in Ho as (_ & Ho). apply live_spec in Ho. exact Ho.
Qed.
Lemma stay_refl w : menus_stay w w.
Proof. intros b H. exact H. Qed.
Lemma other_feed b fuel line w : other b w -> f_inv (other b) (feed E fuel line w).
Proof.
  apply (feed_inv E (other b) (tame_op R)); try (intros; assumption); [exact other_code|].
  intros w0 o. apply other_op.
Qed.
Lemma other_exit b w : other b w -> h_inv (other b) (session_exit E w).
Proof. apply (exit_inv E (other b) (tame_op R) other_code); try (intros; assumption). intros w0 o. apply other_op. Qed.
Lemma other_enter b w : other b w -> h_inv (other b) (session_enter E w).
Proof. apply (enter_inv E (other b) (tame_op R) other_code); try (intros; assumption). intros w0 o. apply other_op. Qed.

Lemma fit_op w o : tame_op R o -> legible_op E o -> fit E R size w -> fit E R size (apply_op w o).
Proof.
  intros O1 O2 ((A & B & C & D & F & G & I) & J).
  assert (Hg : guarded R (apply_op w o)) by (apply guarded_op; [apply tame_guard; exact O1|apply removable_guarded; auto]).
  apply removable_guarded in Hg as (C' & B'). destruct (apply_op_same w o) as (_ & _ & _ & Hh & _).
  split; [|apply legible_root_op; assumption].
  split; [apply sound_op; exact A|]. split; [exact B'|]. split; [exact C'|]. split; [eapply user_op; eassumption|].
  unfold no_recalls. rewrite Hh. auto.
Qed.
Lemma enter_safe w : fit E R size w -> match session_enter E w with HOk w' | HExc _ w' => fit E R size w' /\ (used w -> used w') | _ => False end.
Proof.
  intros H. set (P := fun w' : world => fit E R size w' /\ w_hist w' = w_hist w).
  assert (HP : h_inv P (session_enter E w)).
  { apply (enter_inv E P (fun o => tame_op R o /\ legible_op E o)).
    - destruct Ht as (Ht1 & Ht2 & _), Hlc as (L1 & L2). split; intros; apply Forall_forall; intros o Ho; split.
      + specialize (Ht1 sid h args tr). rewrite Forall_forall in Ht1. auto.
      + specialize (L1 sid h args tr). rewrite Forall_forall in L1. auto.
      + specialize (Ht2 sid k args tr). rewrite Forall_forall in Ht2. auto.
      + specialize (L2 sid k args tr). rewrite Forall_forall in L2. auto.
    - intros e w0 H0. exact H0.
    - intros w0 o (O1 & O2) (P1 & P2). split; [apply fit_op; assumption|]. destruct (apply_op_same w0 o) as (_ & _ & _ & -> & _). exact P2.
    - split; [exact H|reflexivity]. }
  assert (Hok : session_enter E w <> HUB /\ session_enter E w <> HFuel).
  { assert (Hh : forall k w, run_hook E k [] w <> HUB /\ run_hook E k [] w <> HFuel).
    { intros k w0. rewrite hook_spec. cbn zeta. split; dend; discriminate. }
    unfold session_enter. destruct (e_has E KCliEnter).
    - destruct (Hh KCliEnter w) as (H1 & H2). destruct (run_hook E KCliEnter [] w); cbn [h_bind]; try contradiction; try (split; discriminate).
      destruct (e_has E KSesEnter); [apply Hh|split; discriminate].
    - cbn [h_bind]. destruct (e_has E KSesEnter); [apply Hh|split; discriminate]. }
  unfold h_inv in HP. destruct (session_enter E w); try tauto; destruct HP as (P1 & P2); (split; [exact P1|unfold used; rewrite P2; auto]).
Qed.
Lemma out_goes w s : fits w -> goes_on w (out s w).
Proof. intros H. split; [exact H|]. split; [auto|intros b Hb; exact Hb]. Qed.
Lemma prompt_some tty color force w : fit E R size w -> exists x, prompt tty color force w = Some x.
Proof.
  intros H. destruct (prompt_fine E R size tty color (mkProc w (mkTerm [] 0 force)) H) as (p' & Hp & _).
  unfold p_prompt in Hp. cbn [p_term tm_force p_world] in Hp. destruct (prompt tty color force w); [eauto|discriminate].
Qed.

Lemma call_goes fed c w : fits w -> decent_call E fed (w_sid w) c -> (fed (w_sid w) -> used w) ->
  exists F r w', (forall fuel, F <= fuel -> run_call E fuel c w = COkay r w') /\ goes_on w w' /\
    (forall l, c = CFeed l -> ~ recall E l -> split l <> Some [] -> used w').
Proof.
  intros (H & Hs) Hc Hu. assert (H0 := H). destruct H0 as ((A & B & C & D & F & G & I) & J).
  destruct c as [line| | |tty color force| | |line| |line]; cbn [decent_call] in Hc; cbn [run_call].
  - destruct Hc as (Hl & Hr).
    assert (Hru : recall E line -> used w) by auto.
    destruct (fit_feed E R size Hsz Ht Hlc line w H (proj1 Hl) Hru) as (r & Hf & Hsafe).
    assert (Hst := stored_feed E 2 line w Hl Hs). assert (Hot := fun b => other_feed b 2 line w).
    assert (Hus := proj2 (feed_safe E R size line w Hsz Ht (proj1 H) (proj1 Hl) Hru 0)).
    rewrite (Hf 2 (le_n _)) in *.
    destruct r as [w'|x w'| |]; cbn [f_safe f_inv] in *; try contradiction.
    + exists 2, RNone, w'. split; [intros fuel Hfu; rewrite (Hf fuel Hfu); reflexivity|]. split.
      * split; [split; [apply Hsafe|exact Hst]|]. split; [apply Hsafe|apply stay_intro; assumption].
      * intros l [= <-] Hn Hx. exact (Hus Hn Hx).
    + exists 2, (RExc x), w'. split; [intros fuel Hfu; rewrite (Hf fuel Hfu); reflexivity|]. split.
      * split; [split; [apply Hsafe|exact Hst]|]. split; [apply Hsafe|apply stay_intro; assumption].
      * intros l [= <-] Hn Hx. exact (Hus Hn Hx).
  - pose proof (enter_safe w H) as Hsafe. assert (Hst := stored_enter E w Hs). assert (Hot := fun b => other_enter b w).
    destruct (session_enter E w) as [w'|x w'| |]; cbn [h_inv of_h] in *; try contradiction;
      (eexists 0, _, w'; split; [reflexivity|]; split; [|discriminate]; split; [split; [apply Hsafe|exact Hst]|]; split; [apply Hsafe|apply stay_intro; assumption]).
  - pose proof (fit_exit E R size Hsz Ht Hlc w H) as Hsafe. assert (Hst := stored_exit E w Hs). assert (Hot := fun b => other_exit b w).
    destruct (session_exit E w) as [w'|x w'| |]; cbn [h_inv of_h] in *; try contradiction;
      (eexists 0, _, w'; split; [reflexivity|]; split; [|discriminate]; split; [split; [apply Hsafe|exact Hst]|]; split; [apply Hsafe|apply stay_intro; assumption]).
  - destruct (prompt_some tty color force w H) as ((s & f) & ->). exists 0, RNone, (out s w).
    split; [reflexivity|]. split; [apply out_goes; split; assumption|discriminate].
  - destruct B as (ctx & B). rewrite (help_text_screen w ctx (proj1 A) B). eexists 0, RNone, _.
    split; [reflexivity|]. split; [apply out_goes; split; assumption|discriminate].
  - destruct (show (w_hist w)) as [s|].
    + eexists 0, RNone, _. split; [reflexivity|]. split; [apply out_goes; split; assumption|discriminate].
    + eexists 0, _, w. split; [reflexivity|]. split; [split; [split; assumption|split; [auto|apply stay_refl]]|discriminate].
  - destruct Hc as (Hl & Hn). destruct (reachable_inv size _ Hsz F) as (HI & HM).
    destruct (previous_inv (w_hist w) line HI (eq_ind_r (fun n => n >= 1) Hsz HM)) as (h & s & Hpv & _).
    unfold previous_cmd. rewrite Hpv. eexists 0, _, _. split; [reflexivity|]. split; [|discriminate].
    destruct (previous_all (plain_line E) _ _ _ _ (proj1 Hs) (conj Hl Hn) Hpv) as (_ & Hb). split; [split|].
    + apply fit_set_hist; [exact H| | |].
      * eapply (reachable_step size _ (OUp line)); [exact F|]. cbn [hstep]. rewrite Hpv. reflexivity.
      * eapply Forall_impl; [|exact Hb]. intros x ((Hx & _) & _). exact Hx.
      * intros x Hx. rewrite Forall_forall in Hb. apply Hb. exact Hx.
    + split; [exact Hb|apply Hs].
    + split; [exact (used_previous size Hsz _ _ _ _ F Hpv)|intros b Hb'; exact Hb'].
  - destruct (reachable_inv size _ Hsz F) as (HI & HM).
    destruct (next_inv (w_hist w) HI) as (h & s & Hpv & _ & _ & Hb & _).
    unfold next_cmd. rewrite Hpv. eexists 0, _, _. split; [reflexivity|]. split; [|discriminate]. split; [split|].
    + apply fit_set_hist; [exact H| | |].
      * eapply (reachable_step size _ ODown); [exact F|]. cbn [hstep]. rewrite Hpv. reflexivity.
      * rewrite Hb. exact G.
      * rewrite Hb. exact I.
    + split; [cbn; rewrite Hb; apply Hs|apply Hs].
    + split; [exact (used_next size Hsz _ _ _ F Hpv)|intros b Hb'; exact Hb'].
  - destruct (fit_completions E R size Hsz line w H Hc) as (l & Hg & _). exists (2 * length line + 2), (RLines l), w.
    split; [intros fuel Hfu; rewrite (Hg fuel Hfu); reflexivity|]. split; [split; [split; assumption|split; [auto|apply stay_refl]]|discriminate].
Qed.
End Calls.

(** ** Programs *)
Section Programs.
Context (E : env) (fn : nat -> nat -> hook -> list str -> list event -> uresult) (R : nat -> Prop) (Hcode : decent_code E fn R).
Notation step := (l_step E fn).
Notation run := (l_run E fn).

Lemma fns_tame a : tame (with_fns E fn a) R.
Proof.
  destruct Hcode as (H1 & H2 & H3 & H4 & H5). split; [|split; [|split; [|split]]].
  - intros sid h args tr. eapply Forall_impl; [|apply H1]. intros o (Ho & _). exact Ho.
  - intros sid k args tr. cbn. destruct (a k) as [[|n]|]; try constructor. eapply Forall_impl; [|apply H2]. intros o (Ho & _). exact Ho.
  - exact H3.
  - intros sid k args tr s. cbn. destruct (a k) as [[|n]|]; try discriminate. apply H4.
  - exact H5.
Qed.
Lemma fns_legible a : legible_code (with_fns E fn a).
Proof.
  destruct Hcode as (H1 & H2 & _). split.
  - intros sid h args tr. eapply Forall_impl; [|apply H1]. intros o (_ & Ho). exact Ho.
  - intros sid k args tr. cbn. destruct (a k) as [[|n]|]; try constructor. eapply Forall_impl; [|apply H2]. intros o (_ & Ho). exact Ho.
Qed.

Definition hist_ok (h : history) : Prop := exists size, size >= 1 /\ reachable size h /\ Forall (plain_line E) (h_buf h).
Definition used_hist (h : history) : Prop := committed h <> [] \/ (0 < h_oldest h)%Z.
Record fine_prog (fed : nat -> Prop) (g : prog) : Prop := mkFine {
  fp_tree : forall t r, g_trees g t = Live r -> decent_tree E R r;
  fp_cli : forall c o st, g_clis g c = Live o -> c_store o = Some st -> Forall (plain_line E) (st_commands st);
  fp_cur : forall s x r, g_ses g s = Live x -> g_trees g (s_tree x) = Live r -> In (s_cur x) (menu_ids (t_root r));
  fp_hist : forall s x, g_ses g s = Live x -> hist_ok (s_hist x);
  fp_fed : forall s, fed s -> g_ses g s <> Unborn /\ forall x, g_ses g s = Live x -> used_hist (s_hist x) }.

Lemma fits_of fed g s x o st t : fine_prog fed g -> intact g s x o st t -> exists size, size >= 1 /\ fits E R size (ses_world g s x st t).
Proof.
  intros [F1 F2 F3 F4 F5] (H1 & H2 & H3 & H4 & H5). destruct (F4 s x H1) as (size & Hsz & Hr & Hb).
  destruct (F1 _ _ H5) as (D1 & D2 & D3 & D4 & D5 & D6). exists size. split; [exact Hsz|]. split.
  - split; [|exact D6]. split; [split; assumption|]. split; [apply live_spec; exact (F3 s x t H1 H5)|]. split; [exact D4|]. split; [exact D5|].
    split; [exact Hr|]. rewrite Forall_forall in Hb. split; [apply Forall_forall; intros l Hl; apply Hb; exact Hl|intros l Hl; apply Hb; exact Hl].
  - split; [exact Hb|exact (F2 _ _ _ H2 H3)].
Qed.
Lemma decent_of size w : fit E R size w -> decent_tree E R (mkTree (w_root w) (w_next w)).
Proof.
  intros (((A1 & A2) & (ctx & B & _) & C & D & _) & J). split; [exact A1|]. split; [exact A2|]. split; [|split; [exact C|split; assumption]].
  clear -B. cbn. induction B; assumption.
Qed.
Lemma decent_tree_op t o : decent_op E R o -> decent_tree E R t -> decent_tree E R (mkTree (w_root (apply_op (mkWorld (t_root t) (t_next t) (StVolatile 0 []) 0 (cmd_id (t_root t)) (history_init 1) false []) o))
   (w_next (apply_op (mkWorld (t_root t) (t_next t) (StVolatile 0 []) 0 (cmd_id (t_root t)) (history_init 1) false []) o))) /\
   forall b, In b (menu_ids (t_root t)) -> In b (menu_ids (w_root (apply_op (mkWorld (t_root t) (t_next t) (StVolatile 0 []) 0 (cmd_id (t_root t)) (history_init 1) false []) o))).
Proof.
  intros (O1 & O2) (D1 & D2 & D3 & D4 & D5 & D6). set (w := mkWorld _ _ _ _ _ _ _ _).
  assert (Hf : fit E R 1 w).
  { split; [|exact D6]. split; [split; assumption|]. split; [exists [t_root t]; split; [constructor; exact D3|exists (t_root t), []; split; reflexivity]|].
    split; [exact D4|]. split; [exact D5|]. split; [exists []; reflexivity|]. split; [constructor|intros l []]. }
  split.
  - apply (decent_of 1). apply fit_op; assumption.
  - apply (stay_intro E R 1 w (apply_op w o) Hf). intros b. apply other_op. exact O1.
Qed.

Lemma put_live {A} (m : nat -> life A) i a j x : put m i (Live a) j = Live x -> (j = i /\ x = a) \/ (j <> i /\ m j = Live x).
Proof. unfold put. destruct (Nat.eqb_spec j i) as [->|Hn]; [intros [= <-]; auto|auto]. Qed.
Lemma put_dead_live {A} (m : nat -> life A) i j x : put m i Dead j = Live x -> m j = Live x.
Proof. unfold put. destruct (Nat.eqb j i); [discriminate|auto]. Qed.
Lemma drop_live o m j (x : tree) : drop_tree o m j = Live x -> m j = Live x.
Proof. destruct o; [apply put_dead_live|auto]. Qed.

Lemma menu_fine fed g t r r' : fine_prog fed g -> g_trees g t = Live r -> decent_tree E R r' ->
  (forall b, In b (menu_ids (t_root r)) -> In b (menu_ids (t_root r'))) -> fine_prog fed (set_trees (put (g_trees g) t (Live r')) g).
Proof.
  intros [F1 F2 F3 F4 F5] Ht Hd Hm. constructor; cbn; auto.
  - intros u q H. apply put_live in H as [(-> & ->)|(Hn & H)]; eauto.
  - intros s x q Hs H. apply put_live in H as [(Ht' & ->)|(Hn & H)]; [|eauto]. apply Hm. eapply F3; [exact Hs|]. rewrite Ht'. exact Ht.
Qed.

Lemma step_fine fed v g o v' : ordered g -> agree v g -> v_step v o = Some v' -> fine_prog fed g -> decent_lop E R fed o ->
  exists F r g', (forall fuel, F <= fuel -> step fuel g o = LOk r g') /\ agree v' g' /\ fine_prog (also_fed E fed o) g'.
Proof.
  intros Hord A Hv Hf Hd.
  assert (Hag : forall F r g', (forall fuel, F <= fuel -> step fuel g o = LOk r g') -> agree v' g').
  { intros F r g' H. pose proof (step_agree E fn F v g o v' A Hv) as Hs. rewrite (H F (le_n _)) in Hs. exact Hs. }
  cut (exists F r g', (forall fuel, F <= fuel -> step fuel g o = LOk r g') /\ fine_prog (also_fed E fed o) g').
  { intros (F & r & g' & H1 & H2). exists F, r, g'. split; [exact H1|]. split; [exact (Hag _ _ _ H1)|exact H2]. }
  pose proof Hf as [F1 F2 F3 F4 F5].
  destruct (match o with LCall s c => true | _ => false end) eqn:Ho.
  - destruct o as [| | | | | | |s c| |]; try discriminate. cbn [v_step] in Hv. destruct (v_ses v s) as [|c0| |] eqn:Es; try discriminate.
    destruct (usable_intact v g s c0 A Es) as (x & oo & st & t & Hi).
    destruct (fits_of _ _ _ _ _ _ _ Hf Hi) as (size & Hsz & Hfit).
    assert (Hu : fed s -> used (ses_world g s x st t)) by (intros H; apply (F5 s H), Hi).
    destruct (call_goes (ses_env E fn x oo) R size Hsz (fns_tame _) (fns_legible _) fed c (ses_world g s x st t) Hfit Hd Hu)
      as (F & r & w' & Hr & ((Hfit' & Hst') & Hus & Hm) & Hnew).
    exists F, r, (called g s x oo w'). split; [intros fuel Hfu; rewrite (call_intact E fn fuel g s x oo st t c Hi), (Hr fuel Hfu); reflexivity|].
    destruct Hi as (I1 & I2 & I3 & I4 & I5).
    constructor; cbn [called g_clis g_trees g_ses].
    + intros u q H. apply put_live in H as [(-> & ->)|(Hn & H)]; [apply (decent_of size); exact Hfit'|eauto].
    + intros d o' st' H Hs. apply put_live in H as [(-> & ->)|(Hn & H)]; [injection Hs as <-; exact (proj2 Hst')|eauto].
    + intros s' x' q H Hq. apply put_live in H as [(-> & ->)|(Hn & H)]; cbn [s_tree s_cur] in *.
      * rewrite put_same in Hq. injection Hq as <-. apply live_spec. apply (proj1 Hfit').
      * apply put_live in Hq as [(Ht & ->)|(Hn' & Hq)]; [|eauto]. cbn [t_root]. apply Hm. cbn. eapply F3; [exact H|]. rewrite Ht. exact I5.
    + intros s' x' H. apply put_live in H as [(-> & ->)|(Hn & H)]; [|eauto]. exists size. split; [exact Hsz|]. split; [apply (proj1 Hfit')|exact (proj1 Hst')].
    + intros s' [H|(l & [= <- ->] & Hn & Hx)].
      * destruct (F5 s' H) as (B1 & B2). split; [unfold put; destruct (Nat.eqb s' s); [discriminate|exact B1]|].
        intros x' Hx. apply put_live in Hx as [(-> & ->)|(Hn & Hx)]; [|eauto]. apply Hus. apply Hu. exact H.
      * split; [rewrite put_same; discriminate|]. intros x' H. rewrite put_same in H. injection H as <-. apply (Hnew l eq_refl); assumption.
  - assert (Hmono : fine_prog fed g -> fine_prog (also_fed E fed o) g).
    { intros [G1 G2 G3 G4 G5]. constructor; auto. intros s [H|(l & -> & _)]; [auto|discriminate]. }
    cut (exists r g', (forall fuel, step fuel g o = LOk r g') /\ fine_prog fed g').
    { intros (r & g' & H1 & [G1 G2 G3 G4 G5]). exists 0, r, g'. split; [auto|]. constructor; auto.
      intros s [H|(l & -> & _)]; [auto|discriminate]. }
    pose proof (step_agree E fn 0 v g o v' A Hv) as Hs0.
    destruct o as [c t r st|c k f|c c'|c c'|c|s c size|s k f|s c|s|t o]; try discriminate; cbn [l_step decent_lop] in *.
    + destruct (g_clis g c) eqn:Ec; try contradiction. destruct (g_trees g t) eqn:Et; try contradiction.
      eexists _, _. split; [intros _; reflexivity|]. constructor; cbn; auto.
      * intros u q H. apply put_live in H as [(-> & ->)|(Hn & H)]; [apply Hd|eauto].
      * intros d o st' H Hs. apply put_live in H as [(-> & ->)|(Hn & H)]; [injection Hs as <-; apply Hd|eauto].
      * intros s x q H Hq. apply put_live in Hq as [(Hu & ->)|(Hn & Hq)]; [|eauto]. exfalso.
        apply (or_ses _ Hord s x H). rewrite Hu. exact Et.
    + destruct (g_clis g c) as [|o|] eqn:Ec; try (destruct Hs0 as (? & ? & ? & ? & ? & ? & Hx & _); discriminate).
      eexists _, _. split; [intros _; reflexivity|]. constructor; cbn; auto.
      intros d o' st' H Hs. apply put_live in H as [(-> & ->)|(Hn & H)]; eauto.
    + destruct (g_clis g c) as [|o|] eqn:Ec; destruct (g_clis g c') as [|o'|] eqn:Ec'; try contradiction;
        try (destruct Hs0 as (? & ? & ? & ? & ? & ? & Hx & _); discriminate).
      eexists _, _. split; [intros _; reflexivity|]. constructor; cbn; auto.
      intros d o' st' H Hs. apply put_live in H as [(-> & ->)|(Hn & H)]; [eauto|]. apply put_live in H as [(-> & ->)|(Hn' & H)]; [discriminate|eauto].
    + destruct (g_clis g c) as [|o|] eqn:Ec; destruct (g_clis g c') as [|o'|] eqn:Ec'; try contradiction;
        try (destruct Hs0 as (? & ? & ? & ? & ? & ? & Hx & _); discriminate).
      destruct (Nat.eqb c c'); [exists RNone, g; auto|].
      eexists _, _. split; [intros _; reflexivity|]. constructor; cbn; auto.
      * intros u q H. apply drop_live in H. eauto.
      * intros d o2 st' H Hs. apply put_live in H as [(-> & ->)|(Hn & H)]; [eauto|]. apply put_live in H as [(-> & ->)|(Hn' & H)]; [discriminate|eauto].
      * intros s x q H Hq. apply drop_live in Hq. eauto.
    + destruct (g_clis g c) as [|o|] eqn:Ec; try (destruct Hs0 as (? & ? & ? & ? & ? & ? & Hx & _); discriminate).
      eexists _, _. split; [intros _; reflexivity|]. constructor; cbn; auto.
      * intros u q H. apply drop_live in H. eauto.
      * intros d o2 st' H Hs. apply put_dead_live in H. eauto.
      * intros s x q H Hq. apply drop_live in Hq. eauto.
    + destruct (g_ses g s) as [|x|] eqn:Es; try contradiction.
      destruct (g_clis g c) as [|[[st|] [t|] f]|] eqn:Ec; try (destruct Hs0 as (? & ? & ? & ? & ? & ? & Hx & _); discriminate).
      destruct (g_trees g t) as [|r|] eqn:Et; try (destruct Hs0 as (? & ? & ? & ? & ? & ? & Hx & _); discriminate).
      eexists _, _. split; [intros _; reflexivity|].
      pose proof (F1 _ _ Et) as (D1 & D2 & D3 & D4 & D5 & D6).
      pose proof (F2 _ _ st Ec eq_refl) as Hst. rewrite Forall_forall in Hst.
      destruct (open_healthy E R size s (t_root r) (t_next r) st (g_trace g) Hd D1 D2 D3 D4 D5) as ((_ & Hl & _ & _ & Hre & Hb1 & Hb2) & _).
      { apply Forall_forall. intros l Hl. apply Hst. exact Hl. }
      { intros l Hl. apply Hst. exact Hl. }
      constructor; cbn [set_ses g_clis g_trees g_ses]; auto.
      * intros s' x q H Hq. apply put_live in H as [(-> & ->)|(Hn & H)]; [|eauto]. cbn [s_tree s_cur] in *. rewrite Et in Hq. injection Hq as <-.
        apply live_spec in Hl. exact Hl.
      * intros s' x H. apply put_live in H as [(-> & ->)|(Hn & H)]; [|eauto]. exists size. split; [exact Hd|]. split; [exact Hre|].
        apply Forall_forall. intros l Hl'. apply Hst. cbn [s_hist] in Hl'. cbn in Hl'. rewrite load_buf in Hl' by (cbn; lia). cbn in Hl'. rewrite app_nil_r in Hl'.
        apply in_rev. rewrite <- (firstn_skipn size). apply in_or_app. left. exact Hl'.
      * intros s' H. destruct (F5 s' H) as (B1 & B2). assert (Hn : s' <> s) by congruence. rewrite put_other by exact Hn. auto.
    + destruct (g_ses g s) as [|x|] eqn:Es; try (destruct Hs0 as (? & ? & ? & ? & ? & ? & Hx & _); discriminate).
      eexists _, _. split; [intros _; reflexivity|]. constructor; cbn; auto.
      * intros s' x' q H Hq. apply put_live in H as [(-> & ->)|(Hn & H)]; [|eauto]. cbn in *. eauto.
      * intros s' x' H. apply put_live in H as [(-> & ->)|(Hn & H)]; [|eauto]. exact (F4 s x Es).
      * intros s' H. destruct (F5 s' H) as (B1 & B2). split; [unfold put; destruct (Nat.eqb s' s); [discriminate|exact B1]|].
        intros x' Hx. apply put_live in Hx as [(-> & ->)|(Hn & Hx)]; [exact (B2 x Es)|eauto].
    + destruct (g_ses g s) as [|x|] eqn:Es; try (destruct Hs0 as (? & ? & ? & ? & ? & ? & Hx & _); discriminate).
      eexists _, _. split; [intros _; reflexivity|]. constructor; cbn; auto.
      * intros s' x' q H Hq. apply put_dead_live in H. eauto.
      * intros s' x' H. apply put_dead_live in H. eauto.
      * intros s' H. destruct (F5 s' H) as (B1 & B2). split; [unfold put; destruct (Nat.eqb s' s); [discriminate|exact B1]|].
        intros x' Hx. apply put_dead_live in Hx. eauto.
    + unfold menu_op in *. destruct (g_trees g t) as [|r|] eqn:Et.
      * destruct o; destruct Hs0 as (? & ? & ? & ? & ? & ? & Hx & _); discriminate.
      * destruct o as [id|id|id|pid c].
        -- eexists _, _. split; [intros _; reflexivity|].
           destruct (decent_tree_op r (OEnable id) (conj Logic.I Logic.I) (F1 _ _ Et)) as (T1 & T2). exact (menu_fine fed g t r _ Hf Et T1 T2).
        -- eexists _, _. split; [intros _; reflexivity|].
           destruct (decent_tree_op r (ODisable id) (conj Logic.I Logic.I) (F1 _ _ Et)) as (T1 & T2). exact (menu_fine fed g t r _ Hf Et T1 T2).
        -- eexists _, _. split; [intros _; reflexivity|].
           destruct (decent_tree_op r (ORemove id) (conj Hd Logic.I) (F1 _ _ Et)) as (T1 & T2). exact (menu_fine fed g t r _ Hf Et T1 T2).
        -- destruct (decent_tree_op r (OInsert pid c) Hd (F1 _ _ Et)) as (T1 & T2). cbn in T1, T2.
           destruct (relabel (t_next r) c) as (c1 & n1) eqn:Er. cbn in T1, T2.
           eexists _, _. split; [intros _; reflexivity|]. exact (menu_fine fed g t r _ Hf Et T1 T2).
      * destruct o; try (exists RNone, g; split; [intros _; reflexivity|exact Hf]). destruct Hs0 as (? & ? & ? & ? & ? & ? & Hx & _); discriminate.
Qed.
Lemma run_fine os : forall fed v g v', ordered g -> agree v g -> v_run os v = Some v' -> fine_prog fed g -> decent E R fed os ->
  exists F rs g', forall fuel, F <= fuel -> run fuel os g = LEnd rs g'.
Proof.
  induction os as [|o os IH]; intros fed v g v' Hord A Hv Hf Hd; cbn [v_run decent] in *; [exists 0, [], g; reflexivity|].
  destruct (v_step v o) as [v1|] eqn:Ev; [|discriminate]. destruct Hd as (Hd1 & Hd2).
  destruct (step_fine fed v g o v1 Hord A Ev Hf Hd1) as (F1 & r & g1 & H1 & A1 & Hf1).
  assert (Hord1 : ordered g1) by (eapply (ordered_step E fn F1); [exact Hord|apply H1; reflexivity]).
  destruct (IH _ v1 g1 v' Hord1 A1 Hv Hf1 Hd2) as (F2 & rs & g2 & H2).
  exists (Nat.max F1 F2), (r :: rs), g2. intros fuel Hfu. cbn [l_run]. rewrite (H1 fuel) by lia. rewrite (H2 fuel) by lia. reflexivity.
Qed.
Lemma obeying_runs os : obeys os -> decent E R (fun _ => False) os -> exists F rs g', forall fuel, F <= fuel -> run fuel os g_init = LEnd rs g'.
Proof.
  intros Ho Hd. unfold obeys in Ho. destruct (v_run os v_init) as [v'|] eqn:Ev; [|congruence].
  eapply run_fine; [apply ordered_init|apply agree_init|exact Ev| |exact Hd].
  constructor; cbn; try discriminate. intros s [].
Qed.
End Programs.
