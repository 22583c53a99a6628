(** * Proofs: interactive sessions do not run into undefined behaviour (C58) *)

From Verif Require Import Base FromStringModel HistoryModel HistorySpec HistoryProofs PrefixSpec PrefixProofs TerminalModel TerminalSpec TerminalProofs
  MenuModel SessionModel ResolveSpec SessionSpec TreeProofs SessionProofs InvariantProofs FeatureProofs SafetyProofs
  CompletionModel CompletionSpec CompletionProofs ProcessorModel ProcessorSpec ProcessorProofs DisplayProofs.
Open Scope nat_scope.
Open Scope list_scope.

Section Safe.
Context (E : env) (R : nat -> Prop) (size : nat) (Hsz : size >= 1) (Ht : tame E R) (Hlc : legible_code E).

(** ** Characters *)
Definition lchar (c : ascii) : Prop := legible E [c].
Lemma legible_iff s : legible E s <-> Forall lchar s.
Proof.
  unfold lchar, legible. split.
  - intros [H|H]; apply Forall_forall; intros c Hc; [left; exact H|]. right. constructor; [|constructor]. rewrite Forall_forall in H. auto.
  - intros H. destruct (char_signed (e_plat E)); [right|left; reflexivity]. eapply Forall_impl; [|exact H].
    cbn. intros c [Hc|Hc]; [discriminate|]. inversion Hc; assumption.
Qed.
Lemma lchar_low c : (N_of_ascii c < 128)%N -> lchar c.
Proof. intros H. right. constructor; [exact H|constructor]. Qed.

(** ** Histories *)
Lemma used_previous h line s h' : reachable size h -> previous h line = Some (s, h') -> hused h -> hused h'.
Proof.
  intros Hr Hp Hu. destruct (reachable_inv size h Hsz Hr) as (I & M). unfold hused, committed in *.
  destruct (h_browse h) eqn:B.
  - destruct (previous_browse h line I B) as (h1 & s1 & E1 & _ & L & _ & B1 & _ & _ & O & _).
    rewrite Hp in E1. injection E1 as <- <-. rewrite B1, O. destruct Hu as [Hu|Hu]; [left|right; exact Hu].
    intros Hx. apply Hu. destruct (h_buf h) as [|x [|y b]]; try reflexivity. exfalso.
    destruct (h_buf h') as [|x' [|y' b']]; cbn in L; try discriminate. cbn in Hx. apply app_eq_nil in Hx as (_ & Hx). discriminate.
  - destruct (previous_insert h line I B ltac:(lia)) as (h1 & s1 & E1 & Hb & _ & B1 & M1 & _ & O & _ & V).
    rewrite Hp in E1. injection E1 as <- <-. rewrite B1. destruct Hu as [Hu|Hu]; [|right; lia].
    assert (Hne : h_buf h <> []) by (intros Hx; rewrite Hx in Hu; apply Hu; reflexivity).
    destruct (h_buf h) as [|x b] eqn:Hbuf; [congruence|]. destruct (Nat.eq_dec (h_max h) 1) as [Hm|Hm].
    + right. pose proof (inv_bound h I) as Hbd. rewrite Hbuf in Hbd. destruct b; [|cbn in Hbd; lia].
      pose proof (inv_oldest h I).
      assert (Hv : view h' = [(next_id h, line)]).
      { rewrite V, Hm. unfold view. rewrite Hbuf. reflexivity. }
      unfold view in Hv. rewrite Hb, Hm in Hv. cbn in Hv. injection Hv as Hv. unfold next_id in Hv. rewrite Hbuf in Hv. cbn in Hv. lia.
    + left. rewrite Hb. destruct (h_max h) as [|[|m]]; [lia|lia|]. cbn. intros Hx. apply app_eq_nil in Hx as (_ & Hx). discriminate.
Qed.
Lemma used_next h s h' : reachable size h -> next h = Some (s, h') -> hused h -> hused h'.
Proof.
  intros Hr Hn. destruct (reachable_inv size h Hsz Hr) as (I & _).
  destruct (next_inv h I) as (h1 & s1 & E1 & _ & _ & Hb & B & O & _). rewrite Hn in E1. injection E1 as <- <-.
  unfold hused, committed. rewrite Hb, B, O. auto.
Qed.

(** ** Worlds *)
Definition fit (w : world) : Prop := healthy E R size w /\ every (legible_name E) (w_root w).
Definition fine (p : proc) : Prop :=
  fit (p_world p) /\ (exists e, holds (p_term p) e) /\ legible E (tm_line (p_term p)).
Lemma fine_iff p : fine p <-> healthy_proc E R size p.
Proof. unfold fine, fit, healthy_proc. tauto. Qed.

Lemma texts_legible : texts_only (legible_name E).
Proof.
  split; [|split].
  - intros i n e d p pd h i' e' (H & H0). split; [exact H|]. intros (? & ? & ? & ? & ? & ? & Hm). discriminate.
  - intros i n e d pd h i' e' (H & H0). split; [exact H|]. intros (? & ? & ? & ? & ? & ? & Hm). discriminate.
  - intros i n e d p ks i' e' ks' (H & H0). split; [exact H|]. intros _. apply H0. repeat eexists.
Qed.
Lemma legible_root_op w o : legible_op E o -> every (legible_name E) (w_root w) -> every (legible_name E) (w_root (apply_op w o)).
Proof.
  intros Ho. apply every_op; [exact texts_legible|]. intros pid c ->. exact Ho.
Qed.
Lemma fit_only w w' : only_printed w w' -> fit w -> fit w'.
Proof.
  intros (R1 & N1 & _ & _ & C1 & H1 & _) ((A & B & C & D & F & G & I) & J).
  unfold fit, healthy, sound, live, in_menu, removable, no_recalls in *. rewrite R1, N1, C1, H1. tauto.
Qed.
Lemma fit_set_hist w h : fit w -> reachable size h -> Forall (legible E) (h_buf h) -> (forall s, In s (h_buf h) -> ~ recall E s) -> fit (set_hist h w).
Proof. intros ((A & B & C & D & _) & J) H1 H2 H3. repeat (split; try assumption). Qed.
Lemma fit_log e w : fit w -> fit (log e w).
Proof. intros H. exact H. Qed.

Lemma legible_feed fuel line w : every (legible_name E) (w_root w) -> f_inv (fun w' => every (legible_name E) (w_root w')) (feed E fuel line w).
Proof.
  apply (feed_inv E (fun w => every (legible_name E) (w_root w)) (legible_op E)); try (intros; assumption).
  intros w0 o. apply legible_root_op.
Qed.
Lemma fit_feed line w : fit w -> legible E line -> (recall E line -> used w) ->
  exists r, (forall fuel, 2 <= fuel -> feed E fuel line w = r) /\ f_safe (fun w' => fit w' /\ (used w -> used w')) r.
Proof.
  intros (H & J) Hl Hu. exists (feed E 2 line w). split.
  - intros [|[|fuel]] Hf; try lia. apply feed_twice, H.
  - destruct (feed_safe E R size line w Hsz Ht H Hl Hu 0) as (Hs & _). pose proof (legible_feed 2 line w J) as Hj.
    unfold f_safe, f_inv, fit in *. destruct (feed E 2 line w); tauto.
Qed.

Lemma fit_exit w : fit w -> match session_exit E w with HOk w' | HExc _ w' => fit w' /\ (used w -> used w') | _ => False end.
Proof.
  intros H. assert (H0 := H). destruct H0 as ((A & B & C & D & F & G & I) & J).
  assert (Hg : guarded R w) by (apply removable_guarded; auto).
  set (P := fun w' : world => sound w' /\ guarded R w' /\ user_tree (w_root w') /\ w_hist w' = w_hist w /\ every (legible_name E) (w_root w')).
  assert (HP : h_inv P (session_exit E w)).
  { apply (exit_inv E P (fun o => tame_op R o /\ legible_op E o)).
    - destruct Ht as (Ht1 & Ht2 & _), Hlc as (L1 & L2).
      split; intros; apply Forall_forall; intros o Ho; split.
      + specialize (Ht1 sid h args tr). rewrite Forall_forall in Ht1. auto.
      + specialize (L1 sid h args tr). rewrite Forall_forall in L1. auto.
      + specialize (Ht2 sid k args tr). rewrite Forall_forall in Ht2. auto.
      + specialize (L2 sid k args tr). rewrite Forall_forall in L2. auto.
    - intros e w0 H0. exact H0.
    - intros w0 o (O1 & O2) (P1 & P2 & P3 & P4 & P5). split; [apply sound_op; exact P1|].
      split; [apply guarded_op; [apply tame_guard; exact O1|exact P2]|].
      split; [eapply user_op; eassumption|]. split; [destruct (apply_op_same w0 o) as (_ & _ & _ & -> & _); exact P4|].
      apply legible_root_op; assumption.
    - intros cmds w0 H0 _. exact H0.
    - intros w0 H0 _. exact H0.
    - unfold P. auto. }
  assert (Hok : session_exit E w <> HUB /\ session_exit E w <> HFuel).
  { destruct (exit_cases E size w Hsz F) as [(_ & ->)|[(w1 & x & _ & ->)|[(w1 & w2 & x & _ & _ & ->)|(w1 & w2 & _ & _ & ->)]]]; split; discriminate. }
  assert (Hfit : forall w', P w' -> fit w' /\ (used w -> used w')).
  { intros w' (P1 & P2 & P3 & P4 & P5). apply removable_guarded in P2 as (P2 & P2').
    unfold fit, healthy, no_recalls, used. rewrite P4. tauto. }
  unfold h_inv in HP. destruct (session_exit E w); try apply Hfit, HP; tauto.
Qed.

Lemma fit_pairs w : fit w -> no_empty_pair (w_root w).
Proof.
  intros (_ & J) k p anc Hc Hk _. pose proof (every_chain _ _ _ J Hc) as Hf. inversion Hf as [|? ? H1 _]; subst.
  apply every_here in H1. destruct H1 as (_ & H1). apply H1; [|exact Hk]. pose proof (proj1 (chain_menus _ _ Hc)) as Hm. inversion Hm; subst; assumption.
Qed.
Lemma fit_completions line w : fit w -> legible E line ->
  exists l, (forall fuel, 2 * length line + 2 <= fuel -> get_completions (e_plat E) fuel line w = GOk l) /\ Forall (legible E) l.
Proof.
  intros H Hl. destruct (completions_total (e_plat E) line w) as (l & Hg).
  - apply legible_ctype. exact Hl.
  - apply H.
  - apply H.
  - apply fit_pairs. exact H.
  - exists l. split; [exact Hg|]. apply Forall_forall. intros c Hc. apply (completions_sound _ _ _ _ _ (Hg _ (le_n _))) in Hc.
    apply legible_iff. revert Hc. apply offered_chars.
    + apply lchar_low. cbn. lia.
    + apply lchar_low. cbn. lia.
    + repeat (apply Forall_cons; [repeat (apply Forall_cons; [apply lchar_low; cbn; lia|]); apply Forall_nil|]). apply Forall_nil.
    + eapply every_impl; [|apply H]. intros k (Hk & _). apply legible_iff. exact Hk.
Qed.

(** ** Keys *)
Lemma prompt_fine tty color p : fit (p_world p) ->
  exists p', p_prompt tty color p = POk p' /\ only_printed (p_world p) (p_world p') /\
    tm_line (p_term p') = tm_line (p_term p) /\ tm_pos (p_term p') = tm_pos (p_term p).
Proof.
  intros H. assert (Hp : exists x, prompt tty color (tm_force (p_term p)) (p_world p) = Some x).
  { unfold prompt. destruct (w_exit (p_world p)); [eauto|]. destruct H as ((_ & B & _) & _).
    assert (Hx : exists x, prompt_text (p_world p) = Some x).
    { unfold prompt_text. apply live_spec, (menu_ids_locate _ []) in B as (ctx & B). rewrite B.
      apply locate_in_menu in B as (Hc & m & anc & -> & _). apply chain_menus in Hc as (Hc & _). inversion Hc as [|? ? (? & ? & ? & ? & ? & ? & ->) _]; subst. eauto. }
    destruct Hx as (x & ->). destruct (before_prompt color _). eauto. }
  destruct Hp as ((b & force) & Hp). unfold p_prompt. rewrite Hp. eexists. split; [reflexivity|].
  split; [apply only_printed_out|]. split; reflexivity.
Qed.
Lemma used_only w w' : only_printed w w' -> used w -> used w'.
Proof. intros (_ & _ & _ & _ & _ & H & _). unfold used. rewrite H. auto. Qed.

Definition keeps (w : world) (p : proc) : Prop := fine p /\ (used w -> used (p_world p)).
Lemma set_line_fine tty color s p w : fit (p_world p) -> (used w -> used (p_world p)) -> legible E s -> keeps w (p_set_line tty color s p).
Proof.
  intros H Hu Hs. destruct (p_set_line_world tty color s p) as (b & t & -> & Hb). cbn [p_term p_world].
  pose proof (set_line_holds tty color s (p_term p)) as Hh. rewrite Hb in Hh. cbn in Hh.
  split; [|exact Hu]. split; [exact H|]. split; [eauto|]. cbn [p_term]. destruct Hh as (-> & _).
  unfold ed_text. cbn. rewrite rev_involutive, app_nil_r. exact Hs.
Qed.
Lemma reprint_fine tty color s p w : fine p -> (used w -> used (p_world p)) ->
  p_safe (keeps w) (p_bind (p_prompt tty color (p_out s p)) (fun p1 => POk (p_set_line tty color (get_line (p_term p)) (p_reset_cursor p1)))).
Proof.
  intros (H1 & H2 & H3) Hu. destruct (prompt_fine tty color (p_out s p)) as (p' & -> & Ho & _ & _); [exact H1|]. cbn [p_bind p_safe].
  apply set_line_fine; cbn [p_reset_cursor p_world].
  - eapply fit_only; [exact Ho|]. exact H1.
  - intros Hw. eapply used_only; [exact Ho|]. apply Hu. exact Hw.
  - exact H3.
Qed.

Lemma legible_nil : legible E [].
Proof. apply legible_iff. constructor. Qed.
Lemma legible_app a b : legible E (a ++ b) <-> legible E a /\ legible E b.
Proof. rewrite !legible_iff. apply Forall_app. Qed.
Lemma legible_ed k e : legible_key E k -> legible E (ed_text e) -> legible E (ed_text (ed_key k e)).
Proof.
  intros Hk. unfold ed_text at 1. rewrite !legible_iff, Forall_app. intros (Hb & Ha).
  apply Forall_rev in Hb. rewrite rev_involutive in Hb.
  assert (H : forall e', Forall lchar (TerminalSpec.before e') /\ Forall lchar (after e') -> Forall lchar (ed_text e')).
  { intros e' (H1 & H2). apply Forall_app. split; [apply Forall_rev|]; assumption. }
  apply H. assert (Ht0 := H e (conj Hb Ha)). destruct e as [b a]. cbn [TerminalSpec.before after] in *.
  destruct k as [c| | | | | | | | | | | |]; cbn [ed_key TerminalSpec.before after]; auto.
  - destruct (Ascii.eqb c "009"); cbn; auto.
  - destruct b; [auto|]. inversion Hb; subst. cbn. auto.
  - destruct a; [auto|]. inversion Ha; subst. cbn. auto.
  - split; [|exact Ha]. destruct b; [constructor|]. inversion Hb; assumption.
  - split; [exact Hb|]. destruct a; [constructor|]. inversion Ha; assumption.
  - split; [apply Forall_rev; exact Ht0|constructor].
Qed.

Lemma press_fine tty k p : fine p -> legible_key E (ks_key k) ->
  (recall E (tm_line (p_term p)) -> ks_key k <> KUp /\ (ks_key k = KRet -> used (p_world p))) ->
  exists F r, (forall fuel, F <= fuel -> press E fuel tty k p = r) /\ p_safe (keeps (p_world p)) r.
Proof.
  intros (H1 & (e & He) & H3) Hk Hcare.
  assert (Htext := proj1 He). rewrite Htext in H3, Hcare.
  destruct (keypressed_spec tty (ks_color k) (ks_key k) (p_term p) e He) as (t & Hkp & Ht1 & _).
  assert (Hpress : forall fuel, press E fuel tty k p = process E fuel tty (ks_color' k) (key_symbol (ks_key k) (ed_text e))
    (p_out (key_out tty (ks_color k) (tm_force (p_term p)) (ks_key k) e) (mkProc (p_world p) t))) by (intros fuel; unfold press; rewrite Hkp; reflexivity).
  set (p1 := p_out _ _) in Hpress.
  assert (Hl1 : legible E (ed_text (ed_key (ks_key k) e))) by (apply legible_ed; assumption).
  assert (Hline : get_line (p_term p1) = ed_text (ed_key (ks_key k) e)) by apply Ht1.
  assert (Hf1 : fine p1).
  { split; [exact H1|]. split; [exists (ed_key (ks_key k) e); exact Ht1|]. unfold get_line in Hline. rewrite Hline. exact Hl1. }
  assert (Hu1 : used (p_world p) -> used (p_world p1)) by (intros Hu; exact Hu).
  destruct H1 as (HH & HJ). assert (HH' := HH). destruct HH' as (A & B & C & D & F & G & I).
  destruct (key_symbol (ks_key k) (ed_text e)) as [|c| | | | |] eqn:Hsy; unfold process in Hpress.
  - exists 0, (POk p1). split; [intros fuel _; apply Hpress|split; assumption].
  - assert (Hkr : ks_key k = KRet /\ c = ed_text e).
    { destruct (ks_key k) as [c0| | | | | | | | | | | |]; try discriminate Hsy; [cbn in Hsy; destruct (Ascii.eqb c0 "009"); discriminate|]. injection Hsy as <-. auto. }
    destruct Hkr as (Hkr & ->).
    destruct (fit_feed (ed_text e) (p_world (p_log (EvInput (w_sid (p_world p1)) false) p1))) as (r & Hr & Hs);
      [exact (conj HH HJ)|exact H3|intros Hrec; apply (proj2 (Hcare Hrec) Hkr)|].
    exists 2. eexists. split; [intros fuel Hfu; rewrite Hpress, (Hr fuel Hfu); reflexivity|].
    assert (Ht2 : exists e, holds t e) by eauto.
    rewrite Hkr in Hline. unfold get_line in Hline. cbn [p_log p_term] in Hline.
    assert (Hl2 : legible E (tm_line t)) by (cbn in Hline; rewrite Hline; apply legible_nil).
    destruct r as [w2|x w2| |]; cbn [f_safe] in Hs; try contradiction; cbn [of_fres p_bind p_log p_term].
    + destruct (prompt_fine tty (ks_color' k) (mkProc w2 t)) as (p3 & Hp3 & Ho & L3 & P3); [apply Hs|]. 
      change (p_term p1) with t. rewrite Hp3. cbn [p_bind p_safe]. split.
      * split; [apply fit_log; eapply fit_only; [exact Ho|apply Hs]|]. cbn [p_log p_term].
        split; [|rewrite L3; exact Hl2]. destruct Ht2 as (e2 & E1 & E2). exists e2. cbn [p_term] in L3, P3. split; [rewrite L3|rewrite P3]; assumption.
      * intros Hu. apply (used_only _ _ Ho), Hs. exact Hu.
    + cbn [p_safe]. split; [|apply Hs]. split; [apply Hs|]. split; assumption.
  - assert (Hku : ks_key k = KUp).
    { destruct (ks_key k) as [c0| | | | | | | | | | | |]; try discriminate Hsy; [cbn in Hsy; destruct (Ascii.eqb c0 "009"); discriminate|reflexivity]. }
    assert (Hnr : ~ recall E (ed_text e)) by (intros Hx; apply (proj1 (Hcare Hx)); exact Hku).
    rewrite Hku in Hline, Hl1. cbn [ed_key] in Hline, Hl1.
    destruct (reachable_inv size _ Hsz F) as (HI & HM).
    destruct (previous_inv (w_hist (p_world p1)) (ed_text e) HI (eq_ind_r (fun n => n >= 1) Hsz HM)) as (h & s & Hpv & _).
    exists 0, (POk (p_set_line tty (ks_color' k) s (mkProc (set_hist h (p_world p1)) (p_term p1)))). split.
    { intros fuel _. rewrite Hpress, Hline. unfold previous_cmd. rewrite Hpv. reflexivity. }
    cbn [p_safe]. destruct (previous_all (legible E) _ _ _ _ G H3 Hpv) as (Hs & Hh).
    destruct (previous_all (fun s => ~ recall E s) (w_hist (p_world p1)) (ed_text e) s h) as (_ & Hn); [|exact Hnr|exact Hpv|].
    { apply Forall_forall. exact I. }
    apply set_line_fine; [|intros Hu; exact (used_previous _ _ _ _ F Hpv Hu)|exact Hs].
    apply fit_set_hist; [exact (conj HH HJ)| |exact Hh|rewrite Forall_forall in Hn; exact Hn].
    eapply (reachable_step size _ (OUp (ed_text e))); [exact F|]. cbn [hstep]. change (w_hist (p_world p1)) with (w_hist (p_world p)) in Hpv. rewrite Hpv. reflexivity.
  - destruct (reachable_inv size _ Hsz F) as (HI & HM).
    destruct (next_inv (w_hist (p_world p1)) HI) as (h & s & Hpv & _).
    exists 0, (POk (p_set_line tty (ks_color' k) s (mkProc (set_hist h (p_world p1)) (p_term p1)))). split.
    { intros fuel _. rewrite Hpress. unfold next_cmd. rewrite Hpv. reflexivity. }
    cbn [p_safe]. destruct (next_all (legible E) _ _ _ G legible_nil Hpv) as (Hs & Hh).
    assert (Hn : forall x, In x (h_buf h) -> ~ recall E x).
    { pose proof (next_inv (w_hist (p_world p1)) HI) as (h' & s' & Hpv' & _ & _ & Hb & _). rewrite Hpv in Hpv'. injection Hpv' as <- <-.
      rewrite Hb. exact I. }
    apply set_line_fine; [|intros Hu; exact (used_next _ _ _ F Hpv Hu)|exact Hs].
    apply fit_set_hist; [exact (conj HH HJ)| |exact Hh|exact Hn].
    eapply (reachable_step size _ ODown); [exact F|]. cbn [hstep]. change (w_hist (p_world p1)) with (w_hist (p_world p)) in Hpv. rewrite Hpv. reflexivity.
  - rewrite Hline in Hpress. destruct (fit_completions (ed_text (ed_key (ks_key k) e)) (p_world p1) (proj1 Hf1) Hl1) as (l & Hg & Hl).
    exists (2 * length (ed_text (ed_key (ks_key k) e)) + 2). eexists. split; [intros fuel Hfu; rewrite Hpress, (Hg fuel Hfu); reflexivity|].
    destruct l as [|c [|c' l]].
    + split; assumption.
    + apply set_line_fine; [apply Hf1|exact Hu1|]. inversion Hl; subst. apply legible_app. split; [assumption|].
      apply legible_iff. constructor; [apply lchar_low; cbn; lia|constructor].
    + destruct (common_prefix_spec (c :: c' :: l)) as (pre & Hpre & (Hpall & _)); [discriminate|]. rewrite Hpre.
      destruct (Nat.ltb _ _).
      * apply set_line_fine; [apply Hf1|exact Hu1|]. inversion Hl as [|? ? Hc _]; subst. destruct (Hpall c (or_introl eq_refl)) as (q & ->).
        apply legible_app in Hc. tauto.
      * rewrite <- Hline. apply reprint_fine; assumption.
  - pose proof (fit_exit (p_world p1) (proj1 Hf1)) as Hx. exists 0. eexists. split; [intros fuel _; apply Hpress|].
    destruct (session_exit E (p_world p1)); cbn [of_hres p_safe]; try contradiction; (split; [|apply Hx]); (split; [apply Hx|apply Hf1]).
  - exists 0. eexists. split; [intros fuel _; apply Hpress|]. apply reprint_fine; assumption.
Qed.

Lemma presses_fine tty ks : forall p, fine p -> Forall (fun k => legible_key E (ks_key k)) ks ->
  exists F, forall fuel, F <= fuel -> careful E fuel tty ks p -> p_safe (keeps (p_world p)) (presses E fuel tty ks p).
Proof.
  induction ks as [|k ks IH]; intros p Hp Hks.
  - exists 0. intros fuel _ _. split; auto.
  - inversion Hks as [|? ? Hk Hks']; subst.
    assert (Hd : (recall E (tm_line (p_term p)) /\ ks_key k = KUp) \/ ~ (recall E (tm_line (p_term p)) /\ ks_key k = KUp)).
    { destruct (recall_dec E (tm_line (p_term p))); [|tauto]. destruct (key_dec (ks_key k) KUp); tauto. }
    assert (Hd2 : (recall E (tm_line (p_term p)) -> ks_key k <> KUp /\ (ks_key k = KRet -> used (p_world p))) \/
      ~ (recall E (tm_line (p_term p)) -> ks_key k <> KUp /\ (ks_key k = KRet -> used (p_world p)))).
    { assert (Hud : used (p_world p) \/ ~ used (p_world p)).
      { unfold used. destruct (committed (w_hist (p_world p))) eqn:Hc; [|left; left; discriminate].
        destruct (Z.lt_ge_cases 0 (h_oldest (w_hist (p_world p)))); [left; right; assumption|]. right. intros [Hx|Hx]; [congruence|lia]. }
      destruct (recall_dec E (tm_line (p_term p))); [|tauto].
      destruct (key_dec (ks_key k) KUp); [tauto|]. destruct (key_dec (ks_key k) KRet); tauto. }
    destruct Hd2 as [Hc|Hc]; [|exists 0; intros fuel _ (Hx & _); contradiction].
    destruct (press_fine tty k p Hp Hk Hc) as (F1 & r & Hr & Hs).
    destruct r as [p1|x p1| |]; cbn [p_safe] in Hs; try contradiction.
    + destruct (IH p1 (proj1 Hs) Hks') as (F2 & H2). exists (Nat.max F1 F2). intros fuel Hfu (_ & Hca).
      cbn [presses]. rewrite (Hr fuel) in Hca |- * by lia. cbn [p_bind].
      specialize (H2 fuel ltac:(lia) Hca). unfold p_safe, keeps in *.
      destruct (presses E fuel tty ks p1); tauto.
    + exists F1. intros fuel Hfu _. cbn [presses]. rewrite (Hr fuel Hfu). exact Hs.
Qed.

Lemma presses_healthy tty ks p : healthy_proc E R size p -> Forall (fun k => legible_key E (ks_key k)) ks ->
  exists F, forall fuel, F <= fuel -> careful E fuel tty ks p ->
    p_safe (fun p' => healthy_proc E R size p' /\ (used (p_world p) -> used (p_world p'))) (presses E fuel tty ks p).
Proof.
  intros Hp Hks. apply fine_iff in Hp. destruct (presses_fine tty ks p Hp Hks) as (F & H). exists F. intros fuel Hfu Hc.
  specialize (H fuel Hfu Hc). unfold keeps in H. unfold p_safe in *. destruct (presses E fuel tty ks p); rewrite <- ?fine_iff; exact H.
Qed.

End Safe.
