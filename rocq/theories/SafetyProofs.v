(** * Absence of undefined behaviour *)

From Verif Require Import Base SplitModel SplitSpec SplitProofs FromStringModel FromStringSpec FromStringProofs HistoryModel HistorySpec HistoryProofs StorageModel StorageSpec StorageProofs TerminalModel
  MenuModel SessionModel ResolveSpec ResolveProofs SessionSpec TreeProofs SessionProofs InvariantProofs FeatureProofs.
Open Scope nat_scope.
Open Scope list_scope.

(** ** The characters of the words come from the line *)
Lemma back_append_chars (P : ascii -> Prop) v x v' : Forall (Forall P) v -> Forall P x -> back_append v x = Some v' -> Forall (Forall P) v'.
Proof.
  unfold back_append. intros Hv Hx. destruct (rev v) as [|w r] eqn:Hr; [discriminate|]. intros H. injection H as <-.
  assert (Hwr : Forall (Forall P) (w :: r)) by (rewrite <- Hr; apply Forall_rev; exact Hv).
  inversion Hwr; subst. apply Forall_app. split; [apply Forall_rev; assumption|]. repeat constructor.
  apply Forall_app. split; assumption.
Qed.
Lemma eval_chars (P : ascii -> Prop) t c t' : P "\"%char -> P c -> Forall (Forall P) (t_res t) -> eval t c = Some t' -> Forall (Forall P) (t_res t').
Proof.
  intros Hb Hc Ht. unfold eval, eval_space, eval_word, eval_sentence, eval_escape, new_sentence.
  assert (H0 : Forall (Forall P) (t_res t ++ [[]])) by (apply Forall_app; split; [exact Ht|repeat constructor]).
  assert (H1 : Forall (Forall P) (t_res t ++ [[c]])) by (apply Forall_app; split; [exact Ht|repeat constructor; exact Hc]).
  assert (Ha : forall x t', Forall P x -> option_map (set_res t) (back_append (t_res t) x) = Some t' -> Forall (Forall P) (t_res t')).
  { intros x u Hx. destruct (back_append (t_res t) x) as [v|] eqn:Hv; [|discriminate]. cbn. intros H. injection H as <-. cbn.
    exact (back_append_chars P _ _ _ Ht Hx Hv). }
  destruct (t_state t).
  - repeat match goal with |- (if ?b then _ else _) = _ -> _ => destruct b end; intros H; injection H as <-; cbn; assumption.
  - repeat match goal with |- (if ?b then _ else _) = _ -> _ => destruct b end; try (intros H; injection H as <-; cbn; assumption).
    apply Ha. repeat constructor. exact Hc.
  - repeat match goal with |- (if ?b then _ else _) = _ -> _ => destruct b end; try (intros H; injection H as <-; cbn; assumption);
      apply Ha; repeat constructor; exact Hc.
  - cbn zeta. match goal with |- match back_append _ ?x with _ => _ end = _ -> _ => set (xx := x); assert (Hx : Forall P xx) by
      (unfold xx; destruct (_ && _); repeat constructor; assumption); destruct (back_append (t_res t) xx) as [v|] eqn:Hv; [|discriminate] end.
    intros H. injection H as <-. cbn. exact (back_append_chars P _ _ _ Ht Hx Hv).
Qed.
Lemma split_chars (P : ascii -> Prop) line toks : P "\"%char -> Forall P line -> split line = Some toks -> Forall (Forall P) toks.
Proof.
  intros Hb Hl. unfold split. destruct (run_text text_reset line) as [t|] eqn:Ht; [|discriminate]. intros H. injection H as <-.
  assert (Hres : Forall (Forall P) (t_res t)).
  { assert (Hg : forall l t0, Forall P l -> Forall (Forall P) (t_res t0) -> run_text t0 l = Some t -> Forall (Forall P) (t_res t)).
    { clear line Hl Ht. induction l as [|c l IH]; intros t0 Hl H0; cbn; [intros H; injection H as <-; exact H0|].
      inversion Hl; subst. destruct (eval t0 c) as [t1|] eqn:He; [|discriminate]. apply IH; [assumption|].
      eapply eval_chars; eassumption. }
    eapply Hg; [exact Hl| |exact Ht]. constructor. }
  unfold remove_empty. apply Forall_forall. intros x Hx. apply filter_In in Hx as (Hx & _). rewrite Forall_forall in Hres. auto.
Qed.

Lemma legible_words E line toks : legible E line -> split line = Some toks -> Forall (readable (e_plat E)) toks.
Proof.
  intros [H|H] Hs.
  - apply Forall_forall. intros x _. left. exact H.
  - apply Forall_forall. intros x Hx. right. apply (split_chars (fun c => (N_of_ascii c < 128)%N)) in Hs; [|reflexivity|exact H].
    rewrite Forall_forall in Hs. apply Hs. exact Hx.
Qed.
Lemma convert_defined E p s : strict (e_plat E) = false -> readable (e_plat E) s -> convert E p s <> CUB.
Proof.
  intros Hs Hr. destruct p as [t| | | |r|n]; cbn [convert].
  - pose proof (proj2 (int_types (e_plat E) t s Hr (or_introl Hs))) as H. destruct (int_from_string (e_plat E) t s); cbn; congruence.
  - pose proof (proj2 (bool_exact (e_plat E) s Hs (readable_safe _ _ Hr))) as H. destruct (bool_from_string (e_plat E) s); cbn; congruence.
  - unfold char_from_string. destruct s as [|c [|]]; discriminate.
  - discriminate.
  - pose proof (proj2 (float_exact _ (e_real E r) (e_plat E) s (readable_safe _ _ Hr))) as H.
    destruct (float_from_string (e_plat E) (e_real E r) s); cbn; congruence.
  - pose proof (custom_no_ub _ (e_custom E n) s) as H. destruct (custom_from_string (e_custom E n) s); cbn; congruence.
Qed.
Lemma convert_all_defined E : strict (e_plat E) = false -> forall ps ss, Forall (readable (e_plat E)) ss -> convert_all E ps ss <> CUB.
Proof.
  intros Hs. induction ps as [|p ps IH]; intros [|s ss] H; cbn [convert_all]; try discriminate.
  inversion H; subst. pose proof (convert_defined E p s Hs H2) as Hp. destruct (convert E p s); cbn; try congruence.
  specialize (IH ss H3). destruct (convert_all E ps ss); cbn; congruence.
Qed.

(** ** Readings of user menus run user functions, on words of the line *)
Definition user_target (t : target) : Prop :=
  match t with TRun h _ _ | TFree h _ => exists n, h = HUser n | TGoto _ => True end.
Definition target_args (t : target) : list str := match t with TRun _ _ a | TFree _ a => a | TGoto _ => [] end.

Lemma user_kids k m : user_tree m -> In k (cmd_kids m) -> user_tree k.
Proof.
  intros Hm. destruct m as [| |i n e d p ks]; cbn; try tauto. cbn in Hm. induction ks as [|x ks IH]; [intros []|].
  cbn in Hm. intros [->|H]; [tauto|]. apply IH; tauto.
Qed.
Lemma chain_user root ctx m : user_tree root -> chain root ctx -> In m ctx -> user_tree m.
Proof.
  intros Hr H. revert m. induction H as [H|k p anc H IH Hin Hk]; intros m Hm.
  - destruct Hm as [<-|[]]. exact Hr.
  - destruct Hm as [<-|Hm]; [|apply IH; exact Hm].
    eapply user_kids; [|exact Hin]. apply IH. left. reflexivity.
Qed.
Lemma reading_user ctx toks p t : reading ctx toks p t -> Forall user_tree ctx -> user_target t.
Proof.
  intros H. induction H as [m anc i id name desc pars pdesc h args He Hn Hl|m anc i id name desc pdesc h args He Hn|
       m anc i id name desc pr kids He Hn|m anc i sub id name en desc pr kids rest path t He Hn Hs Hr IH|
       m q anc id name desc pr kids word He Hp Hw|m q anc id name en desc pr kids word rest path t He Hp Hw Hr IH]; intros Hu; try exact Logic.I.
  - inversion Hu; subst. apply nth_error_In in Hn. apply user_kids in Hn; [exact Hn|assumption].
  - inversion Hu; subst. apply nth_error_In in Hn. apply user_kids in Hn; [exact Hn|assumption].
  - apply IH. constructor; [|exact Hu]. inversion Hu; subst. apply nth_error_In in Hn. apply user_kids in Hn; [exact Hn|assumption].
  - apply IH. inversion Hu; assumption.
Qed.
Lemma reading_args ctx toks p t : reading ctx toks p t -> incl (target_args t) toks.
Proof. intros H. induction H; cbn; try (apply incl_tl; apply incl_refl); try apply incl_nil_l; apply incl_tl; assumption. Qed.

(** ** Dispatch *)
Definition e_safe (w : world) (r : eres) : Prop :=
  r <> EUB /\ r <> EFuel /\ forall w', r = EDone false w' -> w' = w.

Lemma global_hooks_safe E size toks rec w : hooks_no_bad_cast E -> strict (e_plat E) = false -> toks <> [] -> Forall (readable (e_plat E)) toks -> size >= 1 -> reachable size (w_hist w) -> live w ->
  (forall a n, toks = [lit "!"; a] -> convert E (PInt UInt) a <> COk (VInt n)) ->
  e_safe w (attempts E (builtin E rec) (choices toks [global_menu]) w).
Proof.
  intros Hk Hs Hne Hr Hsz Hreach Hl Hn.
  assert (Hall : forall l, (forall p t, In (p, t) l -> reading [global_menu] toks p t) -> e_safe w (attempts E (builtin E rec) l w)).
  { induction l as [|(p, t) l IH]; intros Hin; cbn [attempts snd].
    { split; [discriminate|]. split; [discriminate|]. congruence. }
    assert (Ha : e_safe w (attempt E (builtin E rec) t w)).
    { specialize (Hin p t (or_introl eq_refl)).
      apply global_readings in Hin as [(_ & _ & ->)|[(_ & _ & ->)|[(_ & _ & ->)|(a & Ht & _ & ->)]]]; cbn [attempt convert_all].
      - cbn. unfold help_text. apply live_spec in Hl. apply (menu_ids_locate _ []) in Hl as (ctx & ->).
        split; [discriminate|]. split; [discriminate|]. intros; discriminate.
      - cbn. pose proof (session_exit_bad_cast E w) as Hb.
        destruct (exit_cases E size w Hsz Hreach) as [(_ & ->)|[(w1 & x & _ & Hx)|[(w1 & w2 & x & _ & _ & Hx)|(w1 & w2 & _ & _ & ->)]]].
        + split; [discriminate|]. split; [discriminate|]. intros; discriminate.
        + rewrite Hx in *. destruct x as [s|s|]; try (split; [discriminate|]; split; [discriminate|]; intros; discriminate).
          exfalso. exact (Hb s w1 Hk eq_refl).
        + rewrite Hx in *. destruct x as [s|s|]; try (split; [discriminate|]; split; [discriminate|]; intros; discriminate).
          exfalso. exact (Hb s w2 Hk eq_refl).
        + split; [discriminate|]. split; [discriminate|]. intros; discriminate.
      - cbn. rewrite (show_spec _ (inv_oldest _ (proj1 (reachable_inv size _ Hsz Hreach)))).
        split; [discriminate|]. split; [discriminate|]. intros; discriminate.
      - assert (Hra : readable (e_plat E) a) by (rewrite Forall_forall in Hr; apply Hr; rewrite Ht; right; left; reflexivity).
        pose proof (convert_defined E (PInt UInt) a Hs Hra) as Hd.
        destruct (convert E (PInt UInt) a) as [v| |] eqn:Hv; cbn [cbind cmap]; [| |congruence].
        + destruct (convert_uint _ _ _ Hv) as (n & ->). exfalso. eapply Hn; eassumption.
        + split; [discriminate|]. split; [discriminate|]. congruence. }
    destruct Ha as (A & B & C).
    destruct (attempt E (builtin E rec) t w) as [[] w1|x w1| |]; cbn [e_bind]; try congruence.
    + split; [discriminate|]. split; [discriminate|]. intros; discriminate.
    + rewrite (C w1 eq_refl). apply IH. intros p' t' H'. apply Hin. right. exact H'.
    + split; [discriminate|]. split; [discriminate|]. intros; discriminate. }
  apply Hall. intros p t Hin. apply in_choices in Hin; assumption.
Qed.

Section Safe.
Context (E : env) (R : nat -> Prop) (Htame : tame E R).

Lemma tame_parts : handlers_no_bad_cast E /\ hooks_no_bad_cast E /\ strict (e_plat E) = false.
Proof. unfold tame in Htame. tauto. Qed.

Lemma user_attempt_safe t w : user_target t -> Forall (readable (e_plat E)) (target_args t) -> e_safe w (attempt E no_builtin t w).
Proof.
  destruct tame_parts as (Hh & Hk & Hs). intros Hu Ha. destruct t as [h pars args|h args|id]; cbn [attempt target_args] in *.
  - pose proof (convert_all_defined E Hs pars args Ha) as Hc.
    destruct (convert_all E pars args) as [vs| |]; [|split; [discriminate|]; split; [discriminate|]; congruence|congruence].
    destruct Hu as (n & ->). cbn [run_fn]. unfold call_user. cbn zeta beta iota.
    match goal with |- context[ur_end (e_handler E ?a ?b ?c ?d)] => pose proof (Hh a b c d) as H; destruct (ur_end (e_handler E a b c d)) as [|[s|s|]] end;
      try (split; [discriminate|]; split; [discriminate|]; intros; discriminate).
    exfalso. exact (H s eq_refl).
  - destruct Hu as (n & ->). cbn [run_free]. unfold call_user. cbn zeta beta iota.
    dend; (split; [discriminate|]; split; [discriminate|]; intros; discriminate).
  - split; [discriminate|]; split; [discriminate|]; intros; discriminate.
Qed.
Lemma user_attempts_safe l : (forall p t, In (p, t) l -> user_target t /\ Forall (readable (e_plat E)) (target_args t)) ->
  forall w, e_safe w (attempts E no_builtin l w).
Proof.
  induction l as [|(p, t) l IH]; intros Hl w; cbn [attempts snd].
  - split; [discriminate|]. split; [discriminate|]. congruence.
  - destruct (Hl p t (or_introl eq_refl)) as (H1 & H2). destruct (user_attempt_safe t w H1 H2) as (A & B & C).
    destruct (attempt E no_builtin t w) as [[] w1|x w1| |]; cbn [e_bind]; try congruence.
    + split; [discriminate|]. split; [discriminate|]. intros; discriminate.
    + rewrite (C w1 eq_refl). apply IH. intros p' t' Hin. apply (Hl p' t'). right. exact Hin.
    + split; [discriminate|]. split; [discriminate|]. intros; discriminate.
Qed.

Lemma report_safe line x w : report E line x w <> FUB /\ report E line x w <> FFuel.
Proof.
  split; [|apply report_fuel]. destruct x; cbn [report]; try discriminate; (destruct (e_has E KExcept); [|discriminate]; cbn zeta; dend; discriminate).
Qed.

Lemma menus_safe toks line w : toks <> [] -> Forall (readable (e_plat E)) toks -> live w -> user_tree (w_root w) ->
  let r := finish E line
    match locate (w_cur w) [] (w_root w) with
    | None => EUB
    | Some ctx =>
        e_bind (scan E no_builtin toks ctx w) (fun w2 =>
        match wrong_command E line w2 with
        | HOk w3 => EDone false w3
        | HExc x w3 => EExc x w3
        | HUB => EUB
        | HFuel => EFuel
        end)
    end in
  r <> FUB /\ r <> FFuel.
Proof.
  intros Hne Hr Hl Hu. cbn zeta. apply live_spec in Hl. apply (menu_ids_locate _ []) in Hl as (ctx & Hloc). rewrite Hloc.
  apply locate_in_menu in Hloc as (Hc & _).
  rewrite scan_attempts by exact Hne.
  assert (Hs : e_safe w (attempts E no_builtin (choices toks ctx) w)).
  { apply user_attempts_safe. intros p t Hin. apply in_choices in Hin; [|exact Hne]. split.
    - eapply reading_user; [exact Hin|]. apply Forall_forall. intros m Hm. eapply chain_user; eassumption.
    - apply reading_args in Hin. apply Forall_forall. intros x Hx. rewrite Forall_forall in Hr. apply Hr. apply Hin. exact Hx. }
  destruct Hs as (A & B & C).
  destruct (attempts E no_builtin (choices toks ctx) w) as [[] w2|x w2| |]; cbn [e_bind finish]; try congruence.
  - split; discriminate.
  - unfold wrong_command. destruct (e_has E KWrong); [|split; discriminate]. rewrite hook_spec. cbn zeta.
    dend; [split; discriminate|]. cbn [finish]. apply report_safe.
  - apply report_safe.
Qed.

Lemma global_safe size toks rec w : toks <> [] -> Forall (readable (e_plat E)) toks -> size >= 1 -> reachable size (w_hist w) -> live w ->
  (forall a n, toks = [lit "!"; a] -> convert E (PInt UInt) a <> COk (VInt n)) ->
  e_safe w (attempts E (builtin E rec) (choices toks [global_menu]) w).
Proof. destruct tame_parts as (_ & Hk & Hs). intros. eapply global_hooks_safe; eassumption. Qed.

Lemma once_safe size line rec w : size >= 1 -> ~ recall E line -> legible E line -> reachable size (w_hist w) -> live w -> user_tree (w_root w) ->
  feed_body E rec line w <> FUB /\ feed_body E rec line w <> FFuel.
Proof.
  intros Hsz Hn Hl Hr Hlive Hu. destruct (split_safe line) as (toks & Hs & _). destruct toks as [|t toks].
  { unfold feed_body. rewrite Hs. split; discriminate. }
  destruct (reachable_inv size _ Hsz Hr) as (I & M).
  destruct (new_command_inv (w_hist w) line I ltac:(lia)) as (h & Hh & _).
  rewrite (feed_body_spec E _ line w (t :: toks) (set_hist h w)) by (split; [exact Hs|split; [discriminate|eauto]]).
  unfold dispatch. rewrite scan_attempts by discriminate.
  assert (Hrd : Forall (readable (e_plat E)) (t :: toks)) by (eapply legible_words; eassumption).
  destruct (global_safe size (t :: toks) rec (set_hist h w)) as (A & B & C); try assumption; try discriminate.
  - eapply (reachable_step size (w_hist w) (ONew line)); [exact Hr|exact Hh].
  - intros a n Ht Hc. apply Hn. exists a, n. split; [|exact Hc]. rewrite Hs, Ht. reflexivity.
  - destruct (attempts _ _ _ _) as [[] w1|x w1| |]; cbn [e_bind finish]; try congruence.
    + split; discriminate.
    + rewrite (C w1 eq_refl). apply (menus_safe (t :: toks) line (set_hist h w)); try assumption; discriminate.
    + apply report_safe.
Qed.
End Safe.

(** ** Invariants *)
Lemma user_tree_menu i n e d p ks : user_tree (CMenu i n e d p ks) <-> Forall user_tree ks.
Proof.
  cbn. induction ks as [|k ks IH]; cbn; [split; [constructor|auto]|]. rewrite IH. split.
  - intros (H1 & H2). constructor; assumption.
  - intros H. inversion H; auto.
Qed.
Lemma user_set_enabled id b c : user_tree c -> user_tree (set_enabled id b c).
Proof.
  induction c as [i n e d p pd h|i n e d pd h|i n e d p ks IH] using cmd_ind2; intros H; try exact H.
  cbn [set_enabled]. rewrite user_tree_menu in *. apply Forall_forall. intros k Hk. apply in_map_iff in Hk as (k0 & <- & Hk).
  rewrite Forall_forall in IH, H. auto.
Qed.
Lemma user_remove id c : user_tree c -> user_tree (remove_cmd id c).
Proof.
  induction c as [i n e d p pd h|i n e d pd h|i n e d p ks IH] using cmd_ind2; intros H; try exact H.
  rewrite remove_menu. rewrite user_tree_menu in *. induction IH as [|k l Hk Hl IHl]; [constructor|]. inversion H; subst. cbn.
  destruct (Nat.eqb (cmd_id k) id); [assumption|]. constructor; auto.
Qed.
Lemma user_relabel c : forall n, user_tree c -> user_tree (fst (relabel n c)).
Proof.
  induction c as [i nm e d p pd h|i nm e d pd h|i nm e d p ks IH] using cmd_ind2; intros n H; try exact H.
  rewrite relabel_menu. rewrite user_tree_menu in H.
  assert (Hl : forall m, Forall user_tree (fst (relabel_list m ks))).
  { induction IH as [|k l Hk Hl IHl]; intros m; [constructor|]. inversion H; subst. cbn. specialize (Hk m H2).
    destruct (relabel m k) as (k', m1). specialize (IHl H3 m1).
    destruct (relabel_list m1 l).
    constructor; assumption. }
  specialize (Hl (S n)). destruct (relabel_list (S n) ks). cbn [fst] in *. apply user_tree_menu. exact Hl.
Qed.
Lemma user_insert pid x c : user_tree x -> user_tree c -> user_tree (insert_cmd pid x c).
Proof.
  intros Hx. induction c as [i n e d p pd h|i n e d pd h|i n e d p ks IH] using cmd_ind2; intros H; try exact H.
  rewrite insert_menu. rewrite user_tree_menu in *.
  assert (Hm : Forall user_tree (map (insert_cmd pid x) ks)).
  { apply Forall_forall. intros k Hk. apply in_map_iff in Hk as (k0 & <- & Hk). rewrite Forall_forall in IH, H. auto. }
  destruct (Nat.eqb i pid); [|exact Hm]. apply Forall_app. split; [exact Hm|repeat constructor; exact Hx].
Qed.
Lemma user_op R w o : tame_op R o -> user_tree (w_root w) -> user_tree (w_root (apply_op w o)).
Proof.
  intros Ho H. destruct o as [s|s|id|id|id|pid c]; cbn; try exact H.
  - apply user_set_enabled. exact H.
  - apply user_set_enabled. exact H.
  - apply user_remove. exact H.
  - pose proof (user_relabel c (w_next w) Ho) as Hc. destruct (relabel (w_next w) c) as (c', n). cbn. apply user_insert; assumption.
Qed.

Lemma chain_menu_ids w id : (exists m anc, chain (w_root w) (m :: anc) /\ cmd_id m = id) <-> In id (menu_ids (w_root w)).
Proof.
  rewrite <- (live_spec (set_cur id w)). unfold live, in_menu. cbn. split.
  - intros (m & anc & H & Hi). exists (m :: anc). split; [exact H|]. eauto.
  - intros (ctx & H & m & anc & -> & Hi). eauto.
Qed.
Lemma removable_guarded R w : removable R w /\ live w <-> guarded R w.
Proof.
  unfold removable, guarded. split.
  - intros (H & Hl). split; [|exact Hl]. intros id Hid. destruct (H id Hid) as (H1 & H2). split; [exact H1|].
    rewrite <- chain_menu_ids. intros (m & anc & Hc & Hi). exact (H2 m anc Hc Hi).
  - intros (H & Hl). split; [|exact Hl]. intros id Hid. destruct (H id Hid) as (H1 & H2). split; [exact H1|].
    intros m anc Hc Hi. apply H2. apply chain_menu_ids. eauto.
Qed.

Lemma tame_guard R o : tame_op R o -> forall id, o = ORemove id -> R id.
Proof. intros H id ->. exact H. Qed.

(** Health without the condition on recalls, relative to the lines that may appear. *)
Definition sane (E : env) (R : nat -> Prop) (size : nat) (w : world) : Prop :=
  sound w /\ guarded R w /\ user_tree (w_root w) /\ reachable size (w_hist w).
Lemma sane_feed E R size fuel line w : tame E R -> sane E R size w -> f_inv (sane E R size) (feed E fuel line w).
Proof.
  intros (Ht1 & Ht2 & _).
  apply (feed_inv E (sane E R size) (tame_op R)).
  - split; assumption.
  - intros e w0 H. exact H.
  - intros w0 o Ho (H1 & H2 & H3 & H4). split; [apply sound_op; exact H1|]. split; [apply guarded_op; [apply tame_guard; exact Ho|exact H2]|].
    split; [eapply user_op; eassumption|]. destruct (apply_op_same w0 o) as (_ & _ & _ & -> & _). exact H4.
  - intros w0 ctx toks p id (H1 & (H2 & _) & H3 & H4) (Hc & _) Hr. split; [exact H1|]. split; [|split; assumption].
    split; [exact H2|]. destruct (reading_goto _ _ _ _ _ Hr Hc) as (ctx' & m & anc & Hc' & -> & Hid).
    exists (m :: anc). split; [exact Hc'|]. eauto.
  - intros cmds w0 H _. exact H.
  - intros w0 H _. exact H.
  - intros l h w0 (H1 & H2 & H3 & H4) _ Hn. split; [exact H1|]. split; [exact H2|]. split; [exact H3|].
    eapply (reachable_step size (w_hist w0) (ONew l)); [exact H4|exact Hn].
  - intros l h1 h2 w0 (H1 & H2 & H3 & H4) Hn Hf. split; [exact H1|]. split; [exact H2|]. split; [exact H3|].
    eapply (reachable_step size (w_hist w0) (OBang l)); [exact H4|]. cbn. rewrite Hn. exact Hf.
Qed.

(** The lines of the history: what was there and the lines fed. *)
Lemma lines_feed E (Q : str -> Prop) fuel : forall line w, Q line -> Forall Q (h_buf (w_hist w)) ->
  f_inv (fun w' => Forall Q (h_buf (w_hist w'))) (feed E fuel line w).
Proof.
  set (P := fun w' : world => Forall Q (h_buf (w_hist w'))).
  assert (Hlog : forall e w, P w -> P (log e w)) by (intros; assumption).
  assert (Hop : forall w o, True -> P w -> P (apply_op w o)).
  { intros w o _ H. unfold P. destruct (apply_op_same w o) as (_ & _ & _ & -> & _). exact H. }
  induction fuel as [|fuel IH]; intros line w Hline Hw; [exact Logic.I|]. cbn [feed].
  destruct (split line) as [[|t toks]|] eqn:Hs.
  1,3: unfold feed_body; rewrite Hs; exact Hw || exact Logic.I.
  destruct (new_command (w_hist w) line) as [h|] eqn:Hh; [|unfold feed_body; rewrite Hs, Hh; exact Logic.I].
  rewrite (feed_body_spec E _ line w (t :: toks) (set_hist h w)) by (split; [exact Hs|split; [discriminate|eauto]]).
  assert (H1 : P (set_hist h w)).
  { apply Forall_forall. intros s Hin. cbn in Hin. destruct (new_command_in _ _ _ _ Hh Hin) as [->|Hi]; [exact Hline|].
    rewrite Forall_forall in Hw. auto. }
  assert (Hm : forall w1, P w1 -> f_inv P (finish E line
    match locate (w_cur w1) [] (w_root w1) with
    | None => EUB
    | Some ctx =>
        e_bind (scan E no_builtin (t :: toks) ctx w1) (fun w2 =>
        match wrong_command E line w2 with
        | HOk w3 => EDone false w3
        | HExc x w3 => EExc x w3
        | HUB => EUB
        | HFuel => EFuel
        end)
    end)).
  { intros w1 Hw1. apply (menus_inv E P (fun _ => True) (code_ops_all E)); try assumption; try discriminate.
    intros; assumption. }
  unfold dispatch. rewrite scan_attempts by discriminate.
  destruct (recall_dec E line) as [(a & n & Hs' & Hc)|Hnr].
  - rewrite Hs' in Hs. injection Hs as <- <-.
    rewrite (global_recall E _ a n _ Hc). cbn [run_fn builtin set_hist w_hist].
    destruct (forget_latest h) as [h2|] eqn:Hf; [|exact Logic.I].
    change (set_hist h2 (set_hist h w)) with (set_hist h2 w).
    assert (H2 : P (set_hist h2 w)).
    { apply Forall_forall. intros s Hin. cbn in Hin. rewrite Forall_forall in Hw. apply Hw. eapply bang_in; eassumption. }
    destruct (at_id h2 n) as [l| |] eqn:Hat; [|apply (report_inv E P (fun _ => True) (code_ops_all E)); assumption|exact Logic.I].
    assert (Hl : Q l) by (apply at_id_in in Hat; unfold P in H2; cbn in H2; rewrite Forall_forall in H2; auto).
    specialize (IH l (set_hist h2 w) Hl H2).
    destruct (feed E fuel l (set_hist h2 w)) as [w3|[s|s|] w3| |]; cbn [e_bind]; try exact IH.
    + apply Hm. exact IH.
    + apply (report_inv E P (fun _ => True) (code_ops_all E)); assumption.
  - pose proof (global_attempts_inv E P (fun _ => True) (code_ops_all E) Hlog Hop) as Hg.
    specialize (Hg ltac:(intros; assumption) ltac:(intros; assumption) (t :: toks) (set_hist h w) ltac:(discriminate)).
    specialize (Hg (fun a n Ht Hc => Hnr (ex_intro _ a (ex_intro _ n (conj (eq_trans Hs (f_equal Some Ht)) Hc)))) H1 (feed E fuel)).
    destruct (attempts _ _ _ _) as [[] w1|x w1| |]; cbn [e_bind finish]; try exact Hg.
    + apply Hm. exact Hg.
    + apply (report_inv E P (fun _ => True) (code_ops_all E)); assumption.
Qed.

(** ** Lookups never hit the empty history again *)
Lemma bang_next size h line h1 h2 : size >= 1 -> reachable size h -> ~ In line (h_buf h) ->
  committed h <> [] \/ (0 < h_oldest h)%Z -> new_command h line = Some h1 -> forget_latest h1 = Some h2 ->
  (0 < next_id h2)%Z /\ h_browse h2 = false.
Proof.
  intros Hs Hr Hn Hu E1 E2. destruct (reachable_inv size h Hs Hr) as (I & M).
  destruct (h_browse h) eqn:B.
  - destruct (new_command_browse h line I B) as (d & base & h1' & Eb & E1' & Bf & C & Mx & Cm & O & P1 & P2).
    rewrite E1 in E1'. injection E1' as <-.
    assert (Hq : hd_error base <> Some line).
    { intros Hq. apply Hn. rewrite Eb. right. destruct base; [discriminate|]. injection Hq as ->. left. reflexivity. }
    specialize (P2 Hq). unfold forget_latest in E2. rewrite P2 in E2. injection E2 as <-. cbn [h_browse with_buf]. split; [|exact Bf].
    unfold next_id. cbn [with_buf h_oldest h_buf]. rewrite O.
    pose proof (inv_oldest h I) as Ho. destruct Hu as [Hu|Hu]; [|lia].
    unfold committed in Hu. rewrite B, Eb in Hu. cbn [tl] in Hu. destruct base; [destruct Hu; reflexivity|]. cbn [length]. lia.
  - destruct (new_command_insert h line I B) as (h1' & E1' & Bf & C & Mx & Cm & P1 & P2).
    rewrite E1 in E1'. injection E1' as <-.
    assert (Hq : hd_error (h_buf h) <> Some line).
    { intros Hq. apply Hn. destruct (h_buf h); [discriminate|]. injection Hq as ->. left. reflexivity. }
    destruct (P2 Hq) as (Q1 & Q2 & Q3 & Q4).
    assert (Hnx : next_id h1 = (next_id h + 1)%Z).
    { destruct (record_forget size h line Hs Hr) as (h1' & h2' & id & E1' & E2' & Hv & _). rewrite E1 in E1'. injection E1' as <-.
      unfold new_command in E1. cbn [h_browse h_buf] in E1. rewrite B in E1.
      destruct (h_buf h) as [|y b] eqn:Hb.
      - injection E1 as <-. unfold next_id. cbn [h_oldest h_buf].
        match goal with |- context[insert ?hh line] => pose proof (insert_next hh line) as Hx end.
        unfold next_id in Hx. cbn [h_oldest h_buf] in Hx. rewrite Hx, Hb. reflexivity.
      - destruct (str_eqb_spec y line) as [->|]; [exfalso; apply Hn; left; reflexivity|].
        injection E1 as <-. unfold next_id. cbn [h_oldest h_buf].
        match goal with |- context[insert ?hh line] => pose proof (insert_next hh line) as Hx end.
        unfold next_id in Hx. cbn [h_oldest h_buf] in Hx. rewrite Hx, Hb. reflexivity. }
    assert (Hne : (0 < next_id h)%Z).
    { unfold next_id. pose proof (inv_oldest h I) as Ho. destruct Hu as [Hu|Hu]; [|lia].
      unfold committed in Hu. rewrite B in Hu. destruct (h_buf h); [destruct Hu; reflexivity|]. cbn [length]. lia. }
    unfold forget_latest in E2. destruct (h_buf h1) as [|y b] eqn:Hb1; [discriminate|]. injection E2 as <-.
    split; [|exact Bf]. unfold next_id in *. cbn [with_buf h_oldest h_buf]. rewrite Hb1 in Hnx. cbn [length] in Hnx. lia.
Qed.

Lemma next_used h : (0 < next_id h)%Z -> h_browse h = false -> committed h <> [] \/ (0 < h_oldest h)%Z.
Proof.
  unfold next_id, committed. intros H ->. destruct (h_buf h) as [|y b] eqn:Hb.
  - right. cbn in H. lia.
  - left. cbn. intros Hx. apply app_eq_nil in Hx as (_ & Hx). discriminate.
Qed.
Lemma new_used h line h1 size : size >= 1 -> reachable size h -> new_command h line = Some h1 -> committed h1 <> [].
Proof.
  intros Hs Hr E1. destruct (reachable_inv size h Hs Hr) as (I & M).
  destruct (new_command_inv h line I ltac:(lia)) as (h1' & E1' & _ & _ & B & Hh & _). rewrite E1 in E1'. injection E1' as <-.
  unfold committed. rewrite B. destruct (h_buf h1) as [|y b]; [discriminate|]. cbn. intros Hx. apply app_eq_nil in Hx as (_ & Hx). discriminate.
Qed.

(** After a line that is not a recall, the history is in use. *)
Definition hused (h : history) : Prop := (committed h <> [] \/ (0 < h_oldest h)%Z).

(** Nothing but recording and recalling touches the history. *)
Lemma hist_kept E line w toks w0 : recorded line w toks w0 -> ~ recall E line ->
  forall rec, f_inv (fun w' => w_hist w' = w_hist w0) (feed_body E rec line w).
Proof.
  intros Hr Hn rec. rewrite (feed_body_spec E _ _ _ _ _ Hr).
  set (P := fun w' : world => w_hist w' = w_hist w0).
  assert (Hlog : forall e w, P w -> P (log e w)) by (intros; assumption).
  assert (Hop : forall w o, True -> P w -> P (apply_op w o)).
  { intros w1 o _ H. unfold P. destruct (apply_op_same w1 o) as (_ & _ & _ & -> & _). exact H. }
  pose proof (recorded_ne _ _ _ _ Hr) as Hne. destruct Hr as (Hs & _ & h & Hh & ->).
  assert (H1 : P (set_hist h w)) by reflexivity.
  unfold dispatch. rewrite scan_attempts by exact Hne.
  pose proof (global_attempts_inv E P (fun _ => True) (code_ops_all E) Hlog Hop) as Hg.
  specialize (Hg ltac:(intros; assumption) ltac:(intros; assumption) toks (set_hist h w) Hne).
  specialize (Hg (fun a n Ht Hc => Hn (ex_intro _ a (ex_intro _ n (conj (eq_trans Hs (f_equal Some Ht)) Hc)))) H1 rec).
  destruct (attempts _ _ _ _) as [[] w1|x w1| |]; cbn [e_bind finish]; try exact Hg.
  - apply (menus_inv E P (fun _ => True) (code_ops_all E)); try assumption. intros; assumption.
  - apply (report_inv E P (fun _ => True) (code_ops_all E)); assumption.
Qed.

Lemma f_safe_intro P r : r <> FUB -> r <> FFuel -> f_inv P r -> f_safe P r.
Proof. destruct r; cbn; congruence || auto. Qed.

Lemma id_dec n (v : list (Z * str)) : (exists s, In (n, s) v) \/ (forall s, ~ In (n, s) v).
Proof.
  induction v as [|(i, s) v IH]; [right; intros s []|].
  destruct (Z.eq_dec i n) as [->|Hi]; [left; exists s; left; reflexivity|].
  destruct IH as [(s' & IH)|IH]; [left; exists s'; right; exact IH|].
  right. intros s' [Hx|Hx]; [congruence|exact (IH s' Hx)].
Qed.
Lemma live_set_hist h w : live (set_hist h w) <-> live w.
Proof. reflexivity. Qed.

Lemma feed_safe E R size line w : size >= 1 -> tame E R -> healthy E R size w -> legible E line ->
  (recall E line -> used w) ->
  forall fuel, f_safe (fun w' => healthy E R size w' /\ (used w -> used w')) (feed E (S (S fuel)) line w) /\
    (~ recall E line -> split line <> Some [] -> f_safe used (feed E (S (S fuel)) line w)).
Proof.
  intros Hsz Ht (H1 & H2 & H3 & H4 & H5 & H6 & H7) Hl Hu fuel.
  assert (Hg : guarded R w) by (apply removable_guarded; auto).
  assert (Hsane : f_inv (sane E R size) (feed E (S (S fuel)) line w)) by (apply sane_feed; [exact Ht|split; auto]).
  assert (Hlines : f_inv (fun w' => Forall (legible E) (h_buf (w_hist w'))) (feed E (S (S fuel)) line w)) by (apply lines_feed; assumption).
  assert (Hnr : f_inv (no_recalls E) (feed E (S (S fuel)) line w)) by (apply no_recalls_feed; exact H7).
  destruct (recall_dec E line) as [Hrec|Hn].
  - split; [|tauto]. specialize (Hu Hrec). destruct Hrec as (a & n & Hs & Hc).
    destruct (record_forget size (w_hist w) line Hsz H5) as (h1 & h2 & id & E1 & E2 & Hv & Hr2).
    assert (Hnin : ~ In line (h_buf (w_hist w))).
    { intros Hin. apply (H7 line Hin). exists a, n. auto. }
    destruct (bang_next size (w_hist w) line h1 h2 Hsz H5 Hnin Hu E1 E2) as (Hnx & Hb2).
    pose proof (recall_recorded E line w a n h1 h2 Hs Hc E1 E2 (proj1 (proj2 (tame_parts E R Ht))) (S fuel)) as Hf.
    assert (Hres : f_safe (fun w' => True) (feed E (S (S fuel)) line w) /\ f_inv used (feed E (S (S fuel)) line w)).
    { rewrite Hf. destruct (reachable_inv size h2 Hsz Hr2) as (I2 & _).
      assert (Hrep : forall x w', used w' -> f_safe (fun _ => True) (report E line x w') /\ f_inv used (report E line x w')).
      { intros x w' Hw'. split.
        - apply f_safe_intro; [apply report_safe|apply report_safe|]. destruct (report E line x w'); exact Logic.I.
        - apply (report_inv E used (fun _ => True) (code_ops_all E)); try assumption; [intros; assumption|].
          intros w1 o _ Hw1. unfold used. destruct (apply_op_same w1 o) as (_ & _ & _ & -> & _). exact Hw1. }
      assert (Hu2 : used (set_hist h2 w)) by (apply next_used; assumption).
      destruct (at_id h2 n) as [l| |] eqn:Hat.
      - assert (Hlin : In l (h_buf (w_hist w))) by (eapply bang_in; [exact E1|exact E2|eapply at_id_in; exact Hat]).
        assert (Hln : ~ recall E l) by (apply H7; exact Hlin).
        assert (Hll : legible E l) by (rewrite Forall_forall in H6; auto).
        destruct (once_safe E R Ht size l (feed E fuel) (set_hist h2 w) Hsz Hln Hll Hr2 H2 H4) as (A & B).
        assert (Hul : f_inv used (feed_body E (feed E fuel) l (set_hist h2 w))).
        { destruct (split_safe l) as (toks & Hsl & _). destruct toks as [|t toks].
          - unfold feed_body. rewrite Hsl. exact Hu2.
          - destruct (new_command_inv h2 l I2) as (h3 & Eh3 & _).
            { destruct (reachable_inv size h2 Hsz Hr2) as (_ & ->). exact Hsz. }
            assert (Hrd : recorded l (set_hist h2 w) (t :: toks) (set_hist h3 (set_hist h2 w))) by (split; [exact Hsl|split; [discriminate|eauto]]).
            pose proof (hist_kept E _ _ _ _ Hrd Hln (feed E fuel)) as Hk.
            destruct (feed_body E (feed E fuel) l (set_hist h2 w)) as [w3|x w3| |]; try exact Logic.I; cbn [f_inv] in Hk |- *; cbn in Hk; unfold used;
              left; rewrite Hk; eapply new_used; eassumption. }
        cbn [feed]. destruct (feed_body E (feed E fuel) l (set_hist h2 w)) as [w3|x w3| |]; try congruence.
        + split; [exact Logic.I|exact Hul].
        + apply Hrep. exact Hul.
      - apply Hrep. exact Hu2.
      - exfalso. pose proof (id_dec n (view h2)) as Hd.
        destruct Hd as [(s & Hin)|Hno].
        + rewrite (at_id_found h2 n s (inv_oldest h2 I2) Hin) in Hat. discriminate.
        + rewrite (at_id_missing h2 n (uint_nonneg _ _ _ Hc) (inv_oldest h2 I2) Hnx Hno) in Hat. discriminate. }
    destruct Hres as (Hres & Hused).
    destruct (feed E (S (S fuel)) line w) as [w'|x w'| |]; try exact Hres.
    + destruct Hsane as (S1 & S2 & S3 & S4). apply removable_guarded in S2 as (S2 & S2'). split; [|intros _; exact Hused].
      split; [exact S1|]. split; [exact S2'|]. auto.
    + destruct Hsane as (S1 & S2 & S3 & S4). apply removable_guarded in S2 as (S2 & S2'). split; [|intros _; exact Hused].
      split; [exact S1|]. split; [exact S2'|]. auto.
  - pose proof (once_safe E R Ht size line (feed E (S fuel)) w Hsz Hn Hl H5 H2 H4) as (A & B).
    assert (Hused : (split line = Some [] /\ feed E (S (S fuel)) line w = FOk w) \/
                    (split line <> Some [] /\ f_inv used (feed E (S (S fuel)) line w))).
    { destruct (split_safe line) as (toks & Hsl & _). destruct toks as [|t toks].
      - left. split; [exact Hsl|]. cbn [feed]. unfold feed_body. rewrite Hsl. reflexivity.
      - right. split; [congruence|]. destruct (reachable_inv size _ Hsz H5) as (I & M).
        destruct (new_command_inv (w_hist w) line I ltac:(lia)) as (h3 & Eh3 & _).
        assert (Hrd : recorded line w (t :: toks) (set_hist h3 w)) by (split; [exact Hsl|split; [discriminate|eauto]]).
        pose proof (hist_kept E _ _ _ _ Hrd Hn (feed E (S fuel))) as Hk.
        change (feed E (S (S fuel)) line w) with (feed_body E (feed E (S fuel)) line w).
        destruct (feed_body E (feed E (S fuel)) line w) as [w3|x w3| |]; try exact Logic.I; cbn [f_inv] in Hk |- *; cbn in Hk; unfold used;
          left; rewrite Hk; eapply new_used; eassumption. }
    change (feed_body E (feed E (S fuel)) line w) with (feed E (S (S fuel)) line w) in A, B.
    split.
    + destruct Hused as [(_ & Hw)|(_ & Hused)].
      * rewrite Hw. split; [|auto]. split; [exact H1|]. split; [exact H2|]. auto.
      * destruct (feed E (S (S fuel)) line w) as [w'|x w'| |]; try congruence.
        -- destruct Hsane as (S1 & S2 & S3 & S4). apply removable_guarded in S2 as (S2 & S2'). split; [|intros _; exact Hused].
           split; [exact S1|]. split; [exact S2'|]. auto.
        -- destruct Hsane as (S1 & S2 & S3 & S4). apply removable_guarded in S2 as (S2 & S2'). split; [|intros _; exact Hused].
           split; [exact S1|]. split; [exact S2'|]. auto.
    + intros _ Hsp. destruct Hused as [(Hx & _)|(_ & Hused)]; [congruence|]. apply f_safe_intro; assumption.
Qed.

Lemma feeds_safe E R size lines : size >= 1 -> tame E R -> Forall (legible E) lines ->
  forall w fuel, healthy E R size w -> used w ->
  f_safe (fun w' => healthy E R size w' /\ used w') (feeds E (S (S fuel)) lines w).
Proof.
  intros Hsz Ht Hl. induction Hl as [|l ls Hl Hls IH]; intros w fuel Hw Hu; [split; assumption|]. cbn [feeds].
  destruct (feed_safe E R size l w Hsz Ht Hw Hl (fun _ => Hu) fuel) as (Hf & _).
  destruct (feed E (S (S fuel)) l w) as [w'|x w'| |]; cbn in Hf; try tauto; [apply IH; tauto|cbn; tauto].
Qed.

(** A new session is healthy. *)
Lemma open_healthy E (R : nat -> Prop) size sid root nxt st tr : size >= 1 -> unique_ids root -> Forall (fun i => i < nxt) (ids root) -> is_menu root ->
  (forall id, R id -> id < nxt /\ forall m anc, chain root (m :: anc) -> cmd_id m <> id) -> user_tree root ->
  Forall (legible E) (st_commands st) -> (forall s, In s (st_commands st) -> ~ recall E s) ->
  healthy E R size (open_session sid size root nxt st tr) /\
  (st_commands st <> [] -> used (open_session sid size root nxt st tr)).
Proof.
  intros Hsz Hu Hf Hm HR Hut Hl Hr.
  assert (Hb : h_buf (w_hist (open_session sid size root nxt st tr)) = firstn size (rev (st_commands st))).
  { cbn. rewrite load_buf by (cbn; lia). cbn. rewrite app_nil_r. reflexivity. }
  assert (Hin : forall s, In s (h_buf (w_hist (open_session sid size root nxt st tr))) -> In s (st_commands st)).
  { intros s Hs. rewrite Hb in Hs. apply in_rev. rewrite <- (firstn_skipn size). apply in_or_app. left. exact Hs. }
  split; [split; [split; assumption|]|].
  - split; [exists [root]; split; [constructor; exact Hm|exists root, []; split; reflexivity]|].
    split; [exact HR|]. split; [exact Hut|]. split; [exists [OLoad (st_commands st)]; reflexivity|].
    split; [apply Forall_forall; intros s Hs; rewrite Forall_forall in Hl; auto|]. intros s Hs. auto.
  - intros Hne. left. unfold committed. cbn [open_session w_hist] in *. rewrite load_browse. cbn [history_init h_browse]. rewrite Hb.
    intros Hx. apply (f_equal (@rev str)) in Hx. rewrite rev_involutive in Hx. cbn in Hx. destruct size; [lia|].
    destruct (rev (st_commands st)) eqn:Hrv; [|discriminate]. apply Hne. rewrite <- (rev_involutive (st_commands st)), Hrv. reflexivity.
Qed.
