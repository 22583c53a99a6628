(** * What the user of an interactive session sees *)

From Verif Require Import Base SplitModel SplitSpec SplitProofs FromStringModel FromStringSpec FromStringProofs HistoryModel HistorySpec HistoryProofs StorageModel
  PrefixModel PrefixSpec PrefixProofs TerminalModel TerminalSpec TerminalProofs MenuModel SessionModel ResolveSpec ResolveProofs SessionSpec
  TreeProofs SessionProofs InvariantProofs OutputProofs FeatureProofs CompletionModel CompletionSpec CompletionProofs ProcessorModel ProcessorSpec ProcessorProofs.
Open Scope nat_scope.
Open Scope list_scope.

(** ** Predicates on all commands of a tree *)
Lemma every_menu Q i n e d p ks : every Q (CMenu i n e d p ks) <-> Q (CMenu i n e d p ks) /\ Forall (every Q) ks.
Proof.
  cbn [every]. apply and_iff_compat_l. induction ks as [|k ks IH]; cbn; [split; constructor|]. rewrite IH. split.
  - intros (H1 & H2). constructor; assumption.
  - intros H. inversion H; auto.
Qed.
Lemma every_here Q c : every Q c -> Q c.
Proof. destruct c; cbn; tauto. Qed.
Lemma every_kid Q c k : every Q c -> In k (cmd_kids c) -> every Q k.
Proof.
  destruct c as [| |i n e d p ks]; try (intros _ []). intros H Hk. apply every_menu in H as (_ & H).
  rewrite Forall_forall in H. auto.
Qed.
Lemma every_chain Q root ctx : every Q root -> chain root ctx -> Forall (every Q) ctx.
Proof.
  intros H. induction 1 as [Hm|k p anc Hc IH Hk Hm]; [repeat constructor; exact H|].
  constructor; [|exact IH]. inversion IH; subst. eapply every_kid; eassumption.
Qed.

Section Every.
Context (Q : cmd -> Prop).
(** The predicate only speaks of the texts of the command itself. *)
Definition texts_only : Prop :=
  (forall i n e d p pd h i' e', Q (CFn i n e d p pd h) -> Q (CFn i' n e' d p pd h)) /\
  (forall i n e d pd h i' e', Q (CFree i n e d pd h) -> Q (CFree i' n e' d pd h)) /\
  (forall i n e d p ks i' e' ks', Q (CMenu i n e d p ks) -> Q (CMenu i' n e' d p ks')).
Context (HQ : texts_only).

Lemma every_set_enabled id b c : every Q c -> every Q (set_enabled id b c).
Proof.
  destruct HQ as (H1 & H2 & H3).
  induction c as [i n e d p pd h|i n e d pd h|i n e d p ks IH] using cmd_ind2; intros H.
  - cbn in *. split; [eapply H1; apply H|exact Logic.I].
  - cbn in *. split; [eapply H2; apply H|exact Logic.I].
  - cbn [set_enabled]. rewrite every_menu in *. split; [eapply H3; apply H|].
    apply Forall_forall. intros k Hk. apply in_map_iff in Hk as (k0 & <- & Hk). destruct H as (_ & H).
    rewrite Forall_forall in IH, H. auto.
Qed.
Lemma every_remove id c : every Q c -> every Q (remove_cmd id c).
Proof.
  destruct HQ as (H1 & H2 & H3).
  induction c as [i n e d p pd h|i n e d pd h|i n e d p ks IH] using cmd_ind2; intros H; try exact H.
  rewrite remove_menu. rewrite every_menu in *. destruct H as (H & Hks). split; [eapply H3; exact H|]. clear H.
  induction IH as [|k l Hk Hl IHl]; [constructor|]. inversion Hks; subst. cbn.
  destruct (Nat.eqb (cmd_id k) id); [assumption|]. constructor; auto.
Qed.
Lemma every_relabel c : forall n, every Q c -> every Q (fst (relabel n c)).
Proof.
  destruct HQ as (H1 & H2 & H3).
  induction c as [i nm e d p pd h|i nm e d pd h|i nm e d p ks IH] using cmd_ind2; intros n H.
  - cbn in *. split; [eapply H1; apply H|exact Logic.I].
  - cbn in *. split; [eapply H2; apply H|exact Logic.I].
  - rewrite relabel_menu. rewrite every_menu in H. destruct H as (H & Hks).
    assert (Hl : forall m, Forall (every Q) (fst (relabel_list m ks))).
    { clear H. induction IH as [|k l Hk Hl IHl]; intros m; [constructor|]. inversion Hks as [|? ? Ha Hb]; subst. cbn. specialize (Hk m Ha).
      destruct (relabel m k) as (k', m1). specialize (IHl Hb m1).
      destruct (relabel_list m1 l).
      constructor; assumption. }
    specialize (Hl (S n)). destruct (relabel_list (S n) ks). cbn [fst] in *. apply every_menu. split; [eapply H3; exact H|exact Hl].
Qed.
Lemma every_insert pid x c : every Q x -> every Q c -> every Q (insert_cmd pid x c).
Proof.
  destruct HQ as (H1 & H2 & H3).
  intros Hx. induction c as [i n e d p pd h|i n e d pd h|i n e d p ks IH] using cmd_ind2; intros H; try exact H.
  rewrite insert_menu. rewrite every_menu in *. destruct H as (H & Hks). split; [eapply H3; exact H|].
  assert (Hm : Forall (every Q) (map (insert_cmd pid x) ks)).
  { apply Forall_forall. intros k Hk. apply in_map_iff in Hk as (k0 & <- & Hk). rewrite Forall_forall in IH, Hks. auto. }
  destruct (Nat.eqb i pid); [|exact Hm]. apply Forall_app. split; [exact Hm|repeat constructor; exact Hx].
Qed.
Lemma every_op w o : (forall pid c, o = OInsert pid c -> every Q c) -> every Q (w_root w) -> every Q (w_root (apply_op w o)).
Proof.
  intros Ho H. destruct o as [s|s|id|id|id|pid c]; cbn; try exact H.
  - apply every_set_enabled. exact H.
  - apply every_set_enabled. exact H.
  - apply every_remove. exact H.
  - pose proof (every_relabel c (w_next w) (Ho _ _ eq_refl)) as Hc. destruct (relabel (w_next w) c) as (c', n). cbn. apply every_insert; assumption.
Qed.
End Every.

(** ** Neat text *)
Lemma at_end_iff sc : at_end sc <-> exists ab row, sc = mkScreen ab row [] (length row) Ground.
Proof.
  unfold at_end. destruct sc as [ab row be col es]. cbn. split.
  - intros (-> & -> & ->). eauto.
  - intros (ab' & row' & E). injection E as -> -> -> -> ->. auto.
Qed.
Lemma neat_nil : neat [].
Proof. intros sc H. exact H. Qed.
Lemma neat_app a b : neat a -> neat b -> neat (a ++ b).
Proof. intros Ha Hb sc H. rewrite display_app. auto. Qed.
Lemma neat_flat {A} (f : A -> str) l : Forall (fun x => neat (f x)) l -> neat (flat_map f l).
Proof. induction 1; cbn; [apply neat_nil|apply neat_app; assumption]. Qed.
Lemma neat_text s : Forall printable s -> neat s.
Proof.
  intros Hs sc H. apply at_end_iff in H as (ab & row & ->). apply at_end_iff.
  pose proof (display_text s Hs ab row [] []) as H. rewrite app_nil_r in H. rewrite H.
  rewrite skipn_nil, app_nil_r. eauto.
Qed.
Lemma neat_nl : neat nl.
Proof. intros sc H. apply at_end_iff in H as (ab & row & ->). apply at_end_iff. cbn. exists (row :: ab), []. reflexivity. Qed.
Lemma neat_tab : neat tab.
Proof.
  intros sc H. apply at_end_iff in H as (ab & row & ->). apply at_end_iff. exists ab, (row ++ tab). unfold display, tab. cbn [fold_left].
  unfold show_byte, put_char. cbn -[Nat.sub blanks firstn skipn]. rewrite Nat.sub_diag. cbn [blanks repeat]. rewrite app_nil_r, firstn_all, skipn_all2 by lia.
  rewrite app_length. cbn [length]. f_equal. lia.
Qed.
Lemma printable_dec s : forallb (fun c => (32 <=? N_of_ascii c)%N && (N_of_ascii c <? 127)%N) s = true -> Forall printable s.
Proof.
  intros H. rewrite forallb_forall in H. apply Forall_forall. intros c Hc. apply H in Hc. apply andb_true_iff in Hc as (H1 & H2).
  apply N.leb_le in H1. apply N.ltb_lt in H2. split; assumption.
Qed.
Lemma neat_lit s : forallb (fun c => (32 <=? N_of_ascii c)%N && (N_of_ascii c <? 127)%N) s = true -> neat s.
Proof. intros H. apply neat_text, printable_dec, H. Qed.
Lemma digits_printable s v : digits s v -> Forall printable s.
Proof.
  intros H. induction H; [constructor|]. constructor; [|assumption].
  match goal with Hd : is_digit ?c ?d |- _ => apply is_digit_code in Hd as (Hc & Hr); unfold printable; unfold code in Hc; lia end.
Qed.
Lemma print_N_printable n : Forall printable (print_N n).
Proof. destruct (print_N_decimal n) as (_ & H). eapply digits_printable. exact H. Qed.

Ltac neat_tac :=
  repeat match goal with
  | |- neat (_ ++ _) => apply neat_app
  | |- neat [] => apply neat_nil
  | |- neat nl => apply neat_nl
  | |- neat tab => apply neat_tab
  | |- neat (lit _) => apply neat_lit; reflexivity
  end.

Lemma neat_type_desc p : neat_type p -> neat (type_desc p).
Proof. intros H. destruct p as [[]| | | |[]|]; try (apply neat_lit; reflexivity). exact H. Qed.
Lemma neat_help_line c : neat_texts c -> neat (help_line c).
Proof.
  intros (Hn & H). unfold help_line. destruct (negb (cmd_en c)); [apply neat_nil|].
  assert (Hp : forall pd, Forall neat pd -> neat (print_pdesc pd)).
  { intros pd Hpd. apply neat_flat. eapply Forall_impl; [|exact Hpd]. intros s Hs. neat_tac. exact Hs. }
  destruct c as [i n e d ps pd h|i n e d pd h|i n e d p ks]; cbn [cmd_name] in *; destruct H as (H1 & H2); try destruct H2 as (H2 & H3); neat_tac; auto using neat_text.
  - destruct pd; [|apply neat_nil]. apply neat_flat. eapply Forall_impl; [|exact H3]. intros q Hq. neat_tac. apply neat_type_desc, Hq.
  - destruct pd; neat_tac.
Qed.
Lemma neat_main_help ctx : Forall (every neat_texts) ctx -> neat (main_help ctx).
Proof.
  intros H. destruct ctx as [|m anc]; [apply neat_nil|]. cbn. destruct (negb (cmd_en m)); [apply neat_nil|].
  inversion H as [|? ? Hm Ha]; subst. apply neat_app.
  - apply neat_flat. apply Forall_forall. intros k Hk. apply neat_help_line, every_here. eapply every_kid; eassumption.
  - destruct anc as [|p anc]; [apply neat_nil|]. inversion Ha; subst. apply neat_help_line, every_here. assumption.
Qed.
Lemma neat_global : every neat_texts global_menu.
Proof.
  assert (H : forall s, forallb (fun c => (32 <=? N_of_ascii c)%N && (N_of_ascii c <? 127)%N) s = true -> Forall printable s /\ neat s).
  { intros s Hs. split; [apply printable_dec|apply neat_lit]; exact Hs. }
  apply every_menu. split; [split; [constructor|split; [apply neat_nil|constructor]]|].
  repeat (apply Forall_cons; [cbn; split; [|exact Logic.I]; split; [apply H; reflexivity|split; [apply H; reflexivity|split; [repeat (apply Forall_cons; [apply H; reflexivity|]); apply Forall_nil|repeat constructor]]]|]).
  apply Forall_nil.
Qed.
Lemma neat_help w s : every neat_texts (w_root w) -> help_text w = Some s -> neat s.
Proof.
  unfold help_text. intros H. destruct (locate (w_cur w) [] (w_root w)) as [ctx|] eqn:Hl; [|discriminate].
  intros E. apply (f_equal (fun o => match o with Some x => x | None => [] end)) in E. cbv beta iota in E. subst s.
  apply locate_in_menu in Hl. neat_tac; [apply neat_main_help; constructor; [apply neat_global|constructor]|].
  apply neat_main_help. eapply every_chain; [exact H|apply Hl].
Qed.
Lemma neat_show h s : Forall (Forall printable) (h_buf h) -> show h = Some s -> neat s.
Proof.
  intros Hb. unfold show. destruct (show_loop h (length (h_buf h))) as [t|] eqn:Ht; [|discriminate]. intros E. injection E as <-.
  assert (H : forall n t, show_loop h n = Some t -> neat t).
  { induction n as [|n IH]; intros u Hu; cbn in Hu; [injection Hu as <-; apply neat_nil|].
    destruct (index_to_id h (Z.of_nat n)); [|discriminate]. destruct (nth_error (h_buf h) n) as [l|] eqn:Hl; [|discriminate].
    destruct (show_loop h n) as [r|]; [|discriminate]. injection Hu as <-.
    change ((print_N (Z.to_N z) ++ "009"%char :: l ++ "010"%char :: r)) with (print_N (Z.to_N z) ++ tab ++ l ++ nl ++ r).
    neat_tac; [apply neat_text, print_N_printable| |apply IH; reflexivity].
    apply neat_text. rewrite Forall_forall in Hb. apply Hb. eapply nth_error_In. exact Hl. }
  change ("010"%char :: t ++ ["010"%char]) with (nl ++ t ++ nl). neat_tac. eapply H. exact Ht.
Qed.

(** ** The screen *)
Lemma screen_log sc e w : screen_of sc (log e w) = display (received (w_sid w) e) (screen_of sc w).
Proof.
  unfold screen_of. cbn [w_trace w_sid log]. rewrite flat_map_app, display_app. cbn [flat_map]. rewrite app_nil_r. reflexivity.
Qed.
Lemma screen_out sc s w : screen_of sc (out s w) = display s (screen_of sc w).
Proof. unfold out. rewrite screen_log. cbn [received]. rewrite Nat.eqb_refl. reflexivity. Qed.
Lemma received_neat (sid : nat) e : (forall s, e = EvBroadcast s \/ e = EvOut sid s -> neat s) -> neat (received sid e).
Proof.
  intros H. destruct e; cbn; try apply neat_nil; [|apply H; left; reflexivity].
  destruct (Nat.eqb_spec sid0 sid) as [->|]; [apply H; right; reflexivity|apply neat_nil].
Qed.

Lemma neat_texts_only : texts_only neat_texts.
Proof. split; [|split]; intros; assumption. Qed.

(** Nothing is being edited: the cursor is at the end of the text. *)
Definition resting (sc : screen) (w : world) : Prop := neat_world w /\ at_end (screen_of sc w).
Lemma resting_log sc e w : neat (received (w_sid w) e) -> resting sc w -> resting sc (log e w).
Proof. intros He ((H1 & H2) & H3). split; [split; assumption|]. rewrite screen_log. apply He, H3. Qed.
Lemma resting_out sc s w : neat s -> resting sc w -> resting sc (out s w).
Proof. intros Hs. apply resting_log. cbn. rewrite Nat.eqb_refl. exact Hs. Qed.
Lemma resting_op sc w o : neat_op o -> resting sc w -> resting sc (apply_op w o).
Proof.
  intros Ho H. destruct H as ((H1 & H2) & H3).
  assert (Ht : every neat_texts (w_root (apply_op w o))).
  { apply every_op; [apply neat_texts_only| |exact H1]. intros pid c ->. exact Ho. }
  destruct o as [s|s|id|id|id|pid c].
  - apply resting_out; [exact Ho|exact (conj (conj H1 H2) H3)].
  - apply resting_log; [exact Ho|exact (conj (conj H1 H2) H3)].
  - exact (conj (conj Ht H2) H3).
  - exact (conj (conj Ht H2) H3).
  - exact (conj (conj Ht H2) H3).
  - cbn in Ht |- *. destruct (relabel (w_next w) c) as (c', n). split; [split; [exact Ht|exact H2]|].
    rewrite screen_log. exact H3.
Qed.
Section Feed.
Context (E : env) (Hcode : neat_code E).
Lemma neat_code_ops : code_ops E neat_op.
Proof. split; intros; apply Hcode. Qed.
Lemma neat_code_throws : code_throws E neat_exn.
Proof.
  destruct Hcode as (H1 & H2). split.
  - intros sid h args tr x Hx. specialize (H1 sid h args tr) as (_ & H1). rewrite Hx in H1. exact H1.
  - intros sid h args tr x Hx. specialize (H2 sid h args tr) as (_ & H2). rewrite Hx in H2. exact H2.
Qed.
Lemma resting_feed sc fuel line w : Forall printable line -> resting sc w -> fx_inv (resting sc) neat_exn (feed E fuel line w).
Proof.
  apply (out_feed_inv E (resting sc) (Forall printable) neat_exn neat_op neat_code_ops neat_code_throws).
  - cbn. apply neat_lit. reflexivity.
  - cbn. apply neat_lit. reflexivity.
  - intros e w0 He. apply resting_log. destruct e; try destruct He; apply neat_nil.
  - intros w0 s H Hs. apply resting_out; [|exact H]. eapply neat_help; [apply H|exact Hs].
  - intros w0 s H Hs. apply resting_out; [|exact H]. eapply neat_show; [apply H|exact Hs].
  - intros w0 l H Hl. apply resting_out; [|exact H]. neat_tac. apply neat_text, Hl.
  - intros w0 s H Hs. apply resting_out; [|exact H]. neat_tac. destruct Hs; assumption.
  - intros w0 l H Hl. apply resting_out; [|exact H]. neat_tac. apply neat_text, Hl.
  - intros w0 o. apply resting_op.
  - intros w0 ctx toks p id H _ _. exact H.
  - intros cmds w0 H _. exact H.
  - intros w0 H. exact H.
  - intros l h w0 ((H1 & H2) & H3) Hl Hn. split; [split; [exact H1|]|exact H3]. cbn.
    apply Forall_forall. intros s Hs. destruct (new_command_in _ _ _ _ Hn Hs) as [->|Hi]; [exact Hl|]. rewrite Forall_forall in H2. auto.
  - intros h w0 ((H1 & H2) & H3) Hf. split; [split; [exact H1|]|exact H3]. cbn. unfold forget_latest in Hf.
    destruct (h_buf (w_hist w0)) as [|x b]; [discriminate|]. injection Hf as <-. cbn. inversion H2; assumption.
  - intros w0 n l ((_ & H) & _) Ha. apply at_id_in in Ha. rewrite Forall_forall in H. auto.
Qed.
Lemma resting_enter sc w : resting sc w -> hx_inv (resting sc) neat_exn (session_enter E w).
Proof.
  apply (o_enter_inv E (resting sc) neat_exn neat_op neat_code_ops neat_code_throws).
  - intros w0 o. apply resting_op.
  - intros k w0 _. apply resting_log, neat_nil.
Qed.
End Feed.

(** ** The prompt *)
Definition at_row (sc : screen) (row : str) : Prop := exists ab, sc = mkScreen ab row [] (length row) Ground.
Lemma at_row_text sc row s : Forall printable s -> at_row sc row -> at_row (display s sc) (row ++ s).
Proof.
  intros Hs (ab & ->). exists ab. pose proof (display_text s Hs ab row [] []) as H. rewrite app_nil_r in H. rewrite H.
  rewrite skipn_nil, app_nil_r. reflexivity.
Qed.
Lemma at_row_sgr sc row n : In n [0; 1; 32; 97]%N -> at_row sc row -> at_row (display (sgr n) sc) row.
Proof. intros Hn (ab & ->). exists ab. apply display_sgr. exact Hn. Qed.
Lemma prompt_row_world w w' r : w_exit w' = w_exit w -> w_root w' = w_root w -> w_cur w' = w_cur w -> prompt_row w r -> prompt_row w' r.
Proof. unfold prompt_row, in_menu. intros -> -> ->. auto. Qed.
Lemma prompt_at_row tty color p p' sc : resting sc (p_world p) -> p_prompt tty color p = POk p' ->
  neat_world (p_world p') /\ only_printed (p_world p) (p_world p') /\
  tm_line (p_term p') = tm_line (p_term p) /\ tm_pos (p_term p') = tm_pos (p_term p) /\
  exists r last, prompt_row (p_world p') r /\ at_row (screen_of sc (p_world p')) (last ++ r).
Proof.
  intros ((H1 & H2) & H3) Hp. apply p_prompt_ok in Hp as (b & f & Hp & ->). cbn [p_world p_term tm_line tm_pos].
  split; [split; assumption|]. split; [apply only_printed_out|]. split; [reflexivity|]. split; [reflexivity|].
  apply at_end_iff in H3 as (ab & row & H3). rewrite screen_out, H3.
  assert (Hr : at_row (mkScreen ab row [] (length row) Ground) row) by (exists ab; reflexivity).
  revert Hr. generalize (mkScreen ab row [] (length row) Ground). intros s Hr. unfold prompt in Hp.
  destruct (w_exit (p_world p)) eqn:Hx.
  - injection Hp as <- <-. exists [], row. rewrite app_nil_r. split; [|exact Hr]. left. split; [exact Hx|reflexivity].
  - unfold prompt_text in Hp. destruct (locate (w_cur (p_world p)) [] (w_root (p_world p))) as [ctx|] eqn:Hl; [|discriminate].
    apply locate_in_menu in Hl. destruct ctx as [|m anc]; [discriminate|]. destruct m as [| |i n e d pr ks]; try discriminate.
    assert (Hpr : Forall printable pr).
    { pose proof (every_chain _ _ _ H1 (proj1 Hl)) as H. inversion H as [|? ? Hm _]; subst. apply every_here in Hm. apply Hm. }
    destruct (before_prompt color (tm_force (p_term p))) as (bp, f') eqn:Hb. injection Hp as <- <-.
    exists (pr ++ lit "> "), row. split.
    { right. split; [exact Hx|]. exists (CMenu i n e d pr ks), anc, pr. split; [exact Hl|]. split; reflexivity. }
    rewrite !display_app. rewrite (app_assoc row). apply at_row_text; [apply printable_dec; reflexivity|].
    assert (Ha : forall s0, at_row s0 (row ++ pr) -> at_row (display (after_prompt tty f') s0) (row ++ pr)).
    { intros s0 H0. unfold after_prompt. destruct (f' || tty); [apply at_row_sgr; [cbn; tauto|exact H0]|exact H0]. }
    apply Ha, at_row_text; [exact Hpr|]. 
    assert (bp = if color then sgr 32 ++ sgr 1 else []) as -> by (unfold before_prompt in Hb; destruct color; congruence).
    destruct color; [|exact Hr].
    rewrite display_app. apply at_row_sgr; [cbn; tauto|]. apply at_row_sgr; [cbn; tauto|]. exact Hr.
Qed.
Lemma at_row_shows sc base : at_row sc base -> shows base (mkEd [] []) sc.
Proof. intros (ab & ->). apply shows_iff. exists ab, 0. cbn. rewrite !app_nil_r. reflexivity. Qed.

(** Writing the line again after the prompt. *)
Lemma rewrite_line tty color s p sc base : tm_line (p_term p) = s -> Forall printable s ->
  at_row (screen_of sc (p_world p)) base ->
  let p' := p_set_line tty color s (p_reset_cursor p) in
  only_printed (p_world p) (p_world p') /\ holds (p_term p') (mkEd (rev s) []) /\
  shows base (mkEd (rev s) []) (screen_of sc (p_world p')).
Proof.
  intros Hl Hs Hr. cbn zeta. destruct (p_set_line_world tty color s (p_reset_cursor p)) as (b & t & -> & Hb).
  cbn [p_world p_term p_reset_cursor] in *. split; [apply only_printed_out|].
  pose proof (set_line_holds tty color s (reset_cursor (p_term p))) as Hh. rewrite Hb in Hh. split; [exact Hh|].
  unfold set_line in Hb. rewrite before_input_eq in Hb. cbn [reset_cursor tm_pos tm_line backs repeat] in Hb. rewrite Hl, Nat.ltb_irrefl in Hb.
  injection Hb as <- _. rewrite screen_out. destruct Hr as (ab & ->). rewrite !display_app, display_bi.
  pose proof (display_text s Hs ab base [] []) as Ht. rewrite app_nil_r in Ht. cbn [app]. rewrite Ht, display_ai, skipn_nil.
  apply shows_iff. exists ab, 0. cbn [TerminalSpec.before after blanks repeat app]. rewrite rev_involutive, !app_nil_r. reflexivity.
Qed.
Lemma set_line_shows tty color s p e sc base : holds (p_term p) e -> Forall printable s ->
  shows base e (screen_of sc (p_world p)) ->
  let p' := p_set_line tty color s p in
  only_printed (p_world p) (p_world p') /\ holds (p_term p') (mkEd (rev s) []) /\
  shows base (mkEd (rev s) []) (screen_of sc (p_world p')).
Proof.
  intros He Hs Hsh. cbn zeta. destruct (p_set_line_world tty color s p) as (b & t & -> & Hb). cbn [p_world p_term].
  pose proof (set_line_holds tty color s (p_term p)) as Hh. rewrite Hb in Hh.
  pose proof (display_set_line tty color s (p_term p) e base _ He Hs Hsh) as Hd. rewrite Hb in Hd. cbn [fst snd] in *.
  split; [apply only_printed_out|]. split; [exact Hh|]. rewrite screen_out. exact Hd.
Qed.

(** ** History and completions consist of what was there *)
Lemma insert_all (Q : str -> Prop) h s : Forall Q (h_buf h) -> Q s -> Forall Q (h_buf (insert h s)).
Proof.
  intros H Hs. unfold insert. destruct (Nat.ltb _ _); cbn [h_buf with_buf]; [|constructor; assumption].
  apply Forall_forall. intros x Hx.
  assert (Hin : forall (A : Type) (l : list A) y, In y (removelast l) -> In y l).
  { intros A l. induction l as [|a l IH]; intros y Hy; [destruct Hy|]. destruct l; [destruct Hy|]. cbn [removelast] in Hy.
    destruct Hy as [->|Hy]; [left; reflexivity|right; apply IH; exact Hy]. }
  apply Hin in Hx. destruct Hx as [<-|Hx]; [exact Hs|]. rewrite Forall_forall in H. auto.
Qed.
Lemma set_nth_all (Q : str -> Prop) b : forall i s b', Forall Q b -> Q s -> set_nth i s b = Some b' -> Forall Q b'.
Proof.
  induction b as [|x b IH]; intros i s b' H Hs Hb; [destruct i; discriminate|]. inversion H; subst.
  destruct i as [|i]; cbn in Hb; [injection Hb as <-; constructor; assumption|].
  destruct (set_nth i s b) as [b1|] eqn:Hb1; [|discriminate]. cbn in Hb. injection Hb as <-. constructor; [assumption|]. eapply IH; [eassumption|exact Hs|exact Hb1].
Qed.
Lemma previous_all (Q : str -> Prop) h line s h' : Forall Q (h_buf h) -> Q line -> previous h line = Some (s, h') ->
  Q s /\ Forall Q (h_buf h').
Proof.
  intros H Hl Hp. unfold previous in Hp.
  assert (Hb : forall h1, Forall Q (h_buf h1) -> match nth_error (h_buf h1) (h_cur h1) with Some s => Some (s, h1) | None => None end = Some (s, h') -> Q s /\ Forall Q (h_buf h')).
  { intros h1 H1 Hn. destruct (nth_error (h_buf h1) (h_cur h1)) as [s1|] eqn:Hs; [|discriminate]. injection Hn as <- <-.
    split; [|exact H1]. apply nth_error_In in Hs. rewrite Forall_forall in H1. auto. }
  destruct (h_browse h).
  - destruct (set_nth (h_cur h) line (h_buf h)) as [b|] eqn:Hs; [|discriminate]. eapply Hb; [|exact Hp]. cbn. eapply set_nth_all; eassumption.
  - eapply Hb; [|exact Hp]. cbn. apply insert_all; assumption.
Qed.
Lemma next_all (Q : str -> Prop) h s h' : Forall Q (h_buf h) -> Q [] -> next h = Some (s, h') -> Q s /\ Forall Q (h_buf h').
Proof.
  intros H H0 Hn. unfold next in Hn. destruct (h_buf h) as [|x b] eqn:Hb.
  - injection Hn as <- <-. rewrite Hb. auto.
  - destruct (h_cur h) as [|c]; [injection Hn as <- <-; rewrite Hb; auto|].
    destruct (nth_error (x :: b) c) as [y|] eqn:Hy; [|discriminate]. injection Hn as <- <-. cbn [h_buf]. split; [|exact H].
    apply nth_error_In in Hy. rewrite Forall_forall in H. auto.
Qed.
Lemma completions_sound P fuel line w l : get_completions P fuel line w = GOk l -> forall c, In c l -> offered w line c.
Proof.
  unfold get_completions. destruct (trim_left P line) as [r|] eqn:Hr; [|discriminate]. apply trim_left_spec in Hr. subst r.
  intros H c. apply g_map_ok in H as (v & H & ->). rewrite unique_in, sort_in.
  apply g_app_ok in H as (x & y & Hx & Hy & ->). rewrite in_app_iff.
  destruct (locate (w_cur w) [] (w_root w)) as [ctx|] eqn:Hl; [|discriminate].
  assert (Hc : in_menu w ctx) by (apply locate_in_menu; exact Hl).
  assert (Hm := chain_menus _ _ (proj1 Hc)).
  rewrite (menu_completions_exact P fuel _ _ _ (proj1 Hm) (proj2 Hm) Hy).
  rewrite (menu_completions_exact P fuel _ [global_menu] _ (Forall_cons _ global_is_menu (Forall_nil _)) ltac:(discriminate) Hx).
  unfold offered. intros [Ho|Ho]; eauto.
Qed.
Lemma offers_chars (C : ascii -> Prop) ctx line c : C " "%char -> C "."%char -> offers ctx line c ->
  Forall (every (fun k => Forall C (cmd_name k))) ctx -> Forall C c.
Proof.
  intros Hs Hd H.
  assert (Hkid : forall m anc k, In k (cmd_kids m) -> Forall (every (fun k => Forall C (cmd_name k))) (m :: anc) -> every (fun k => Forall C (cmd_name k)) k).
  { intros m anc k Hk Hf. inversion Hf; subst. eapply every_kid; eassumption. }
  assert (Hlit : Forall C (lit " ")) by (repeat constructor; assumption).
  induction H as [m anc k line Hk _ _ _|m anc k line rest c Hk Hm Hl Ho IH|m p anc line He Hp Hl Hd'
      |m p anc line rest c Hl Ho IH|m p anc line rest c Hp Hl Ho IH]; intros Hf.
  - exact (every_here _ _ (Hkid _ _ _ Hk Hf)).
  - apply Forall_app. split; [exact (every_here _ _ (Hkid _ _ _ Hk Hf))|]. apply Forall_app. split; [exact Hlit|].
    apply IH. constructor; [eapply Hkid; eassumption|exact Hf].
  - inversion Hf as [|? ? _ Hf2]; subst. inversion Hf2; subst. eapply (every_here (fun k => Forall C (cmd_name k))). eassumption.
  - inversion Hf as [|? ? _ Hf2]; subst. apply Forall_app. split; [inversion Hf2; subst; eapply (every_here (fun k => Forall C (cmd_name k))); eassumption|].
    apply Forall_app. split; [exact Hlit|]. apply IH. exact Hf2.
  - inversion Hf as [|? ? _ Hf2]; subst. apply Forall_app. split; [repeat constructor; assumption|].
    apply Forall_app. split; [exact Hlit|]. apply IH. exact Hf2.
Qed.
Lemma every_impl (Q R : cmd -> Prop) c : (forall k, Q k -> R k) -> every Q c -> every R c.
Proof.
  intros H. induction c as [i n e d p pd h|i n e d pd h|i n e d p ks IH] using cmd_ind2.
  - cbn. intros (H1 & _). auto.
  - cbn. intros (H1 & _). auto.
  - rewrite !every_menu. intros (H1 & H2). split; [auto|]. rewrite Forall_forall in *. auto.
Qed.
Lemma offered_chars (C : ascii -> Prop) w line c : C " "%char -> C "."%char ->
  Forall (Forall C) global_names -> every (fun k => Forall C (cmd_name k)) (w_root w) -> offered w line c -> Forall C c.
Proof.
  intros Hs Hd Hg Hr [H|(ctx & (Hc & _) & H)].
  - apply global_view in H as (H & _). rewrite Forall_forall in Hg. auto.
  - eapply offers_chars; try eassumption. eapply every_chain; eassumption.
Qed.
Lemma completions_printable P fuel line w l : neat_world w -> get_completions P fuel line w = GOk l -> Forall (Forall printable) l.
Proof.
  intros (H & _) Hg. apply Forall_forall. intros c Hc. apply (completions_sound _ _ _ _ _ Hg) in Hc. revert Hc. apply offered_chars.
  - unfold printable. cbn. lia.
  - unfold printable. cbn. lia.
  - repeat (apply Forall_cons; [apply printable_dec; reflexivity|]). apply Forall_nil.
  - eapply every_impl; [|exact H]. intros k (Hk & _). exact Hk.
Qed.

(** ** Keys *)
Lemma printable_text e : printable_ed e -> Forall printable (ed_text e).
Proof. intros (H1 & H2). apply Forall_app. split; [apply Forall_rev|]; assumption. Qed.
Lemma printable_ended s : Forall printable s -> printable_ed (mkEd (rev s) []).
Proof. intros H. split; [apply Forall_rev; exact H|constructor]. Qed.
Lemma neat_only w w' : only_printed w w' -> neat_world w -> neat_world w'.
Proof. intros (R & _ & _ & _ & _ & H & _) (H1 & H2). split; congruence. Qed.
Lemma prompt_only w w' r : only_printed w w' -> prompt_row w r -> prompt_row w' r.
Proof. intros (R & _ & _ & _ & C & _ & X & _). apply prompt_row_world; assumption. Qed.
Lemma shows_nl base e sc : shows base e sc -> at_end (display nl sc).
Proof. intros H. apply shows_iff in H as (ab & n & ->). apply at_end_iff. eexists _, []. reflexivity. Qed.
Lemma shows_crlf base e sc : shows base e sc -> at_end (display crlf sc).
Proof. intros H. apply shows_iff in H as (ab & n & ->). apply at_end_iff. eexists _, []. reflexivity. Qed.
Lemma shows_clear base e sc : shows base e sc -> at_end (display clear_screen sc).
Proof. intros (_ & _ & _ & H). rewrite display_clear by exact H. apply at_end_iff. eexists _, []. reflexivity. Qed.

Definition shown (sc : screen) (p : proc) : Prop :=
  neat_world (p_world p) /\ exists e last, displayed sc p e last.

(** Something is printed that leaves the cursor at the end, then the prompt and the
    line again (completions, clear screen). *)
Lemma reprint tty color s p p' sc e : holds (p_term p) e -> printable_ed e -> resting sc (out s (p_world p)) ->
  p_bind (p_prompt tty color (p_out s p)) (fun p1 => POk (p_set_line tty color (ed_text e) (p_reset_cursor p1))) = POk p' ->
  shown sc p'.
Proof.
  intros He Hpe Hr H. destruct (p_prompt tty color (p_out s p)) as [p1| | |] eqn:Hp; try discriminate. cbn [p_bind] in H. injection H as <-.
  destruct (prompt_at_row tty color (p_out s p) p1 sc Hr Hp) as (Hn & Ho & Hl & _ & r & last & Hrow & Hat).
  cbn [p_out p_term] in Hl.
  destruct (rewrite_line tty color (ed_text e) p1 sc (last ++ r)) as (Ho2 & Hh & Hs); [rewrite Hl; apply He|apply printable_text; exact Hpe|exact Hat|].
  split; [eapply neat_only; eassumption|]. exists (mkEd (rev (ed_text e)) []), last.
  split; [exact Hh|]. split; [apply printable_ended, printable_text; exact Hpe|]. exists r. split; [eapply prompt_only; eassumption|exact Hs].
Qed.

Lemma press_shown E fuel tty k p p' sc : neat_code E -> printable_key (ks_key k) -> shown sc p ->
  press E fuel tty k p = POk p' -> shown sc p'.
Proof.
  intros Hcode Hk (Hn & e & last & He & Hpe & r & Hr & Hs) H.
  destruct (key_dec (ks_key k) KRet) as [Hret|Hret].
  - (* Return *)
    destruct (press_ret E fuel tty k p e He Hret) as (t & Ht & Hp). rewrite Hp in H. clear Hp. unfold process, p_out, p_log in H.
    cbn [p_world p_term] in H.
    set (w1 := log (EvInput (w_sid (out crlf (p_world p))) false) (out crlf (p_world p))) in H.
    assert (Hw1 : resting sc w1).
    { apply resting_log; [apply neat_nil|]. split; [exact Hn|]. rewrite screen_out. eapply shows_crlf. exact Hs. }
    pose proof (resting_feed E Hcode sc fuel (ed_text e) w1 (printable_text _ Hpe) Hw1) as Hf.
    destruct (feed E fuel (ed_text e) w1) as [w2| | |]; try discriminate H. cbn [of_fres p_bind fx_inv] in H, Hf.
    destruct (p_prompt tty (ks_color' k) (mkProc w2 t)) as [p3| | |] eqn:Hp; try discriminate H. cbn [p_bind] in H. injection H as <-.
    destruct (prompt_at_row tty (ks_color' k) (mkProc w2 t) p3 sc Hf Hp) as (Hn3 & _ & Hl3 & Hp3 & r3 & last3 & Hr3 & Hat).
    cbn [p_term] in Hl3, Hp3. split; [exact Hn3|]. exists (mkEd [] []), last3.
    split; [split; cbn [p_log p_term]; [rewrite Hl3|rewrite Hp3]; apply Ht|]. split; [split; constructor|].
    exists r3. split; [exact Hr3|]. cbn [p_log p_world]. rewrite screen_log. cbn [received]. apply at_row_shows. exact Hat.
  - assert (Hpo : printable_op (EKey (ks_key k))) by (destruct (ks_key k); cbn in *; tauto).
    unfold press in H. destruct (keypressed_spec tty (ks_color k) (ks_key k) (p_term p) e He) as (t & Hkp & Ht & _).
    rewrite Hkp in H. clear Hkp. set (b := key_out tty (ks_color k) (tm_force (p_term p)) (ks_key k) e) in *.
    pose proof (display_key tty (ks_color k) (tm_force (p_term p)) (ks_key k) e (last ++ r) _ Hpe Hpo Hs) as Hs1. fold b in Hs1.
    pose proof (printable_ed_op (EKey (ks_key k)) e Hpo Hpe) as Hpe1. cbn [ed_op] in Hpe1.
    set (e1 := ed_key (ks_key k) e) in *.
    rewrite <- screen_out in Hs1.
    assert (Hn1 : neat_world (out b (p_world p))) by exact Hn.
    assert (Hr1 : prompt_row (out b (p_world p)) r) by exact Hr.
    set (p1 := p_out b (mkProc (p_world p) t)) in *.
    assert (Hsame : shown sc p1).
    { split; [exact Hn1|]. exists e1, last. split; [exact Ht|]. split; [exact Hpe1|]. exists r. split; assumption. }
    assert (Hset : forall h s, Forall printable s -> Forall (Forall printable) (h_buf h) ->
       shown sc (p_set_line tty (ks_color' k) s (mkProc (set_hist h (out b (p_world p))) t))).
    { intros h s Hss Hh. destruct (set_line_shows tty (ks_color' k) s (mkProc (set_hist h (out b (p_world p))) t) e1 sc (last ++ r) Ht Hss Hs1) as (Ho & Hh2 & Hs2).
      split; [eapply neat_only; [exact Ho|split; [apply Hn|exact Hh]]|]. exists (mkEd (rev s) []), last. split; [exact Hh2|].
      split; [apply printable_ended; exact Hss|]. exists r. split; [eapply prompt_only; [exact Ho|exact Hr1]|exact Hs2]. }
    assert (Hset0 : forall s, Forall printable s -> shown sc (p_set_line tty (ks_color' k) s p1)).
    { intros s Hss. destruct (set_line_shows tty (ks_color' k) s p1 e1 sc (last ++ r) Ht Hss Hs1) as (Ho & Hh2 & Hs2).
      split; [eapply neat_only; [exact Ho|exact Hn1]|]. exists (mkEd (rev s) []), last. split; [exact Hh2|].
      split; [apply printable_ended; exact Hss|]. exists r. split; [eapply prompt_only; [exact Ho|exact Hr1]|exact Hs2]. }
    assert (Htext : get_line (p_term p1) = ed_text e1) by apply Ht.
    destruct (key_symbol (ks_key k) (ed_text e)) as [|c| | | | |] eqn:Hsy; unfold process in H.
    + injection H as <-. exact Hsame.
    + destruct (ks_key k); try discriminate Hsy; try congruence. cbn in Hsy. destruct (Ascii.eqb c0 "009"); discriminate.
    + rewrite Htext in H. unfold previous_cmd in H. destruct (previous _ _) as [(s, h)|] eqn:Hpv; [|discriminate]. injection H as <-.
      apply (previous_all (Forall printable)) in Hpv as (Hss & Hh); [|apply Hn|apply printable_text; exact Hpe1]. apply Hset; assumption.
    + unfold next_cmd in H. destruct (next _) as [(s, h)|] eqn:Hpv; [|discriminate]. injection H as <-.
      apply (next_all (Forall printable)) in Hpv as (Hss & Hh); [|apply Hn|constructor]. apply Hset; assumption.
    + rewrite Htext in H. destruct (get_completions _ _ _ _) as [l| |] eqn:Hg; try discriminate.
      pose proof (completions_printable _ _ _ _ _ Hn1 Hg) as Hl.
      destruct l as [|c [|c' l]].
      * injection H as <-. exact Hsame.
      * injection H as <-. apply Hset0. inversion Hl; subst. apply Forall_app. split; [assumption|apply printable_dec; reflexivity].
      * destruct (common_prefix_spec (c :: c' :: l)) as (pre & Hpre & (Hpall & _)); [discriminate|]. rewrite Hpre in H.
        destruct (Nat.ltb _ _).
        -- injection H as <-. apply Hset0. inversion Hl as [|? ? Hc _]; subst. destruct (Hpall c (or_introl eq_refl)) as (q & ->).
           apply Forall_app in Hc. tauto.
        -- eapply (reprint tty (ks_color' k) _ p1 p' sc e1); [exact Ht|exact Hpe1| |exact H].
           split; [exact Hn1|]. rewrite screen_out, display_app.
           assert (Hneat : neat (flat_map (fun c0 => tab ++ c0) (c :: c' :: l) ++ nl)).
           { neat_tac. apply neat_flat. eapply Forall_impl; [|exact Hl]. intros x Hx. neat_tac. apply neat_text, Hx. }
           apply Hneat. eapply shows_nl. exact Hs1.
    + destruct (ks_key k); try discriminate Hsy; try (destruct Hk). all: cbn in Hsy; try (destruct (Ascii.eqb c "009"); discriminate).
    + rewrite Htext in H. eapply (reprint tty (ks_color' k) _ p1 p' sc e1); [exact Ht|exact Hpe1| |exact H].
      split; [exact Hn1|]. rewrite screen_out. eapply shows_clear. exact Hs1.
Qed.
Lemma presses_shown E fuel tty ks sc : neat_code E -> forall p p', Forall (fun k => printable_key (ks_key k)) ks -> shown sc p ->
  presses E fuel tty ks p = POk p' -> shown sc p'.
Proof.
  intros Hcode. induction ks as [|k ks IH]; intros p p' Hk Hs H; [cbn in H; injection H as <-; exact Hs|].
  inversion Hk; subst. cbn [presses] in H. destruct (press E fuel tty k p) as [p1| | |] eqn:Hp; try discriminate. cbn [p_bind] in H.
  eapply IH; [eassumption| |exact H]. eapply press_shown; eassumption.
Qed.
Lemma open_shown E tty color w p sc : neat_code E -> neat_world w -> at_end (screen_of sc w) ->
  open_local E tty color w = POk p -> shown sc p.
Proof.
  intros Hcode Hn Ha H. unfold open_local in H.
  pose proof (resting_enter E Hcode sc w (conj Hn Ha)) as He. destruct (session_enter E w) as [w1| | |]; try discriminate.
  cbn [of_hres p_bind hx_inv] in H, He. destruct (prompt_at_row tty color (mkProc w1 term_init) p sc He H) as (Hn1 & _ & Hl & Hp & r & last & Hr & Hat).
  split; [exact Hn1|]. exists (mkEd [] []), last. split; [split; [rewrite Hl|rewrite Hp]; reflexivity|]. split; [split; constructor|].
  exists r. split; [exact Hr|]. apply at_row_shows. exact Hat.
Qed.
