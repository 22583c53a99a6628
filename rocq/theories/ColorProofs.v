(** * Proofs about colours *)

From Verif Require Import Base SplitModel SplitSpec SplitProofs FromStringModel FromStringSpec FromStringProofs HistoryModel HistorySpec HistoryProofs StorageModel
  PrefixModel PrefixSpec PrefixProofs TerminalModel TerminalSpec TerminalProofs MenuModel SessionModel ResolveSpec ResolveProofs SessionSpec
  TreeProofs SessionProofs InvariantProofs OutputProofs FeatureProofs CompletionModel CompletionSpec CompletionProofs ProcessorModel ProcessorSpec ProcessorProofs
  DisplayProofs ColorSpec.
Open Scope nat_scope.
Open Scope list_scope.

(** ** Texts *)
Section Alike.
Context (C : ascii -> Prop).
Lemma alike_app a b a' b' : alike C a b -> alike C a' b' -> alike C (a ++ a') (b ++ b').
Proof.
  intros H H'. induction H as [|c a b Hc H IH|k a b Hk H IH|k a b Hk H IH]; [exact H'| | |].
  - cbn. apply al_char; assumption.
  - rewrite <- app_assoc. apply al_left; assumption.
  - rewrite <- app_assoc. apply al_right; assumption.
Qed.
Lemma alike_refl a : Forall C a -> alike C a a.
Proof. induction 1; [apply al_nil|apply al_char; assumption]. Qed.
Lemma sgr_code n : colour_code (sgr n).
Proof.
  exists (print_N n). split; [reflexivity|]. destruct (print_N_decimal n) as (_ & H).
  induction H; [constructor|]. constructor; [|assumption].
  match goal with Hd : is_digit ?c ?d |- _ => apply is_digit_code in Hd as (Hc & Hr); unfold code in Hc end.
  unfold is_param. apply orb_true_iff. right. apply andb_true_iff. split; apply N.leb_le; lia.
Qed.
Lemma alike_sgr_l n b : alike C [] b -> alike C (sgr n) b.
Proof. intros H. rewrite <- (app_nil_r (sgr n)). apply al_left; [apply sgr_code|exact H]. Qed.
Lemma alike_sgr_r n a : alike C a [] -> alike C a (sgr n).
Proof. intros H. rewrite <- (app_nil_r (sgr n)). apply al_right; [apply sgr_code|exact H]. Qed.
Lemma alike_before_input c c' f f' : alike C (fst (before_input c f)) (fst (before_input c' f')).
Proof. destruct c, c'; cbn [before_input fst]; repeat (apply alike_sgr_l || apply alike_sgr_r || apply al_nil). Qed.
Lemma alike_after_input t t' f f' : alike C (after_input t f) (after_input t' f').
Proof. unfold after_input. destruct (f || t), (f' || t'); repeat (apply alike_sgr_l || apply alike_sgr_r || apply al_nil). Qed.
Lemma alike_before_prompt c c' f f' : alike C (fst (before_prompt c f)) (fst (before_prompt c' f')).
Proof.
  destruct c, c'; cbn [before_prompt fst]; try apply al_nil.
  - apply alike_app; apply alike_sgr_l, alike_sgr_r, al_nil.
  - apply al_left; [apply sgr_code|]. apply alike_sgr_l, al_nil.
  - apply al_right; [apply sgr_code|]. apply alike_sgr_r, al_nil.
Qed.
Lemma alike_after_prompt t t' f f' : alike C (after_prompt t f) (after_prompt t' f').
Proof. apply alike_after_input. Qed.

Lemma event_refl e : alike_event C e e.
Proof. left. reflexivity. Qed.
Lemma events_refl l : Forall2 (alike_event C) l l.
Proof. induction l; constructor; [apply event_refl|assumption]. Qed.
Lemma events_snoc l l' e e' : Forall2 (alike_event C) l l' -> alike_event C e e' -> Forall2 (alike_event C) (l ++ [e]) (l' ++ [e']).
Proof. intros H He. apply Forall2_app; [exact H|]. constructor; [exact He|constructor]. Qed.

(** ** The same state with other output *)
Definition retrace (t : list event) (w : world) : world :=
  mkWorld (w_root w) (w_next w) (w_store w) (w_sid w) (w_cur w) (w_hist w) (w_exit w) t.
Lemma alike_world_iff w w' : alike_world C w w' <-> exists t, w' = retrace t w /\ Forall2 (alike_event C) (w_trace w) t.
Proof.
  split.
  - intros (H1 & H2 & H3 & H4 & H5 & H6 & H7 & H8). exists (w_trace w'). split; [|exact H8].
    destruct w, w'. cbn in *. unfold retrace. cbn. congruence.
  - intros (t & -> & H). unfold alike_world. cbn. repeat (split; [reflexivity|]). exact H.
Qed.
Lemma alike_world_refl w : alike_world C w w.
Proof. apply alike_world_iff. exists (w_trace w). split; [destruct w; reflexivity|apply events_refl]. Qed.

Definition h_alike (r r' : hres) : Prop :=
  match r, r' with
  | HOk w, HOk w' => alike_world C w w'
  | HExc x w, HExc x' w' => x = x' /\ alike_world C w w'
  | HUB, HUB | HFuel, HFuel => True
  | _, _ => False
  end.
Definition e_alike (r r' : eres) : Prop :=
  match r, r' with
  | EDone b w, EDone b' w' => b = b' /\ alike_world C w w'
  | EExc x w, EExc x' w' => x = x' /\ alike_world C w w'
  | EUB, EUB | EFuel, EFuel => True
  | _, _ => False
  end.
Definition f_alike (r r' : fres) : Prop :=
  match r, r' with
  | FOk w, FOk w' => alike_world C w w'
  | FExc x w, FExc x' w' => x = x' /\ alike_world C w w'
  | FUB, FUB | FFuel, FFuel => True
  | _, _ => False
  end.

Lemma alike_set_root r n w w' : alike_world C w w' -> alike_world C (set_root r n w) (set_root r n w').
Proof. unfold alike_world. cbn. tauto. Qed.
Lemma alike_set_store s w w' : alike_world C w w' -> alike_world C (set_store s w) (set_store s w').
Proof. unfold alike_world. cbn. tauto. Qed.
Lemma alike_set_cur i w w' : alike_world C w w' -> alike_world C (set_cur i w) (set_cur i w').
Proof. unfold alike_world. cbn. tauto. Qed.
Lemma alike_set_hist h w w' : alike_world C w w' -> alike_world C (set_hist h w) (set_hist h w').
Proof. unfold alike_world. cbn. tauto. Qed.
Lemma alike_set_exit b w w' : alike_world C w w' -> alike_world C (set_exit b w) (set_exit b w').
Proof. unfold alike_world. cbn. tauto. Qed.
Lemma alike_log e e' w w' : alike_event C e e' -> alike_world C w w' -> alike_world C (log e w) (log e' w').
Proof.
  intros He (H1 & H2 & H3 & H4 & H5 & H6 & H7 & H8). unfold alike_world. cbn. repeat (split; [assumption|]).
  apply events_snoc; assumption.
Qed.
Lemma alike_out_same s w w' : alike_world C w w' -> alike_world C (out s w) (out s w').
Proof.
  intros H. unfold out. replace (w_sid w') with (w_sid w) by apply H. apply alike_log; [apply event_refl|exact H].
Qed.
Lemma alike_out a b w w' : alike C a b -> alike_world C w w' -> alike_world C (out a w) (out b w').
Proof.
  intros Hab H. unfold out. replace (w_sid w') with (w_sid w) by apply H. apply alike_log; [|exact H].
  right. exists (w_sid w), a, b. auto.
Qed.
Lemma alike_op o w w' : alike_world C w w' -> alike_world C (apply_op w o) (apply_op w' o).
Proof.
  intros H. pose proof H as (H1 & H2 & _). destruct o; cbn [apply_op].
  - apply alike_out_same, H.
  - apply alike_log; [apply event_refl|exact H].
  - rewrite H1, H2. apply alike_set_root, H.
  - rewrite H1, H2. apply alike_set_root, H.
  - rewrite H1, H2. apply alike_set_root, H.
  - rewrite H1, H2. destruct (relabel (w_next w') c) as (c', n). apply alike_log; [apply event_refl|]. apply alike_set_root, H.
Qed.
Lemma alike_ops os : forall w w', alike_world C w w' -> alike_world C (apply_ops os w) (apply_ops os w').
Proof. induction os as [|o os IH]; intros w w' H; [exact H|]. cbn. apply IH, alike_op, H. Qed.

Section Run.
Context (E : env) (Hblind : blind C E).

Lemma alike_hook k args w w' : alike_world C w w' -> h_alike (run_hook E k args w) (run_hook E k args w').
Proof.
  intros H. unfold run_hook. replace (w_sid w') with (w_sid w) by apply H.
  assert (H1 : alike_world C (log (EvHook (w_sid w) k args) w) (log (EvHook (w_sid w) k args) w')) by (apply alike_log; [apply event_refl|exact H]).
  cbn zeta. set (w1 := log _ w) in *. set (w1' := log _ w') in *.
  replace (w_sid w1') with (w_sid w1) by apply H1.
  rewrite <- (proj2 Hblind (w_sid w1) k args (w_trace w1) (w_trace w1')) by apply H1.
  destruct (ur_end (e_hook E (w_sid w1) k args (w_trace w1))); cbn; [|split; [reflexivity|]]; apply alike_ops, H1.
Qed.
Lemma alike_call n args w w' : alike_world C w w' ->
  fst (call_user E n args w) = fst (call_user E n args w') /\ alike_world C (snd (call_user E n args w)) (snd (call_user E n args w')).
Proof.
  intros H. unfold call_user. replace (w_sid w') with (w_sid w) by apply H.
  assert (H1 : alike_world C (log (EvCall (w_sid w) n args) w) (log (EvCall (w_sid w) n args) w')) by (apply alike_log; [apply event_refl|exact H]).
  cbn zeta. set (w1 := log _ w) in *. set (w1' := log _ w') in *.
  replace (w_sid w1') with (w_sid w1) by apply H1.
  rewrite <- (proj1 Hblind (w_sid w1) n args (w_trace w1) (w_trace w1')) by apply H1. cbn [fst snd].
  split; [reflexivity|]. apply alike_ops, H1.
Qed.

Lemma alike_e_bind r r' f f' : e_alike r r' -> (forall w w', alike_world C w w' -> e_alike (f w) (f' w')) -> e_alike (e_bind r f) (e_bind r' f').
Proof.
  intros H Hf. destruct r as [b w|x w| |], r' as [b' w'|x' w'| |]; try contradiction; try exact H.
  destruct H as (<- & H). destruct b; cbn; [split; [reflexivity|exact H]|apply Hf, H].
Qed.
Lemma alike_h_bind r r' f f' : h_alike r r' -> (forall w w', alike_world C w w' -> h_alike (f w) (f' w')) -> h_alike (h_bind r f) (h_bind r' f').
Proof. intros H Hf. destruct r, r'; try contradiction; try exact H. cbn. apply Hf, H. Qed.

Section Exec.
Context (bi : hid -> list value -> world -> hres).
Context (Hbi : forall h args w w', alike_world C w w' -> h_alike (bi h args w) (bi h args w')).

Lemma alike_run_fn h args w w' : alike_world C w w' -> e_alike (run_fn E bi h args w) (run_fn E bi h args w').
Proof.
  intros H. destruct h as [n| | | |].
  { cbn [run_fn]. destruct (alike_call n args w w' H) as (H1 & H2).
    destruct (call_user E n args w) as (r, w1), (call_user E n args w') as (r', w1'). cbn [fst snd] in *. subst r'.
    destruct (ur_end r) as [|[]]; try (split; [reflexivity|exact H2]).
    destruct (existsb is_tree_op (ur_ops r)); [exact Logic.I|split; [reflexivity|exact H2]]. }
  all: cbn [run_fn]; match goal with |- context[bi ?h] => pose proof (Hbi h args w w' H) as Hb; destruct (bi h args w) as [v|x v| |], (bi h args w') as [v'|x' v'| |] end;
    try contradiction; try exact Logic.I; try (split; [reflexivity|exact Hb]);
    destruct Hb as (<- & Hb); destruct x; split; try reflexivity; exact Hb.
Qed.
Lemma alike_run_free h args w w' : alike_world C w w' -> e_alike (run_free E h args w) (run_free E h args w').
Proof.
  intros H. destruct h as [n| | | |]; try exact Logic.I. cbn [run_free]. destruct (alike_call n [VList args] w w' H) as (H1 & H2).
  destruct (call_user E n _ w) as (r, w1), (call_user E n _ w') as (r', w1'). cbn [fst snd] in *. subst r'.
  destruct (ur_end r); split; try reflexivity; exact H2.
Qed.
Lemma alike_leaf c toks w w' : alike_world C w w' -> e_alike (exec_leaf E bi c toks w) (exec_leaf E bi c toks w').
Proof.
  intros H. assert (Hf : e_alike (EDone false w) (EDone false w')) by (split; [reflexivity|exact H]).
  destruct c as [i n e d ps pd h|i n e d pd h|i n e d p ks]; cbn [exec_leaf]; [| |exact Hf].
  - destruct (negb e); [exact Hf|]. destruct (negb _); [exact Hf|]. destruct toks as [|t args]; [exact Logic.I|].
    destruct (str_eqb n t); [|exact Hf]. destruct (convert_all E ps args); [|exact Hf|exact Logic.I]. apply alike_run_fn, H.
  - destruct (negb e); [exact Hf|]. destruct toks as [|t args]; [exact Logic.I|].
    destruct (str_eqb n t); [|exact Hf]. apply alike_run_free, H.
Qed.
Lemma alike_try_all f l : (forall k w w', alike_world C w w' -> e_alike (f k w) (f k w')) ->
  forall w w', alike_world C w w' -> e_alike (try_all f l w) (try_all f l w').
Proof.
  intros Hf. induction l as [|k l IH]; intros w w' H; cbn [try_all]; [split; [reflexivity|exact H]|].
  apply alike_e_bind; [apply Hf, H|exact IH].
Qed.
Lemma alike_handle toks : forall up ctx w w', alike_world C w w' -> e_alike (handle E bi toks up ctx w) (handle E bi toks up ctx w').
Proof.
  induction toks as [|t rest IH]; intros up ctx w w' H; assert (Hf : e_alike (EDone false w) (EDone false w')) by (split; [reflexivity|exact H]).
  - destruct ctx as [|[| |i n e d p ks] anc]; cbn [handle]; try exact Hf. destruct (negb e); [exact Hf|exact Logic.I].
  - destruct ctx as [|[| |i n e d p ks] anc]; cbn [handle]; try exact Hf. destruct (negb e); [exact Hf|].
    destruct (str_eqb n t || _); [|exact Hf]. destruct rest as [|t2 rest]; [split; [reflexivity|apply alike_set_cur, H]|].
    apply alike_e_bind.
    + apply alike_try_all; [|exact H]. intros k v v' Hv. destruct k; [apply alike_leaf, Hv|apply alike_leaf, Hv|apply IH, Hv].
    + intros v v' Hv. destruct anc; [split; [reflexivity|exact Hv]|]. apply IH, Hv.
Qed.
Lemma alike_scan toks ctx w w' : alike_world C w w' -> e_alike (scan E bi toks ctx w) (scan E bi toks ctx w').
Proof.
  intros H. destruct ctx as [|m anc]; cbn [scan]; [split; [reflexivity|exact H]|].
  destruct (negb (cmd_en m)); [split; [reflexivity|exact H]|]. apply alike_e_bind.
  - apply alike_try_all; [|exact H]. intros k v v' Hv. destruct k; cbn [exec]; [apply alike_leaf, Hv|apply alike_leaf, Hv|apply alike_handle, Hv].
  - intros v v' Hv. destruct anc; [split; [reflexivity|exact Hv]|]. apply alike_handle, Hv.
Qed.
End Exec.

Lemma alike_exit w w' : alike_world C w w' -> h_alike (session_exit E w) (session_exit E w').
Proof.
  intros H. unfold session_exit. apply alike_h_bind.
  - destruct (e_has E KSesExit); [apply alike_hook, H|split; [reflexivity|exact H]].
  - intros v v' Hv. apply alike_h_bind.
    + destruct (e_has E KCliExit); [apply alike_hook, Hv|exact Hv].
    + intros u u' Hu. pose proof Hu as (_ & _ & H3 & _ & _ & H6 & _). rewrite H6, H3. destruct (get_commands (w_hist u')); [|exact Logic.I].
      apply alike_set_exit, alike_set_store, Hu.
Qed.
Lemma alike_enter w w' : alike_world C w w' -> h_alike (session_enter E w) (session_enter E w').
Proof.
  intros H. unfold session_enter. apply alike_h_bind.
  - destruct (e_has E KCliEnter); [apply alike_hook, H|exact H].
  - intros v v' Hv. destruct (e_has E KSesEnter); [apply alike_hook, Hv|exact Hv].
Qed.
Lemma alike_help w w' : alike_world C w w' -> help_text w = help_text w'.
Proof. intros (H1 & _ & _ & _ & H5 & _). unfold help_text. rewrite H1, H5. reflexivity. Qed.
Lemma alike_builtin rec : (forall l w w', alike_world C w w' -> f_alike (rec l w) (rec l w')) ->
  forall h args w w', alike_world C w w' -> h_alike (builtin E rec h args w) (builtin E rec h args w').
Proof.
  intros Hrec h args w w' H. pose proof H as (_ & _ & _ & _ & _ & H6 & _).
  destruct h; cbn [builtin]; try exact Logic.I.
  - rewrite (alike_help w w' H). destruct (help_text w'); [apply alike_out_same, H|exact Logic.I].
  - apply alike_exit, H.
  - rewrite H6. destruct (show (w_hist w')); [apply alike_out_same, H|split; [reflexivity|exact H]].
  - destruct args as [|[]  [|]]; try exact Logic.I. rewrite H6. destruct (forget_latest (w_hist w')) as [h'|]; [|exact Logic.I].
    destruct (at_id h' z) as [l| |]; [|split; [reflexivity|apply alike_set_hist, H]|exact Logic.I].
    pose proof (Hrec l _ _ (alike_set_hist h' w w' H)) as Hr.
    destruct (rec l (set_hist h' w)), (rec l (set_hist h' w')); try contradiction; exact Hr.
Qed.
Lemma alike_wrong line w w' : alike_world C w w' -> h_alike (wrong_command E line w) (wrong_command E line w').
Proof. intros H. unfold wrong_command. destruct (e_has E KWrong); [apply alike_hook, H|apply alike_out_same, H]. Qed.
Lemma alike_std line what w w' : alike_world C w w' -> h_alike (std_exception E line what w) (std_exception E line what w').
Proof. intros H. unfold std_exception. destruct (e_has E KExcept); [apply alike_hook, H|apply alike_out_same, H]. Qed.
Lemma alike_dispatch bi toks line w w' : (forall h args w w', alike_world C w w' -> h_alike (bi h args w) (bi h args w')) ->
  alike_world C w w' -> e_alike (dispatch E bi toks line w) (dispatch E bi toks line w').
Proof.
  intros Hbi H. unfold dispatch. apply alike_e_bind; [apply alike_scan; assumption|]. intros v v' Hv.
  pose proof Hv as (H1 & _ & _ & _ & H5 & _). rewrite H1, H5. destruct (locate (w_cur v') [] (w_root v')) as [ctx|]; [|exact Logic.I].
  apply alike_e_bind; [apply alike_scan; [intros; exact Logic.I|exact Hv]|]. intros u u' Hu.
  pose proof (alike_wrong line u u' Hu) as Hr. destruct (wrong_command E line u), (wrong_command E line u'); try contradiction; try exact Hr.
  split; [reflexivity|exact Hr].
Qed.
Lemma alike_feed fuel : forall line w w', alike_world C w w' -> f_alike (feed E fuel line w) (feed E fuel line w').
Proof.
  induction fuel as [|fuel IH]; intros line w w' H; [exact Logic.I|]. cbn [feed]. unfold feed_body.
  destruct (split line) as [[|t toks]|]; [exact H| |exact Logic.I].
  pose proof H as (_ & _ & _ & _ & _ & H6 & _). rewrite H6. destruct (new_command (w_hist w') line) as [h|]; [|exact Logic.I].
  pose proof (alike_dispatch (builtin E (feed E fuel)) (t :: toks) line _ _ (alike_builtin _ IH) (alike_set_hist h w w' H)) as Hd.
  destruct (dispatch E _ _ _ (set_hist h w)) as [b v|x v| |], (dispatch E _ _ _ (set_hist h w')) as [b' v'|x' v'| |]; try contradiction; try exact Logic.I.
  - apply Hd.
  - destruct Hd as (<- & Hd). destruct x as [what|what|]; [| |apply alike_out_same, Hd].
    all: pose proof (alike_std line what v v' Hd) as Hs; destruct (std_exception E line what v), (std_exception E line what v'); try contradiction; exact Hs.
Qed.
End Run.
End Alike.

(** ** What is printed *)
Section Inv.
Context (C : ascii -> Prop) (N : str -> Prop) (Coloured : Prop).
Context (HC : forall c, not_escape c -> C c) (HN : forall s, Forall C s -> N s)
  (HA : forall a b, N a -> N b -> N (a ++ b)) (HS : Coloured -> forall n, N (sgr n)).

Lemma in_nil : N [].
Proof. apply HN. constructor. Qed.
Lemma in_flat {A} (f : A -> str) l : Forall (fun x => N (f x)) l -> N (flat_map f l).
Proof. induction 1; cbn; [apply in_nil|apply HA; assumption]. Qed.
Lemma chars_dec s : forallb (fun c => negb (Ascii.eqb c "027")) s = true -> Forall C s.
Proof.
  intros H. rewrite forallb_forall in H. apply Forall_forall. intros c Hc. apply H in Hc. apply HC. intros ->. discriminate.
Qed.
Lemma in_lit s : forallb (fun c => negb (Ascii.eqb c "027")) s = true -> N s.
Proof. intros H. apply HN, chars_dec, H. Qed.
Lemma chars_digits n : Forall C (print_N n).
Proof.
  pose proof (print_N_printable n) as H. eapply Forall_impl; [|exact H]. intros c Hc. apply HC. intros ->. unfold printable in Hc. cbn in Hc. lia.
Qed.
Ltac in_tac :=
  repeat match goal with
  | |- N (_ ++ _) => apply HA
  | |- N [] => apply in_nil
  | |- N nl => apply in_lit; reflexivity
  | |- N tab => apply in_lit; reflexivity
  | |- N (lit _) => apply in_lit; reflexivity
  end.
Lemma in_help_line c : texts_in C N c -> N (help_line c).
Proof.
  intros (Hn & H). unfold help_line. destruct (negb (cmd_en c)); [apply in_nil|].
  assert (Hp : forall pd, Forall N pd -> N (print_pdesc pd)).
  { intros pd Hpd. apply in_flat. eapply Forall_impl; [|exact Hpd]. intros s Hs. in_tac. exact Hs. }
  destruct c as [i n e d ps pd h|i n e d pd h|i n e d p ks]; cbn [cmd_name] in *; destruct H as (H1 & H2); try destruct H2 as (H2 & H3); in_tac; auto.
  - destruct pd; [|apply in_nil]. apply in_flat. eapply Forall_impl; [|exact H3]. intros q Hq. in_tac. destruct q as [[]| | | |[]|]; try (apply in_lit; reflexivity). exact Hq.
  - destruct pd; in_tac.
Qed.
Lemma in_main_help ctx : Forall (every (texts_in C N)) ctx -> N (main_help ctx).
Proof.
  intros H. destruct ctx as [|m anc]; [apply in_nil|]. cbn. destruct (negb (cmd_en m)); [apply in_nil|].
  inversion H as [|? ? Hm Ha]; subst. apply HA.
  - apply in_flat. apply Forall_forall. intros k Hk. apply in_help_line, every_here. eapply every_kid; eassumption.
  - destruct anc as [|p anc]; [apply in_nil|]. inversion Ha; subst. apply in_help_line, every_here. assumption.
Qed.
Lemma in_global : every (texts_in C N) global_menu.
Proof.
  assert (H : forall s, forallb (fun c => negb (Ascii.eqb c "027")) s = true -> Forall C s /\ N s).
  { intros s Hs. split; [apply chars_dec|apply in_lit]; exact Hs. }
  apply every_menu. split; [split; [constructor|split; [apply in_nil|constructor]]|].
  repeat (apply Forall_cons; [cbn; split; [|exact Logic.I]; split; [apply H; reflexivity|split; [apply H; reflexivity|split; [repeat (apply Forall_cons; [apply H; reflexivity|]); apply Forall_nil|repeat constructor]]]|]).
  apply Forall_nil.
Qed.
Lemma in_help w s : every (texts_in C N) (w_root w) -> help_text w = Some s -> N s.
Proof.
  unfold help_text. intros H. destruct (locate (w_cur w) [] (w_root w)) as [ctx|] eqn:Hl; [|discriminate].
  intros E. apply (f_equal (fun o => match o with Some x => x | None => [] end)) in E. cbv beta iota in E. subst s.
  apply locate_in_menu in Hl. in_tac; [apply in_main_help; constructor; [apply in_global|constructor]|].
  apply in_main_help. eapply every_chain; [exact H|apply Hl].
Qed.
Lemma in_show h s : Forall (Forall C) (h_buf h) -> show h = Some s -> N s.
Proof.
  intros Hb. unfold show. destruct (show_loop h (length (h_buf h))) as [t|] eqn:Ht; [|discriminate]. intros E. injection E as <-.
  assert (H : forall n t, show_loop h n = Some t -> N t).
  { induction n as [|n IH]; intros u Hu; cbn in Hu; [injection Hu as <-; apply in_nil|].
    destruct (index_to_id h (Z.of_nat n)); [|discriminate]. destruct (nth_error (h_buf h) n) as [l|] eqn:Hl; [|discriminate].
    destruct (show_loop h n) as [r|]; [|discriminate]. injection Hu as <-.
    change ((print_N (Z.to_N z) ++ "009"%char :: l ++ "010"%char :: r)) with (print_N (Z.to_N z) ++ tab ++ l ++ nl ++ r).
    in_tac; [apply HN, chars_digits| |apply IH; reflexivity].
    apply HN. rewrite Forall_forall in Hb. apply Hb. eapply nth_error_In. exact Hl. }
  change ("010"%char :: t ++ ["010"%char]) with (nl ++ t ++ nl). in_tac. eapply H. exact Ht.
Qed.
Lemma texts_in_only : texts_only (texts_in C N).
Proof. split; [|split]; intros; assumption. Qed.

Definition event_in (e : event) : Prop :=
  match e with EvOut _ s | EvBroadcast s => N s \/ s = clear_screen | _ => True end.
Definition tidy (pre : world) (w : world) : Prop :=
  world_in C N w /\ exists evs, w_trace w = w_trace pre ++ evs /\ w_sid w = w_sid pre /\ Forall event_in evs.
Lemma tidy_log pre e w : event_in e -> tidy pre w -> tidy pre (log e w).
Proof.
  intros He (H & evs & Ht & Hs & Hf). split; [exact H|]. exists (evs ++ [e]). cbn. rewrite Ht, <- app_assoc. split; [reflexivity|]. split; [exact Hs|].
  apply Forall_app. split; [exact Hf|]. constructor; [exact He|constructor].
Qed.
Lemma tidy_out pre s w : N s -> tidy pre w -> tidy pre (out s w).
Proof. intros Hs. apply tidy_log. left. exact Hs. Qed.
Lemma tidy_op pre w o : op_in C N o -> tidy pre w -> tidy pre (apply_op w o).
Proof.
  intros Ho H. pose proof H as ((H1 & H2) & H3).
  assert (Ht : every (texts_in C N) (w_root (apply_op w o))).
  { apply every_op; [apply texts_in_only| |exact H1]. intros pid c ->. exact Ho. }
  destruct o as [s|s|id|id|id|pid c].
  - apply tidy_out; [exact Ho|exact H].
  - apply tidy_log; [left; exact Ho|exact H].
  - exact (conj (conj Ht H2) H3).
  - exact (conj (conj Ht H2) H3).
  - exact (conj (conj Ht H2) H3).
  - cbn in Ht |- *. destruct (relabel (w_next w) c) as (c', n). apply tidy_log; [exact Logic.I|]. exact (conj (conj Ht H2) H3).
Qed.

Section Feed.
Context (E : env) (Hcode : code_in C N E).
Lemma in_code_ops : code_ops E (op_in C N).
Proof. split; intros; apply Hcode. Qed.
Lemma in_code_throws : code_throws E (exn_in N).
Proof.
  destruct Hcode as (H1 & H2). split.
  - intros sid h args tr x Hx. specialize (H1 sid h args tr) as (_ & H1). rewrite Hx in H1. exact H1.
  - intros sid h args tr x Hx. specialize (H2 sid h args tr) as (_ & H2). rewrite Hx in H2. exact H2.
Qed.
Lemma tidy_feed pre fuel line w : Forall C line -> tidy pre w -> fx_inv (tidy pre) (exn_in N) (feed E fuel line w).
Proof.
  apply (out_feed_inv E (tidy pre) (Forall C) (exn_in N) (op_in C N) in_code_ops in_code_throws).
  - cbn. apply in_lit. reflexivity.
  - cbn. apply in_lit. reflexivity.
  - intros e w0 He. apply tidy_log. destruct e; try destruct He; exact Logic.I.
  - intros w0 s H Hs. apply tidy_out; [|exact H]. eapply in_help; [apply H|exact Hs].
  - intros w0 s H Hs. apply tidy_out; [|exact H]. eapply in_show; [apply H|exact Hs].
  - intros w0 l H Hl. apply tidy_out; [|exact H]. in_tac. apply HN, Hl.
  - intros w0 s H Hs. apply tidy_out; [|exact H]. in_tac. destruct Hs; assumption.
  - intros w0 l H Hl. apply tidy_out; [|exact H]. in_tac. apply HN, Hl.
  - intros w0 o. apply tidy_op.
  - intros w0 ctx toks p id H _ _. exact H.
  - intros cmds w0 H _. exact H.
  - intros w0 H. exact H.
  - intros l h w0 ((H1 & H2) & H3) Hl Hn. split; [split; [exact H1|]|exact H3]. cbn.
    apply Forall_forall. intros s Hs. destruct (new_command_in _ _ _ _ Hn Hs) as [->|Hi]; [exact Hl|]. rewrite Forall_forall in H2. auto.
  - intros h w0 ((H1 & H2) & H3) Hf. split; [split; [exact H1|]|exact H3]. cbn. unfold forget_latest in Hf.
    destruct (h_buf (w_hist w0)) as [|x b]; [discriminate|]. injection Hf as <-. cbn. inversion H2; assumption.
  - intros w0 n l ((_ & H) & _) Ha. apply at_id_in in Ha. rewrite Forall_forall in H. auto.
Qed.
Lemma tidy_enter pre w : tidy pre w -> hx_inv (tidy pre) (exn_in N) (session_enter E w).
Proof.
  apply (o_enter_inv E (tidy pre) (exn_in N) (op_in C N) in_code_ops in_code_throws).
  - intros w0 o. apply tidy_op.
  - intros k w0 _. apply tidy_log. exact Logic.I.
Qed.
Lemma tidy_exit pre w : tidy pre w -> hx_inv (tidy pre) (exn_in N) (session_exit E w).
Proof.
  apply (o_exit_inv E (tidy pre) (exn_in N) (op_in C N) in_code_ops in_code_throws).
  - cbn. apply in_lit. reflexivity.
  - intros e w0 He. apply tidy_log. destruct e; try destruct He; exact Logic.I.
  - intros w0 o. apply tidy_op.
  - intros cmds w0 H _. exact H.
  - intros w0 H. exact H.
Qed.

(** ** The line editor *)
Definition off (b : bool) : Prop := Coloured \/ b = false.
Lemma in_sgr_if b n : off b -> N (if b then sgr n else []).
Proof. intros [H| ->]; [|apply in_nil]. destruct b; [apply HS, H|apply in_nil]. Qed.
Lemma in_before_input c f : off c -> off f -> N (fst (before_input c f)) /\ off (snd (before_input c f)).
Proof.
  intros [H| ->] Hf.
  - split; [|left; exact H]. destruct c; cbn [before_input fst]; [apply HS, H|apply in_nil].
  - split; [apply in_nil|exact Hf].
Qed.
Lemma in_before_prompt c f : off c -> off f -> N (fst (before_prompt c f)) /\ off (snd (before_prompt c f)).
Proof.
  intros [H| ->] Hf.
  - split; [|left; exact H]. destruct c; cbn [before_prompt fst]; [apply HA; apply HS, H|apply in_nil].
  - split; [apply in_nil|exact Hf].
Qed.
Lemma in_after_input t f : off t -> off f -> N (after_input t f).
Proof.
  intros Ht Hf. unfold after_input. apply in_sgr_if. destruct Ht as [H| ->]; [left; exact H|]. destruct Hf as [H| ->]; [left; exact H|right; reflexivity].
Qed.
Lemma chars_backs n : Forall C (backs n).
Proof. apply Forall_forall. intros c Hc. apply repeat_spec in Hc as ->. apply HC. discriminate. Qed.
Lemma chars_blanks n : Forall C (blanks n).
Proof. apply Forall_forall. intros c Hc. apply repeat_spec in Hc as ->. apply HC. discriminate. Qed.
Lemma chars_firstn n s : Forall C s -> Forall C (firstn n s).
Proof. intros H. rewrite <- (firstn_skipn n s) in H. apply Forall_app in H. apply H. Qed.
Lemma chars_skipn n s : Forall C s -> Forall C (skipn n s).
Proof. intros H. rewrite <- (firstn_skipn n s) in H. apply Forall_app in H. apply H. Qed.
Lemma chars_tail n s r : Forall C s -> tail_from n s = Some r -> Forall C r.
Proof. unfold tail_from. destruct (Nat.leb _ _); [|discriminate]. intros H E0. injection E0 as <-. apply chars_skipn, H. Qed.
Lemma chars_erase n s r : Forall C s -> erase_at n s = Some r -> Forall C r.
Proof.
  unfold erase_at. destruct (Nat.ltb _ _); [|discriminate]. intros H E0. injection E0 as <-. apply Forall_app. split; [apply chars_firstn|apply (chars_skipn (S n))]; exact H.
Qed.
Lemma chars_insert n c s r : C c -> Forall C s -> insert_at n c s = Some r -> Forall C r.
Proof.
  unfold insert_at. destruct (Nat.leb _ _); [|discriminate]. intros Hc H E0. injection E0 as <-. apply Forall_app. split; [apply chars_firstn, H|].
  constructor; [exact Hc|apply chars_skipn, H].
Qed.
Lemma chars_one c : C c -> Forall C [c].
Proof. intros H. constructor; [exact H|constructor]. Qed.

Lemma in_set_line tty color s t : off tty -> off color -> off (tm_force t) -> Forall C s ->
  N (fst (set_line tty color s t)) /\ Forall C (tm_line (snd (set_line tty color s t))) /\ off (tm_force (snd (set_line tty color s t))).
Proof.
  intros Ht Hc Hf Hs. unfold set_line. destruct (in_before_input color (tm_force t) Hc Hf) as (H1 & H2).
  destruct (before_input color (tm_force t)) as (bi, f'). cbn [fst snd] in *. split; [|split; [exact Hs|exact H2]].
  assert (H : N (bi ++ backs (tm_pos t) ++ s ++ after_input tty f')).
  { apply HA; [exact H1|]. apply HA; [apply HN, chars_backs|]. apply HA; [apply HN, Hs|apply in_after_input; assumption]. }
  destruct (Nat.ltb _ _); [|exact H]. apply HA; [exact H|]. apply HA; [apply HN, chars_blanks|apply HN, chars_backs].
Qed.
Lemma in_keypressed tty color k t b sy t' : off tty -> off color -> off (tm_force t) -> key_in C k -> Forall C (tm_line t) ->
  keypressed tty color k t = Some (b, sy, t') ->
  N b /\ Forall C (tm_line t') /\ off (tm_force t') /\ (forall l, sy = SyCommand l -> Forall C l).
Proof.
  intros Ht Hc Hf Hk Hl H. destruct (in_before_input color (tm_force t) Hc Hf) as (H1 & H2).
  destruct k; cbn [keypressed] in H;
    try (injection H as <- <- <-; split; [apply in_nil|split; [exact Hl|split; [exact Hf|discriminate]]]).
  - destruct (Ascii.eqb c "009"); [injection H as <- <- <-; split; [apply in_nil|split; [exact Hl|split; [exact Hf|discriminate]]]|].
    destruct (before_input color (tm_force t)) as (bi, f'). cbn [fst snd] in *.
    destruct (tail_from (tm_pos t) (tm_line t)) as [r|] eqn:E1; [|discriminate]. cbn [obind] in H.
    destruct (size_sub _ _) as [n|]; [|discriminate]. cbn [obind] in H.
    destruct (insert_at (tm_pos t) c (tm_line t)) as [l'|] eqn:E2; [|discriminate]. cbn [obind] in H. injection H as <- <- <-.
    split; [|split; [eapply chars_insert; eassumption|split; [exact H2|discriminate]]].
    apply HA; [exact H1|]. apply (HA [c]); [apply HN, chars_one, Hk|]. apply HA; [apply HN; eapply chars_tail; eassumption|].
    apply HA; [apply in_after_input; assumption|apply HN, chars_backs].
  - destruct (Nat.ltb 0 (tm_pos t)); injection H as <- <- <-; (split; [apply in_lit; reflexivity|split; [exact Hl|split; [exact Hf|discriminate]]]).
  - destruct (Nat.ltb (tm_pos t) _); [|injection H as <- <- <-; split; [apply in_nil|split; [exact Hl|split; [exact Hf|discriminate]]]].
    destruct (before_input color (tm_force t)) as (bi, f'). cbn [fst snd] in *.
    destruct (nth_error (tm_line t) (tm_pos t)) as [c|] eqn:E1; [|discriminate]. cbn [obind] in H. injection H as <- <- <-.
    split; [|split; [exact Hl|split; [exact H2|discriminate]]].
    apply HA; [exact H1|]. apply (HA [c]); [|apply in_after_input; assumption].
    apply HN, chars_one. rewrite Forall_forall in Hl. apply Hl. eapply nth_error_In. exact E1.
  - destruct (Nat.eqb (tm_pos t) 0); [injection H as <- <- <-; split; [apply in_nil|split; [exact Hl|split; [exact Hf|discriminate]]]|].
    destruct (erase_at _ _) as [l'|] eqn:E1; [|discriminate]. cbn [obind] in H.
    destruct (tail_from _ l') as [r|] eqn:E2; [|discriminate]. cbn [obind] in H.
    destruct (size_sub _ _) as [n|]; [|discriminate]. cbn [obind] in H. injection H as <- <- <-.
    pose proof (chars_erase _ _ _ Hl E1) as Hl'. split; [|split; [exact Hl'|split; [exact Hf|discriminate]]].
    apply HN. apply (Forall_cons _ (HC "008" ltac:(discriminate))). apply Forall_app. split; [eapply chars_tail; eassumption|].
    apply (Forall_cons _ (HC " " ltac:(discriminate))). apply chars_backs.
  - destruct (Nat.eqb (tm_pos t) _); [injection H as <- <- <-; split; [apply in_nil|split; [exact Hl|split; [exact Hf|discriminate]]]|].
    destruct (tail_from _ _) as [r|] eqn:E2; [|discriminate]. cbn [obind] in H.
    destruct (size_sub _ _) as [n|]; [|discriminate]. cbn [obind] in H.
    destruct (erase_at _ _) as [l'|] eqn:E1; [|discriminate]. cbn [obind] in H. injection H as <- <- <-.
    split; [|split; [eapply chars_erase; eassumption|split; [exact Hf|discriminate]]].
    apply HN. apply Forall_app. split; [eapply chars_tail; eassumption|].
    apply (Forall_cons _ (HC " " ltac:(discriminate))). apply chars_backs.
  - injection H as <- <- <-. split; [apply HN, chars_backs|split; [exact Hl|split; [exact Hf|discriminate]]].
  - destruct (before_input color (tm_force t)) as (bi, f'). cbn [fst snd] in *.
    destruct (tail_from (tm_pos t) (tm_line t)) as [r|] eqn:E1; [|discriminate]. cbn [obind] in H. injection H as <- <- <-.
    split; [|split; [exact Hl|split; [exact H2|discriminate]]].
    apply HA; [exact H1|]. apply HA; [apply HN; eapply chars_tail; eassumption|apply in_after_input; assumption].
  - injection H as <- <- <-. split; [apply in_lit; reflexivity|split; [constructor|split; [exact Hf|]]]. intros l E0. injection E0 as <-. exact Hl.
Qed.

(** ** Handling keys *)
Definition tidy_proc (pre : world) (p : proc) : Prop :=
  tidy pre (p_world p) /\ Forall C (tm_line (p_term p)) /\ off (tm_force (p_term p)).
Definition tidy_res (pre : world) (r : pres) : Prop :=
  match r with POk p | PExc _ p => tidy_proc pre p | _ => True end.
Lemma tidy_bind pre r f : tidy_res pre r -> (forall p, tidy_proc pre p -> tidy_res pre (f p)) -> tidy_res pre (p_bind r f).
Proof. intros H Hf. destruct r; try exact H. apply Hf, H. Qed.
Lemma in_prompt_text w p : world_in C N w -> prompt_text w = Some p -> Forall C p.
Proof.
  intros (H & _) Hp. unfold prompt_text in Hp. destruct (locate (w_cur w) [] (w_root w)) as [[|[| |i n e d q ks] anc]|] eqn:Hl; try discriminate.
  injection Hp as <-. apply locate_in_menu in Hl. pose proof (every_chain _ _ _ H (proj1 Hl)) as Hc. inversion Hc as [|? ? Hm _]; subst.
  apply every_here in Hm. apply Hm.
Qed.
Lemma tidy_prompt pre tty color p : off tty -> off color -> tidy_proc pre p -> tidy_res pre (p_prompt tty color p).
Proof.
  intros Ht Hc (Hw & Hl & Hf). unfold p_prompt, prompt. destruct (w_exit (p_world p)).
  { cbn. split; [apply tidy_out; [apply in_nil|exact Hw]|split; assumption]. }
  destruct (prompt_text (p_world p)) as [s|] eqn:Hs; [|exact Logic.I].
  destruct (in_before_prompt color _ Hc Hf) as (H1 & H2). destruct (before_prompt color (tm_force (p_term p))) as (b, f'). cbn [fst snd] in *.
  cbn. split; [|split; [exact Hl|exact H2]]. apply tidy_out; [|exact Hw]. cbn [p_world].
  apply HA; [exact H1|]. apply HA; [apply HN; eapply in_prompt_text; [apply Hw|exact Hs]|].
  apply HA; [apply in_after_input; assumption|apply in_lit; reflexivity].
Qed.
Lemma tidy_set_line pre tty color s p : off tty -> off color -> Forall C s -> tidy_proc pre p -> tidy_proc pre (p_set_line tty color s p).
Proof.
  intros Ht Hc Hs (Hw & Hl & Hf). unfold p_set_line. destruct (in_set_line tty color s (p_term p) Ht Hc Hf Hs) as (H1 & H2 & H3).
  destruct (set_line tty color s (p_term p)) as (b, t). cbn [fst snd] in *. split; [|split; assumption]. cbn. apply tidy_out; [exact H1|exact Hw].
Qed.
Lemma completions_in P fuel line w l : world_in C N w -> get_completions P fuel line w = GOk l -> Forall (Forall C) l.
Proof.
  intros (H & _) Hg. apply Forall_forall. intros c Hc. apply (completions_sound _ _ _ _ _ Hg) in Hc. revert Hc. apply offered_chars.
  - apply HC. discriminate.
  - apply HC. discriminate.
  - unfold global_names. repeat (apply Forall_cons; [apply chars_dec; reflexivity|]). apply Forall_nil.
  - eapply every_impl; [|exact H]. intros k Hk. apply Hk.
Qed.
Lemma prefix_chars l pre : Forall (Forall C) l -> common_prefix l = Some pre -> Forall C pre.
Proof.
  intros Hl Hp. destruct l as [|a l]; [discriminate|].
  destruct (common_prefix_spec (a :: l)) as (q & Hq & (Hall & _)); [discriminate|]. rewrite Hp in Hq. injection Hq as <-.
  destruct (Hall a (or_introl eq_refl)) as (r & Hr). inversion Hl as [|? ? Ha _]; subst. apply Forall_app in Ha. apply Ha.
Qed.
Lemma tidy_reprint pre tty color s p : off tty -> off color -> N s \/ s = clear_screen -> tidy_proc pre p ->
  tidy_res pre (p_bind (p_prompt tty color (p_out s p)) (fun p1 => POk (p_set_line tty color (get_line (p_term p)) (p_reset_cursor p1)))).
Proof.
  intros Ht Hc Hs H. apply tidy_bind.
  - apply tidy_prompt; [exact Ht|exact Hc|]. destruct H as (Hw & H). split; [|exact H]. cbn. apply tidy_log; [exact Hs|exact Hw].
  - intros p1 (Hw1 & Hl1 & Hf1). apply tidy_set_line; [exact Ht|exact Hc|apply H|]. split; [exact Hw1|split; [exact Hl1|exact Hf1]].
Qed.
Lemma tidy_process pre fuel tty color sy p : off tty -> off color -> (forall l, sy = SyCommand l -> Forall C l) -> tidy_proc pre p ->
  tidy_res pre (process E fuel tty color sy p).
Proof.
  intros Ht Hc Hsy H. pose proof H as (Hw & Hl & Hf). pose proof Hw as ((Hr & Hh) & Htr). destruct sy; cbn [process].
  - exact H.
  - apply tidy_bind; [|intros p2 H2; apply tidy_bind; [apply tidy_prompt; assumption|]].
    + pose proof (tidy_feed pre fuel cmd (p_world (p_log (EvInput (w_sid (p_world p)) false) p)) (Hsy cmd eq_refl)) as Hfd.
      assert (H0 : tidy pre (p_world (p_log (EvInput (w_sid (p_world p)) false) p))) by (apply tidy_log; [exact Logic.I|exact Hw]).
      specialize (Hfd H0). destruct (feed E fuel cmd _); cbn in *; try exact Logic.I; [|destruct Hfd as (_ & Hfd)]; (split; [exact Hfd|split; assumption]).
    + intros p3 (H3 & H4). split; [apply tidy_log; [exact Logic.I|exact H3]|exact H4].
  - unfold previous_cmd. destruct (previous (w_hist (p_world p)) (get_line (p_term p))) as [(s, h)|] eqn:Hp; [|exact Logic.I].
    destruct (previous_all (Forall C) _ _ _ _ Hh Hl Hp) as (H1 & H2). apply tidy_set_line; [exact Ht|exact Hc|exact H1|].
    split; [|split; assumption]. split; [split; assumption|exact Htr].
  - unfold next_cmd. destruct (next (w_hist (p_world p))) as [(s, h)|] eqn:Hp; [|exact Logic.I].
    destruct (next_all (Forall C) _ _ _ Hh ltac:(constructor) Hp) as (H1 & H2). apply tidy_set_line; [exact Ht|exact Hc|exact H1|].
    split; [|split; assumption]. split; [split; assumption|exact Htr].
  - destruct (get_completions (e_plat E) fuel (get_line (p_term p)) (p_world p)) as [l| |] eqn:Hg; try exact Logic.I.
    pose proof (completions_in _ _ _ _ _ (conj Hr Hh) Hg) as Hcs. destruct l as [|c [|c' l]]; [exact H| |].
    + apply tidy_set_line; [exact Ht|exact Hc| |exact H]. inversion Hcs; subst. apply Forall_app. split; [assumption|apply chars_dec; reflexivity].
    + destruct (common_prefix (c :: c' :: l)) as [q|] eqn:Hq; [|exact Logic.I]. destruct (Nat.ltb _ _).
      * apply tidy_set_line; [exact Ht|exact Hc| |exact H]. eapply prefix_chars; eassumption.
      * apply tidy_reprint; [exact Ht|exact Hc| |exact H]. left. in_tac. apply in_flat. eapply Forall_impl; [|exact Hcs]. intros x Hx. in_tac. apply HN, Hx.
  - pose proof (tidy_exit pre (p_world p) Hw) as He. destruct (session_exit E (p_world p)); cbn in *; try exact Logic.I; [|destruct He as (_ & He)]; (split; [exact He|split; assumption]).
  - apply tidy_reprint; [exact Ht|exact Hc|right; reflexivity|exact H].
Qed.
Definition stroke_in (k : keystroke) : Prop := key_in C (ks_key k) /\ off (ks_color k) /\ off (ks_color' k).
Lemma tidy_press pre fuel tty k p : off tty -> stroke_in k -> tidy_proc pre p -> tidy_res pre (press E fuel tty k p).
Proof.
  intros Ht (Hk & Hc & Hc') (Hw & Hl & Hf). unfold press. destruct (keypressed tty (ks_color k) (ks_key k) (p_term p)) as [((b, sy), t)|] eqn:Hp; [|exact Logic.I].
  destruct (in_keypressed _ _ _ _ _ _ _ Ht Hc Hf Hk Hl Hp) as (H1 & H2 & H3 & H4). apply tidy_process; [exact Ht|exact Hc'|exact H4|].
  split; [apply tidy_out; [exact H1|exact Hw]|split; assumption].
Qed.
Lemma tidy_presses pre fuel tty ks : off tty -> Forall stroke_in ks -> forall p, tidy_proc pre p -> tidy_res pre (presses E fuel tty ks p).
Proof.
  intros Ht. induction 1 as [|k ks Hk _ IH]; intros p Hp; [exact Hp|]. cbn [presses]. apply tidy_bind; [apply tidy_press; assumption|exact IH].
Qed.
Lemma tidy_open pre tty color w : off tty -> off color -> tidy pre w -> tidy_res pre (open_local E tty color w).
Proof.
  intros Ht Hc Hw. unfold open_local. apply tidy_bind; [|intros p Hp; apply tidy_prompt; assumption].
  pose proof (tidy_enter pre w Hw) as He. destruct (session_enter E w); cbn in *; try exact Logic.I; [|destruct He as (_ & He)];
    (split; [exact He|split; [constructor|right; reflexivity]]).
Qed.
End Feed.
End Inv.

(** ** Two runs *)
Section Two.
Context (C : ascii -> Prop) (HC : forall c, not_escape c -> C c).
Lemma alike_bind r r' f f' : alike_outcome C r r' -> (forall p p', r = POk p -> alike_proc C p p' -> alike_outcome C (f p) (f' p')) ->
  alike_outcome C (p_bind r f) (p_bind r' f').
Proof. intros H Hf. destruct r, r'; try contradiction; try exact H. cbn. apply Hf; [reflexivity|exact H]. Qed.
Lemma alike_lit s : forallb (fun c => negb (Ascii.eqb c "027")) s = true -> alike C s s.
Proof. intros H. apply alike_refl, (chars_dec C HC), H. Qed.
Lemma alike_set_line tty tty' c c' s t t' : Forall C s -> tm_line t = tm_line t' -> tm_pos t = tm_pos t' ->
  alike C (fst (set_line tty c s t)) (fst (set_line tty' c' s t')) /\
  tm_line (snd (set_line tty c s t)) = tm_line (snd (set_line tty' c' s t')) /\
  tm_pos (snd (set_line tty c s t)) = tm_pos (snd (set_line tty' c' s t')).
Proof.
  intros Hs Hl Hp. unfold set_line. pose proof (alike_before_input C c c' (tm_force t) (tm_force t')) as Hb.
  destruct (before_input c (tm_force t)) as (b, f), (before_input c' (tm_force t')) as (b', f'). cbn [fst snd] in *.
  split; [|split; reflexivity]. rewrite <- Hl, <- Hp.
  assert (H : alike C (b ++ backs (tm_pos t) ++ s ++ after_input tty f) (b' ++ backs (tm_pos t) ++ s ++ after_input tty' f')).
  { apply alike_app; [exact Hb|]. apply alike_app; [apply alike_refl, chars_backs, HC|]. apply alike_app; [apply alike_refl, Hs|apply alike_after_input]. }
  destruct (Nat.ltb _ _); [|exact H]. apply alike_app; [exact H|]. apply alike_refl, Forall_app. split; [apply chars_blanks, HC|apply chars_backs, HC].
Qed.
Lemma alike_keypressed tty tty' c c' k t t' : key_in C k -> Forall C (tm_line t) -> tm_line t = tm_line t' -> tm_pos t = tm_pos t' ->
  match keypressed tty c k t, keypressed tty' c' k t' with
  | Some (b, sy, u), Some (b', sy', u') => alike C b b' /\ sy = sy' /\ tm_line u = tm_line u' /\ tm_pos u = tm_pos u'
  | None, None => True
  | _, _ => False
  end.
Proof.
  intros Hk Hc Hl Hp. pose proof (alike_before_input C c c' (tm_force t) (tm_force t')) as Hb.
  assert (H0 : alike C [] [] /\ SyNothing = SyNothing /\ tm_line t = tm_line t' /\ tm_pos t = tm_pos t') by (repeat split; [apply al_nil|exact Hl|exact Hp]).
  destruct k; cbn [keypressed]; try rewrite <- Hl; try rewrite <- Hp; try (repeat split; first [apply al_nil|assumption|reflexivity]; fail).
  - destruct (Ascii.eqb c0 "009"); [repeat split; first [apply al_nil|assumption]|].
    destruct (before_input c (tm_force t)) as (b, f), (before_input c' (tm_force t')) as (b', f'). cbn [fst snd] in *.
    destruct (tail_from (tm_pos t) (tm_line t)) as [r|] eqn:E1; [|exact Logic.I]. cbn [obind].
    destruct (size_sub _ _) as [n|]; [|exact Logic.I]. cbn [obind].
    destruct (insert_at (tm_pos t) c0 (tm_line t)) as [l'|]; [|exact Logic.I]. cbn [obind tm_line tm_pos]. split; [|auto].
    apply alike_app; [exact Hb|]. apply (alike_app C [c0] [c0]); [apply alike_refl, chars_one, Hk|].
    apply alike_app; [apply alike_refl; eapply chars_tail; eassumption|]. apply alike_app; [apply alike_after_input|apply alike_refl, chars_backs, HC].
  - destruct (Nat.ltb 0 (tm_pos t)); [|exact H0]. split; [apply alike_lit; reflexivity|auto].
  - destruct (Nat.ltb _ _); [|exact H0].
    destruct (before_input c (tm_force t)) as (b, f), (before_input c' (tm_force t')) as (b', f'). cbn [fst snd] in *.
    destruct (nth_error (tm_line t) (tm_pos t)) as [x|] eqn:E1; [|exact Logic.I]. cbn [obind tm_line tm_pos]. split; [|auto].
    apply alike_app; [exact Hb|]. apply (alike_app C [x] [x]); [|apply alike_after_input].
    apply alike_refl, chars_one. rewrite Forall_forall in Hc. apply Hc. eapply nth_error_In. exact E1.
  - destruct (Nat.eqb (tm_pos t) 0); [exact H0|].
    destruct (erase_at _ _) as [l'|] eqn:E1; [|exact Logic.I]. cbn [obind].
    destruct (tail_from _ l') as [r|] eqn:E2; [|exact Logic.I]. cbn [obind].
    destruct (size_sub _ _) as [n|]; [|exact Logic.I]. cbn [obind tm_line tm_pos]. split; [|auto].
    pose proof (chars_erase C _ _ _ Hc E1) as Hl'. apply alike_refl.
    apply (Forall_cons _ (HC "008" ltac:(discriminate))). apply Forall_app. split; [eapply chars_tail; eassumption|].
    apply (Forall_cons _ (HC " " ltac:(discriminate))). apply chars_backs, HC.
  - destruct (Nat.eqb _ _); [exact H0|].
    destruct (tail_from _ _) as [r|] eqn:E2; [|exact Logic.I]. cbn [obind].
    destruct (size_sub _ _) as [n|]; [|exact Logic.I]. cbn [obind].
    destruct (erase_at _ _) as [l'|] eqn:E1; [|exact Logic.I]. cbn [obind tm_line tm_pos]. split; [|auto].
    apply alike_refl. apply Forall_app. split; [eapply chars_tail; eassumption|].
    apply (Forall_cons _ (HC " " ltac:(discriminate))). apply chars_backs, HC.
  - split; [apply alike_refl, chars_backs, HC|auto].
  - destruct (before_input c (tm_force t)) as (b, f), (before_input c' (tm_force t')) as (b', f'). cbn [fst snd] in *.
    destruct (tail_from (tm_pos t) (tm_line t)) as [r|] eqn:E1; [|exact Logic.I]. cbn [obind tm_line tm_pos]. split; [|auto].
    apply alike_app; [exact Hb|]. apply alike_app; [apply alike_refl; eapply chars_tail; eassumption|apply alike_after_input].
  - split; [apply alike_lit; reflexivity|auto].
Qed.

Definition any_text (s : str) : Prop := True.
(** [texts_in C any_text]: only names and prompts matter here *)
Definition inked (p : proc) : Prop := world_in C any_text (p_world p) /\ Forall C (tm_line (p_term p)).
Lemma alike_prompt tty tty' c c' p p' : world_in C any_text (p_world p) -> alike_proc C p p' -> alike_outcome C (p_prompt tty c p) (p_prompt tty' c' p').
Proof.
  intros Hi (Hw & Hl & Hp). pose proof Hw as (H1 & _ & _ & _ & H5 & _ & H7 & _). unfold p_prompt, prompt. rewrite H7.
  destruct (w_exit (p_world p')). { split; [apply alike_out; [apply al_nil|exact Hw]|split; assumption]. }
  assert (Hpt : prompt_text (p_world p) = prompt_text (p_world p')) by (unfold prompt_text; rewrite H1, H5; reflexivity).
  rewrite <- Hpt. destruct (prompt_text (p_world p)) as [s|] eqn:Hs; [|exact Logic.I].
  pose proof (alike_before_prompt C c c' (tm_force (p_term p)) (tm_force (p_term p'))) as Hb.
  destruct (before_prompt c _) as (b, f), (before_prompt c' _) as (b', f'). cbn [fst] in Hb.
  split; [|split; assumption]. cbn. apply alike_out; [|exact Hw].
  apply alike_app; [exact Hb|]. apply alike_app; [apply alike_refl; eapply in_prompt_text; eassumption|].
  apply alike_app; [apply alike_after_prompt|apply alike_lit; reflexivity].
Qed.
Lemma alike_p_set_line tty tty' c c' s p p' : Forall C s -> alike_proc C p p' -> alike_proc C (p_set_line tty c s p) (p_set_line tty' c' s p').
Proof.
  intros Hs (Hw & Hl & Hp). unfold p_set_line. destruct (alike_set_line tty tty' c c' s (p_term p) (p_term p') Hs Hl Hp) as (H1 & H2 & H3).
  destruct (set_line tty c s (p_term p)) as (b, t), (set_line tty' c' s (p_term p')) as (b', t'). cbn [fst snd] in *.
  split; [|split; assumption]. cbn. apply alike_out; assumption.
Qed.

Lemma get_completions_same P fuel line w w' : w_root w = w_root w' -> w_cur w = w_cur w' ->
  get_completions P fuel line w = get_completions P fuel line w'.
Proof. intros H1 H2. unfold get_completions. rewrite H1, H2. reflexivity. Qed.

Context (E : env) (Hcode : code_in C any_text E) (Hblind : blind C E).
Lemma HN0 : forall s, Forall C s -> any_text s.
Proof. intros; exact Logic.I. Qed.
Lemma HA0 : forall a b, any_text a -> any_text b -> any_text (a ++ b).
Proof. intros; exact Logic.I. Qed.
Lemma HS0 : True -> forall n, any_text (sgr n).
Proof. intros; exact Logic.I. Qed.
Lemma off_any b : off True b.
Proof. left. exact Logic.I. Qed.
Lemma alike_reprint tty tty' c c' s p p' : inked p -> alike_proc C p p' ->
  alike_outcome C (p_bind (p_prompt tty c (p_out s p)) (fun p1 => POk (p_set_line tty c (get_line (p_term p)) (p_reset_cursor p1))))
    (p_bind (p_prompt tty' c' (p_out s p')) (fun p1 => POk (p_set_line tty' c' (get_line (p_term p')) (p_reset_cursor p1)))).
Proof.
  intros (Hi & Hl) (Hw & H2 & H3). apply alike_bind.
  - apply alike_prompt; [exact Hi|]. split; [|split; assumption]. apply alike_out_same, Hw.
  - intros p1 p1' _ (Hw1 & H21 & _). unfold get_line. rewrite <- H2. apply alike_p_set_line; [exact Hl|].
    split; [exact Hw1|split; [exact H21|reflexivity]].
Qed.
Lemma alike_process fuel tty tty' c c' sy p p' : inked p -> (forall l, sy = SyCommand l -> Forall C l) -> alike_proc C p p' ->
  alike_outcome C (process E fuel tty c sy p) (process E fuel tty' c' sy p').
Proof.
  intros Hi Hsy H. pose proof Hi as (Hin & Hlc). pose proof H as (Hw & Hl & Hp).
  pose proof Hw as (H1 & _ & _ & H4 & H5 & H6 & _). destruct sy; cbn [process].
  - exact H.
  - apply alike_bind.
    + assert (H0 : alike_world C (p_world (p_log (EvInput (w_sid (p_world p)) false) p)) (p_world (p_log (EvInput (w_sid (p_world p')) false) p'))).
      { rewrite H4. apply alike_log; [apply event_refl|exact Hw]. }
      pose proof (alike_feed C E Hblind fuel cmd _ _ H0) as Hf.
      destruct (feed E fuel cmd (p_world (p_log _ p))), (feed E fuel cmd (p_world (p_log _ p'))); try contradiction; try exact Logic.I.
      * split; [exact Hf|split; assumption].
      * destruct Hf as (<- & Hf). split; [reflexivity|]. split; [exact Hf|split; assumption].
    + intros p2 p2' E2 H2. apply alike_bind.
      * apply alike_prompt; [|exact H2].
        pose proof (tidy_feed C any_text HC HN0 HA0 E Hcode (p_world (p_log (EvInput (w_sid (p_world p)) false) p)) fuel cmd
          (p_world (p_log (EvInput (w_sid (p_world p)) false) p)) (Hsy cmd eq_refl)) as Ht.
        assert (H0 : tidy C any_text (p_world (p_log (EvInput (w_sid (p_world p)) false) p)) (p_world (p_log (EvInput (w_sid (p_world p)) false) p))).
        { split; [exact Hin|]. exists []. rewrite app_nil_r. split; [reflexivity|]. split; [reflexivity|constructor]. }
        specialize (Ht H0). destruct (feed E fuel cmd _); try discriminate. cbn in E2. injection E2 as <-. apply Ht.
      * intros p3 p3' _ (Hw3 & H3). replace (w_sid (p_world p3')) with (w_sid (p_world p3)) by apply Hw3.
        split; [apply alike_log; [apply event_refl|exact Hw3]|exact H3].
  - unfold previous_cmd, get_line. rewrite <- H6, <- Hl. destruct (previous (w_hist (p_world p)) (tm_line (p_term p))) as [(s, h)|] eqn:Hpr; [|exact Logic.I].
    destruct (previous_all (Forall C) _ _ _ _ (proj2 Hin) Hlc Hpr) as (Hs & _). apply alike_p_set_line; [exact Hs|].
    split; [apply alike_set_hist, Hw|split; assumption].
  - unfold next_cmd. rewrite <- H6. destruct (next (w_hist (p_world p))) as [(s, h)|] eqn:Hpr; [|exact Logic.I].
    destruct (next_all (Forall C) _ _ _ (proj2 Hin) ltac:(constructor) Hpr) as (Hs & _). apply alike_p_set_line; [exact Hs|].
    split; [apply alike_set_hist, Hw|split; assumption].
  - unfold get_line. rewrite <- Hl, <- (get_completions_same (e_plat E) fuel (tm_line (p_term p)) _ _ H1 H5).
    destruct (get_completions (e_plat E) fuel (tm_line (p_term p)) (p_world p)) as [l| |] eqn:Hg; try exact Logic.I.
    pose proof (completions_in C any_text HC _ _ _ _ _ Hin Hg) as Hcs. destruct l as [|a [|a' l]]; [exact H| |].
    + apply alike_p_set_line; [|exact H]. inversion Hcs; subst. apply Forall_app. split; [assumption|apply chars_dec; [exact HC|reflexivity]].
    + destruct (common_prefix (a :: a' :: l)) as [q|] eqn:Hq; [|exact Logic.I]. destruct (Nat.ltb _ _).
      * apply alike_p_set_line; [|exact H]. eapply prefix_chars; eassumption.
      * pose proof (alike_reprint tty tty' c c' (nl ++ flat_map (fun c => tab ++ c) (a :: a' :: l) ++ nl) p p' Hi H) as Hr.
        unfold get_line in Hr. rewrite <- Hl in Hr. exact Hr.
  - pose proof (alike_exit C E Hblind _ _ Hw) as He. destruct (session_exit E (p_world p)), (session_exit E (p_world p')); try contradiction; try exact Logic.I.
    + split; [exact He|split; assumption].
    + destruct He as (<- & He). split; [reflexivity|]. split; [exact He|split; assumption].
  - apply alike_reprint; assumption.
Qed.
Lemma inked_press fuel tty k p p1 : key_in C (ks_key k) -> inked p -> press E fuel tty k p = POk p1 -> inked p1.
Proof.
  intros Hk (Hi & Hl) H.
  pose proof (tidy_press C any_text True HC HN0 HA0 HS0 E Hcode (p_world p) fuel tty k p (off_any _)) as Ht. rewrite H in Ht.
  destruct Ht as ((Ht & _) & Ht2 & _); [split; [exact Hk|split; apply off_any]| |split; assumption].
  split; [|split; [exact Hl|apply off_any]]. split; [exact Hi|]. exists []. rewrite app_nil_r. split; [reflexivity|]. split; [reflexivity|constructor].
Qed.
Lemma alike_press fuel tty tty' k k' p p' : ks_key k = ks_key k' -> key_in C (ks_key k) -> inked p -> alike_proc C p p' ->
  alike_outcome C (press E fuel tty k p) (press E fuel tty' k' p').
Proof.
  intros Hkk Hk Hi (Hw & Hl & Hp). unfold press. rewrite <- Hkk.
  pose proof (alike_keypressed tty tty' (ks_color k) (ks_color k') (ks_key k) (p_term p) (p_term p') Hk (proj2 Hi) Hl Hp) as H.
  destruct (keypressed tty (ks_color k) (ks_key k) (p_term p)) as [((b, sy), t)|] eqn:E1, (keypressed tty' (ks_color k') (ks_key k) (p_term p')) as [((b', sy'), t')|];
    try contradiction; [|exact Logic.I].
  destruct H as (Hb & <- & Ht). destruct (in_keypressed C any_text True HC HN0 HA0 HS0 _ _ _ _ _ _ _ (off_any _) (off_any _) (off_any _) Hk (proj2 Hi) E1) as (_ & Hlt & _ & Hsy).
  apply alike_process; [|exact Hsy|].
  - split; [apply Hi|exact Hlt].
  - split; [apply alike_out; assumption|exact Ht].
Qed.
Lemma alike_presses fuel tty tty' ks : forall ks' p p', map ks_key ks = map ks_key ks' -> Forall (fun k => key_in C (ks_key k)) ks ->
  inked p -> alike_proc C p p' -> alike_outcome C (presses E fuel tty ks p) (presses E fuel tty' ks' p').
Proof.
  induction ks as [|k ks IH]; intros [|k' ks'] p p' Hk Hks Hi H; try discriminate; [exact H|].
  injection Hk as Hk1 Hk2. inversion Hks; subst. cbn [presses]. apply alike_bind; [apply alike_press; assumption|].
  intros p1 p1' E1 H1. apply IH; try assumption. eapply inked_press; eassumption.
Qed.
Lemma alike_open tty tty' c c' w w' : world_in C any_text w -> alike_world C w w' -> alike_outcome C (open_local E tty c w) (open_local E tty' c' w').
Proof.
  intros Hi H. unfold open_local. pose proof (alike_enter C E Hblind w w' H) as He. apply alike_bind.
  - destruct (session_enter E w), (session_enter E w'); try contradiction; try exact Logic.I.
    + split; [exact He|split; reflexivity].
    + destruct He as (<- & He). split; [reflexivity|]. split; [exact He|split; reflexivity].
  - intros p p' E1 Hp. apply alike_prompt; [|exact Hp].
    pose proof (tidy_enter C any_text E Hcode w w) as Ht.
    assert (H0 : tidy C any_text w w) by (split; [exact Hi|exists []; rewrite app_nil_r; split; [reflexivity|split; [reflexivity|constructor]]]).
    specialize (Ht H0). destruct (session_enter E w); try discriminate. cbn in E1. injection E1 as <-. apply Ht.
Qed.
Lemma inked_open tty c w p : world_in C any_text w -> open_local E tty c w = POk p -> inked p.
Proof.
  intros Hi H. pose proof (tidy_open C any_text True HC HN0 HA0 HS0 E Hcode w tty c w (off_any _) (off_any _)) as Ht. rewrite H in Ht.
  destruct Ht as ((Ht & _) & Ht2 & _); [|split; assumption].
  split; [exact Hi|]. exists []. rewrite app_nil_r. split; [reflexivity|]. split; [reflexivity|constructor].
Qed.
Lemma alike_session fuel tty tty' c c' ks ks' w : world_in C any_text w -> Forall (fun k => key_in C (ks_key k)) ks -> map ks_key ks = map ks_key ks' ->
  alike_outcome C (p_bind (open_local E tty c w) (presses E fuel tty ks)) (p_bind (open_local E tty' c' w) (presses E fuel tty' ks')).
Proof.
  intros Hi Hks Hk. apply alike_bind; [apply alike_open; [exact Hi|apply alike_world_refl]|].
  intros p p' E1 Hp. apply alike_presses; try assumption. eapply inked_open; eassumption.
Qed.
End Two.

(** ** Any characters *)
Lemma every_all (Q : cmd -> Prop) c : (forall k, Q k) -> every Q c.
Proof.
  intros H. induction c as [i n e d p pd h|i n e d pd h|i n e d p ks IH] using cmd_ind2; try (split; [apply H|exact Logic.I]).
  apply every_menu. split; [apply H|exact IH].
Qed.
Lemma all_anything s : Forall anything s.
Proof. induction s; constructor; [exact Logic.I|assumption]. Qed.
Lemma all_any_text l : Forall any_text l.
Proof. induction l; constructor; [exact Logic.I|assumption]. Qed.
Lemma texts_any c : texts_in anything any_text c.
Proof.
  split; [apply all_anything|]. destruct c; split; try first [exact Logic.I|apply all_any_text|apply all_anything].
  split; [apply all_any_text|]. apply Forall_forall. intros [] _; exact Logic.I.
Qed.
Lemma world_any w : world_in anything any_text w.
Proof. split; [apply every_all, texts_any|]. apply Forall_forall. intros. apply all_anything. Qed.
Lemma result_any r : result_in anything any_text r.
Proof.
  split; [|destruct (ur_end r) as [|[]]; exact Logic.I]. apply Forall_forall. intros [] _; try exact Logic.I. apply every_all, texts_any.
Qed.
Lemma code_any E : code_in anything any_text E.
Proof. split; intros; apply result_any. Qed.
Theorem colours_behaviour E fuel tty tty' c c' ks ks' w : blind anything E -> map ks_key ks = map ks_key ks' ->
  alike_outcome anything (p_bind (open_local E tty c w) (presses E fuel tty ks)) (p_bind (open_local E tty' c' w) (presses E fuel tty' ks')).
Proof.
  intros Hb Hk. apply alike_session; [intros; exact Logic.I|apply code_any|exact Hb|apply world_any| |exact Hk].
  apply Forall_forall. intros [[]] _; exact Logic.I.
Qed.
Theorem colours_from_there E fuel tty tty' ks ks' p p' : blind anything E -> map ks_key ks = map ks_key ks' -> alike_proc anything p p' ->
  alike_outcome anything (presses E fuel tty ks p) (presses E fuel tty' ks' p').
Proof.
  intros Hb Hk H. apply alike_presses; [intros; exact Logic.I|apply code_any|exact Hb|exact Hk| | |exact H].
  - apply Forall_forall. intros [[]] _; exact Logic.I.
  - split; [apply world_any|apply all_anything].
Qed.

(** ** The screen *)
Lemma whole_nil : whole [].
Proof. intros sc H. exact H. Qed.
Lemma whole_app a b : whole a -> whole b -> whole (a ++ b).
Proof. intros Ha Hb sc H. rewrite display_app. auto. Qed.
Lemma whole_text s : Forall not_escape s -> whole s.
Proof.
  induction 1 as [|c s Hc _ IH]; [apply whole_nil|]. intros sc H. change (c :: s) with ([c] ++ s). rewrite display_app. apply IH.
  unfold display. cbn [fold_left]. unfold show_byte. rewrite H. destruct (Ascii.eqb_spec c "027"); [contradiction|].
  destruct (Ascii.eqb c "008"); [reflexivity|]. destruct (Ascii.eqb c "013"); [reflexivity|]. destruct (Ascii.eqb c "010"); reflexivity.
Qed.
Lemma display_params ps sc : Forall (fun c => is_param c = true) ps -> sc_esc sc = Csi -> display ps sc = sc.
Proof.
  intros H Hs. induction H as [|c ps Hc _ IH]; [reflexivity|]. change (c :: ps) with ([c] ++ ps). rewrite display_app.
  replace (display [c] sc) with sc; [exact IH|]. unfold display. cbn [fold_left]. unfold show_byte. rewrite Hs, Hc. reflexivity.
Qed.
Lemma display_code k sc : colour_code k -> sc_esc sc = Ground -> display k sc = sc.
Proof.
  intros (ps & -> & Hps) Hs. rewrite !display_app. destruct sc as [ab row be col es]. cbn in Hs. subst es.
  change (display ["027"; "["]%char (mkScreen ab row be col Ground)) with (mkScreen ab row be col Csi).
  rewrite (display_params ps) by first [exact Hps|reflexivity]. reflexivity.
Qed.
Lemma whole_code k : colour_code k -> whole k.
Proof. intros Hk sc H. rewrite display_code; assumption. Qed.
Lemma whole_clear : whole clear_screen.
Proof. intros sc H. rewrite display_clear by exact H. reflexivity. Qed.
Lemma display_alike a b : alike not_escape a b -> forall sc, sc_esc sc = Ground -> display a sc = display b sc.
Proof.
  induction 1 as [|c a b Hc H IH|k a b Hk H IH|k a b Hk H IH]; intros sc Hs; [reflexivity| | |].
  - change (display a (display [c] sc) = display b (display [c] sc)). apply IH. apply (whole_text [c]); [constructor; [exact Hc|constructor]|exact Hs].
  - rewrite display_app, (display_code k) by assumption. apply IH, Hs.
  - rewrite display_app, (display_code k) by assumption. apply IH, Hs.
Qed.
Lemma received_whole sid e : event_in whole e -> whole (received sid e).
Proof.
  intros H. destruct e; cbn in *; try apply whole_nil; [destruct (Nat.eqb _ _); [|apply whole_nil]|];
    (destruct H as [H| ->]; [exact H|apply whole_clear]).
Qed.
Lemma screens_alike sid evs evs' : Forall2 (alike_event not_escape) evs evs' -> Forall (event_in whole) evs ->
  forall sc, sc_esc sc = Ground -> display (flat_map (received sid) evs) sc = display (flat_map (received sid) evs') sc.
Proof.
  induction 1 as [|e e' evs evs' He H IH]; intros Hw sc Hs; [reflexivity|]. inversion Hw as [|? ? Hw1 Hw2]; subst. cbn [flat_map]. rewrite !display_app.
  replace (display (received sid e') sc) with (display (received sid e) sc).
  - apply IH; [exact Hw2|]. apply (received_whole sid e Hw1), Hs.
  - destruct He as [->|(i & a & b & -> & -> & Hab)]; [reflexivity|]. cbn. destruct (Nat.eqb _ _); [|reflexivity]. apply display_alike; assumption.
Qed.
Lemma forall2_app_same {A} (R : A -> A -> Prop) l : forall a b, Forall2 R (l ++ a) (l ++ b) -> Forall2 R a b.
Proof. induction l as [|x l IH]; intros a b H; [exact H|]. inversion H; subst. apply IH. assumption. Qed.

Section Screens.
Context (E : env) (fuel : nat).
Notation run_session := (run_session E fuel).
Lemma every_texts_any C N c : every (texts_in C N) c -> every (texts_in C any_text) c.
Proof. apply every_impl. intros k (H1 & H2). split; [exact H1|]. destruct k; destruct H2; split; try exact Logic.I; try assumption; try apply all_any_text; apply (texts_any (CFn id name en desc pars pdesc h)). Qed.
Lemma world_weaken C N w : world_in C N w -> world_in C any_text w.
Proof. intros (H1 & H2). split; [eapply every_texts_any; exact H1|exact H2]. Qed.
Lemma code_weaken C N : code_in C N E -> code_in C any_text E.
Proof.
  intros (H1 & H2). assert (H : forall r, result_in C N r -> result_in C any_text r).
  { intros r (Hr & _). split; [|destruct (ur_end r) as [|[]]; exact Logic.I]. eapply Forall_impl; [|exact Hr].
    intros []; try (intros; exact Logic.I). apply every_texts_any. }
  split; intros; apply H; auto.
Qed.
Lemma tidy_here C N w : world_in C N w -> tidy C N w w.
Proof. intros H. split; [exact H|]. exists []. rewrite app_nil_r. split; [reflexivity|]. split; [reflexivity|constructor]. Qed.
Lemma tidy_run (C : ascii -> Prop) (N : str -> Prop) (Coloured : Prop) (HC : forall c, not_escape c -> C c) (HN : forall s, Forall C s -> N s)
  (HA : forall a b, N a -> N b -> N (a ++ b)) (HS : Coloured -> forall n, N (sgr n)) tty c ks w :
  code_in C N E -> world_in C N w -> off Coloured tty -> off Coloured c -> Forall (stroke_in C Coloured) ks ->
  tidy_res C N Coloured w (run_session tty c ks w).
Proof.
  intros Hc Hw Ht Hcl Hks. apply tidy_bind; [apply tidy_open; try assumption; apply tidy_here, Hw|].
  intros p Hp. apply tidy_presses; assumption.
Qed.
Theorem colours_screen tty tty' c c' ks ks' w p p' sc : blind not_escape E -> code_in not_escape whole E -> world_in not_escape whole w ->
  Forall (fun k => key_in not_escape (ks_key k)) ks -> map ks_key ks = map ks_key ks' -> sc_esc (screen_of sc w) = Ground ->
  run_session tty c ks w = POk p -> run_session tty' c' ks' w = POk p' -> screen_of sc (p_world p) = screen_of sc (p_world p').
Proof.
  intros Hb Hc Hw Hks Hk Hsc Hp Hp'.
  pose proof (alike_session not_escape (fun c H => H) E (code_weaken _ _ Hc) Hb fuel tty tty' c c' ks ks' w (world_weaken _ _ _ Hw) Hks Hk) as Ha.
  fold (run_session tty c ks w) in Ha. fold (run_session tty' c' ks' w) in Ha. rewrite Hp, Hp' in Ha.
  assert (HT : forall tty c ks p, Forall (fun k => key_in not_escape (ks_key k)) ks -> run_session tty c ks w = POk p ->
    exists evs, w_trace (p_world p) = w_trace w ++ evs /\ w_sid (p_world p) = w_sid w /\ Forall (event_in whole) evs).
  { intros t0 c0 ks0 p0 Hks0 Hp0.
    pose proof (tidy_run not_escape whole True (fun c H => H) whole_text whole_app (fun _ n => whole_code _ (sgr_code n)) t0 c0 ks0 w Hc Hw (off_any _) (off_any _)) as Ht.
    rewrite Hp0 in Ht. destruct Ht as ((_ & Ht) & _); [|exact Ht]. eapply Forall_impl; [|exact Hks0]. intros k0 H0. split; [exact H0|split; apply off_any]. }
  assert (Hks' : Forall (fun k => key_in not_escape (ks_key k)) ks').
  { apply Forall_map. rewrite <- Hk. apply Forall_map. exact Hks. }
  destruct (HT _ _ _ _ Hks Hp) as (evs & He & Hsid & Hwh). destruct (HT _ _ _ _ Hks' Hp') as (evs' & He' & _ & _).
  destruct Ha as ((_ & _ & _ & Hs & _ & _ & _ & Ht) & _). unfold screen_of. rewrite <- Hs.
  rewrite He, He' in Ht |- *. assert (Hev : Forall2 (alike_event not_escape) evs evs').
  { eapply forall2_app_same. exact Ht. }
  rewrite !flat_map_app, !display_app. apply screens_alike; [exact Hev|exact Hwh|]. rewrite Hsid. exact Hsc.
Qed.
Lemma no_escape_app a b : Forall not_escape a -> Forall not_escape b -> Forall not_escape (a ++ b).
Proof. intros Ha Hb. apply Forall_app. split; assumption. Qed.
Theorem colours_off c ks w : code_in not_escape (Forall not_escape) E -> world_in not_escape (Forall not_escape) w ->
  Forall (fun k => key_in not_escape (ks_key k)) ks -> c = false -> Forall (fun k => ks_color k = false /\ ks_color' k = false) ks ->
  match run_session false c ks w with
  | POk p | PExc _ p => exists evs, w_trace (p_world p) = w_trace w ++ evs /\ Forall plain_event evs
  | _ => True
  end.
Proof.
  intros Hc Hw Hks Hcl Hkc.
  pose proof (tidy_run not_escape (Forall not_escape) False (fun c H => H) (fun s H => H) no_escape_app (fun H => match H with end) false c ks w Hc Hw
    (or_intror eq_refl) (or_intror Hcl)) as Ht.
  assert (Hst : Forall (stroke_in not_escape False) ks).
  { apply Forall_forall. intros k Hk. rewrite Forall_forall in Hks, Hkc. destruct (Hkc k Hk) as (H1 & H2). split; [apply Hks, Hk|split; right; assumption]. }
  specialize (Ht Hst). destruct (run_session false c ks w) as [p|x p| |]; try exact Logic.I; destruct Ht as ((_ & evs & He & _ & Hf) & _);
    exists evs; (split; [exact He|]); (eapply Forall_impl; [|exact Hf]; intros []; cbn; auto).
Qed.
End Screens.
