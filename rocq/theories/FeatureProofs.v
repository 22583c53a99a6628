(** * Proofs about recall, hiding, navigation, help, exit and tree operations *)

From Verif Require Import Base SplitModel SplitSpec SplitProofs FromStringModel HistoryModel HistorySpec HistoryProofs StorageModel StorageSpec StorageProofs TerminalModel
  MenuModel SessionModel ResolveSpec ResolveProofs SessionSpec TreeProofs SessionProofs InvariantProofs.
Open Scope nat_scope.
Open Scope list_scope.

(** ** Recall (C16) *)
Lemma digits_nonneg p w s : forall r v, (0 <= r)%Z -> digits_loop p w r s = COk v -> (0 <= v)%Z.
Proof.
  induction s as [|c s IH]; intros r v Hr; cbn [digits_loop]; [intros H; injection H as <-; exact Hr|].
  destruct (c_isdigit p c) as [[]|]; try discriminate. unfold digit_step. cbn zeta.
  match goal with |- context[if ?b then None else Some ?t] => destruct b eqn:Hb; [discriminate|]; set (tmp := t) in * end.
  apply orb_false_iff in Hb as (_ & Hb). apply Z.ltb_ge in Hb. apply IH. lia.
Qed.
Lemma uint_nonneg E a n : convert E (PInt UInt) a = COk (VInt n) -> (0 <= n)%Z.
Proof.
  cbn [convert]. destruct (int_from_string (e_plat E) UInt a) as [z| |] eqn:Hz; cbn [cmap cbind]; intros H; inversion H; subst.
  unfold int_from_string in Hz. cbn [int_signed] in Hz. unfold unsigned_from_string, unsigned_digits in Hz.
  destruct a as [|c r]; [discriminate|]. destruct (Ascii.eqb c "+").
  - destruct r; [discriminate|]. eapply digits_nonneg; [|exact Hz]. lia.
  - eapply digits_nonneg; [|exact Hz]. lia.
Qed.

Lemma view_forget h h' x b : h_buf h = x :: b -> h_buf h' = b -> h_oldest h' = h_oldest h ->
  exists id, view h = view h' ++ [(id, x)].
Proof.
  intros H H' Ho. unfold view. rewrite H, H', Ho. cbn [rev]. rewrite number_app. cbn [number]. eauto.
Qed.

Lemma record_forget size h line : size >= 1 -> reachable size h ->
  exists h1 h2 id, new_command h line = Some h1 /\ forget_latest h1 = Some h2 /\ view h1 = view h2 ++ [(id, line)] /\
    reachable size h2.
Proof.
  intros Hs Hr. destruct (reachable_inv size h Hs Hr) as (I & M).
  destruct (new_command_inv h line I ltac:(lia)) as (h1 & E1 & I1 & M1 & B1 & H1 & _).
  destruct (h_buf h1) as [|x b] eqn:Hb; [discriminate|]. injection H1 as ->.
  destruct (forget_inv h1 I1 B1 ltac:(congruence)) as (h2 & E2 & I2 & M2 & Hb2 & _ & O2). rewrite Hb in Hb2. cbn in Hb2.
  destruct (view_forget h1 h2 line b Hb Hb2 O2) as (id & Hv).
  exists h1, h2, id. do 3 (split; [assumption|]).
  eapply (reachable_step size h (OBang line)); [exact Hr|]. cbn. rewrite E1. exact E2.
Qed.

Lemma recall_found E size line a n w : size >= 1 -> reachable size (w_hist w) -> hooks_no_bad_cast E ->
  split line = Some [lit "!"; a] -> convert E (PInt UInt) a = COk (VInt n) ->
  exists h1 h2 id, new_command (w_hist w) line = Some h1 /\ forget_latest h1 = Some h2 /\ view h1 = view h2 ++ [(id, line)] /\
    forall fuel,
    (forall s, In (n, s) (view h2) ->
       feed E (S fuel) line w = match feed E fuel s (set_hist h2 w) with FExc x w' => report E line x w' | r => r end) /\
    ((forall s, ~ In (n, s) (view h2)) -> (0 < next_id h2)%Z ->
       feed E (S fuel) line w = report E line (XStd (lit "Index not found in history")) (set_hist h2 w)) /\
    (h_buf h2 = [] -> h_oldest h2 = 0%Z -> (n < 2 ^ 64)%Z -> feed E (S fuel) line w = FUB).
Proof.
  intros Hs Hr Hk Hsp Hc. destruct (record_forget size (w_hist w) line Hs Hr) as (h1 & h2 & id & E1 & E2 & Hv & Hr2).
  exists h1, h2, id. do 3 (split; [assumption|]). intros fuel.
  destruct (reachable_inv size h2 Hs Hr2) as (I2 & _).
  rewrite (recall_recorded E line w a n h1 h2 Hsp Hc E1 E2 Hk fuel). split; [|split].
  - intros s Hin. rewrite (at_id_found h2 n s (inv_oldest h2 I2) Hin). reflexivity.
  - intros Hno Hid. rewrite (at_id_missing h2 n (uint_nonneg _ _ _ Hc) (inv_oldest h2 I2) Hid Hno). reflexivity.
  - intros Hb Ho Hn. rewrite (at_id_ub h2 n); [reflexivity| |exact Ho|exact Hb]. split; [eapply uint_nonneg; exact Hc|exact Hn].
Qed.

Lemma view_length h : length (view h) = length (h_buf h).
Proof. unfold view. rewrite number_length, rev_length. reflexivity. Qed.
Lemma app_last_inj {A} (a b : list A) x y : a ++ [x] = b ++ [y] -> a = b.
Proof. intros H. apply app_inj_tail in H. tauto. Qed.
(** What is left after the recall line was recorded and forgotten: everything, or
    all but the oldest entry when the history was full. *)
Lemma recall_view size h line h1 h2 : size >= 1 -> reachable size h -> h_browse h = false -> last_text (view h) <> Some line ->
  new_command h line = Some h1 -> forget_latest h1 = Some h2 ->
  view h2 = if Nat.ltb (length (view h)) size then view h else tl (view h).
Proof.
  intros Hs Hr Hb Hl E1 E2. destruct (r_ids_stable size h line Hs Hr Hb) as (h1' & E1' & _ & [(H & _)|(_ & Hv)]); [congruence|].
  rewrite E1 in E1'. injection E1' as <-.
  destruct (record_forget size h line Hs Hr) as (h1' & h2' & id & E1' & E2' & Hv2 & _).
  rewrite E1 in E1'. injection E1' as <-. rewrite E2 in E2'. injection E2' as <-.
  rewrite Hv in Hv2. pose proof (reachable_bounded size h Hr) as Hbd. rewrite <- view_length in Hbd.
  destruct (Nat.ltb_spec (length (view h)) size) as [L|L].
  - rewrite lastn_all in Hv2 by (rewrite app_length; cbn; lia). symmetry. eapply app_last_inj. exact Hv2.
  - unfold lastn in Hv2. rewrite app_length in Hv2. replace (length (view h) + length [(next_id h, line)] - size) with 1 in Hv2 by (cbn; lia).
    destruct (view h) as [|e v]; [cbn in L; lia|]. cbn [skipn app tl] in *. symmetry. eapply app_last_inj. exact Hv2.
Qed.

(** ** At most one call, for lines that are not recalls (C29) *)
Lemma feed_one_call E line : ~ recall E line -> handlers_no_bad_cast E ->
  forall fuel w, f_grows 1 w (feed E (S fuel) line w).
Proof.
  intros Hn Hh fuel w. cbn [feed]. rewrite (feed_body_rec E line Hn (feed E fuel) (fun _ _ => FFuel)).
  apply feed_body_grows; [exact Hh|]. apply builtin_grows; [intros; exact Logic.I|intros; discriminate].
Qed.

(** ** Disabled commands (C27) *)
Lemma attempts_snd E bi l l' : map snd l = map snd l' -> forall w, attempts E bi l w = attempts E bi l' w.
Proof.
  revert l'. induction l as [|x l IH]; intros [|y l'] H w; try discriminate; [reflexivity|].
  cbn in H. injection H as Hx H. cbn [attempts]. rewrite Hx. apply e_bind_ext. intros w1. apply IH. exact H.
Qed.
Lemma under_snd i l : map snd (under i l) = map snd l.
Proof. unfold under. rewrite map_map. reflexivity. Qed.
Lemma kids_snd f l : forall i, map snd (kids_choices f i l) = flat_map (fun k => map snd (f k)) l.
Proof.
  induction l as [|k l IH]; intros i; [reflexivity|]. cbn [kids_choices flat_map]. rewrite map_app, under_snd, IH. reflexivity.
Qed.
Lemma prune_kids m : cmd_kids (prune m) = flat_map (fun k => if cmd_en k then [prune k] else []) (cmd_kids m).
Proof. destruct m; reflexivity. Qed.
Lemma prune_en m : cmd_en (prune m) = cmd_en m.
Proof. destruct m; reflexivity. Qed.
Lemma leaf_disabled k toks : cmd_en k = false -> leaf_choices k toks = [].
Proof. destruct k as [? ? [] ? ? ? ?|? ? [] ? ? ?|]; cbn; intros H; try discriminate; reflexivity. Qed.
Lemma h_disabled toks up k ctx : cmd_en k = false -> h_choices toks up (k :: ctx) = [].
Proof. destruct toks as [|t rest]; [reflexivity|]. destruct k as [| |? ? [] ? ? ?]; cbn; intros H; try discriminate; reflexivity. Qed.

Lemma menu_prune hc hc' toks ctx :
  (forall up c, map snd (hc' up (map prune c)) = map snd (hc up c)) ->
  (forall k c, cmd_en k = false -> hc false (k :: c) = []) ->
  map snd (menu_choices hc' toks (map prune ctx)) = map snd (menu_choices hc toks ctx).
Proof.
  intros Hh Hd. destruct ctx as [|m anc]; [reflexivity|]. cbn [map menu_choices]. rewrite prune_en.
  destruct (cmd_en m); [|reflexivity]. rewrite !map_app, !kids_snd. f_equal.
  - rewrite prune_kids. change (prune m :: map prune anc) with (map prune (m :: anc)).
    generalize (m :: anc) as c. intros c. induction (cmd_kids m) as [|k l IH]; [reflexivity|].
    cbn [flat_map]. rewrite flat_map_app, IH. f_equal. destruct (cmd_en k) eqn:Hk.
    + cbn [flat_map]. rewrite app_nil_r. destruct k as [| |i n e d p ks]; try reflexivity.
      cbn [cmd_choices prune]. apply (Hh false (CMenu i n e d p ks :: c)).
    + cbn [flat_map]. destruct k as [| |i n e d p ks]; cbn [cmd_choices]; [rewrite leaf_disabled by exact Hk; reflexivity..|].
      rewrite Hd by exact Hk. reflexivity.
  - destruct anc as [|p anc]; [reflexivity|]. cbn [map]. rewrite !under_snd. apply (Hh true (p :: anc)).
Qed.
Lemma h_prune toks : forall up ctx, map snd (h_choices toks up (map prune ctx)) = map snd (h_choices toks up ctx).
Proof.
  induction toks as [|t rest IH]; intros up ctx; [reflexivity|].
  destruct ctx as [|k anc]; [reflexivity|]. destruct k as [| |i n [] d p ks]; try reflexivity.
  cbn [map prune h_choices]. destruct (str_eqb n t || up && str_eqb (lit "..") t); [|reflexivity].
  destruct rest as [|r rest]; [reflexivity|].
  apply (menu_prune (h_choices (r :: rest)) (h_choices (r :: rest)) (r :: rest) (CMenu i n true d p ks :: anc) IH).
  intros k c Hk. apply h_disabled. exact Hk.
Qed.
Lemma choices_prune toks ctx : map snd (choices toks (map prune ctx)) = map snd (choices toks ctx).
Proof. apply menu_prune; [apply h_prune|]. intros k c. apply h_disabled. Qed.

Lemma scan_prune E bi toks ctx w : toks <> [] -> scan E bi toks (map prune ctx) w = scan E bi toks ctx w.
Proof. intros Hne. rewrite !scan_attempts by exact Hne. apply attempts_snd, choices_prune. Qed.

Lemma help_line_prune c : help_line (prune c) = help_line c.
Proof. destruct c; reflexivity. Qed.
Lemma help_disabled c : cmd_en c = false -> help_line c = [].
Proof. unfold help_line. intros ->. reflexivity. Qed.
Lemma help_prune ctx : main_help (map prune ctx) = main_help ctx.
Proof.
  destruct ctx as [|m anc]; [reflexivity|]. cbn [map main_help]. rewrite prune_en. destruct (negb (cmd_en m)); [reflexivity|].
  f_equal.
  - rewrite prune_kids. induction (cmd_kids m) as [|k l IH]; [reflexivity|]. cbn [flat_map]. rewrite flat_map_app, IH. f_equal.
    destruct (cmd_en k) eqn:Hk; cbn [flat_map]; [rewrite app_nil_r; apply help_line_prune|rewrite help_disabled by exact Hk; reflexivity].
  - destruct anc; [reflexivity|]. apply help_line_prune.
Qed.

(** Resolution is the same as in the pruned tree. *)
Lemma no_match_snd E ctx toks : toks <> [] ->
  (no_match E ctx toks <-> Forall (unusable E) (map snd (choices toks ctx))).
Proof.
  intros Hne. unfold no_match. rewrite Forall_forall. split.
  - intros H t Hin. apply in_map_iff in Hin as ((p, t') & <- & Hin). apply in_choices in Hin; [|exact Hne]. eapply H. exact Hin.
  - intros H p t Hr. apply H. apply in_map_iff. exists (p, t). split; [reflexivity|]. apply in_choices; assumption.
Qed.

Lemma first_snd E ctx toks t : toks <> [] ->
  (first_match E ctx toks t <->
   exists l1 l2, map snd (choices toks ctx) = l1 ++ t :: l2 /\ Forall (unusable E) l1 /\ ~ unusable E t).
Proof.
  intros Hne.
  assert (Hto : forall t, first_match E ctx toks t ->
    exists l1 l2, map snd (choices toks ctx) = l1 ++ t :: l2 /\ Forall (unusable E) l1 /\ ~ unusable E t).
  { intros t0 H. destruct (first_split E toks ctx t0 Hne H) as (l1 & p & l2 & Hc & Hf).
    exists (map snd l1), (map snd l2). rewrite Hc, map_app. split; [reflexivity|]. split.
    - apply Forall_map. eapply Forall_impl; [|exact Hf]. cbn. tauto.
    - destruct H as (_ & _ & Hn & _). exact Hn. }
  split; [apply Hto|]. intros (l1 & l2 & Hc & Hf & Hn).
  destruct (match_or_not E toks ctx Hne) as [H|(t' & H)].
  - apply no_match_snd in H; [|exact Hne]. rewrite Hc in H. apply Forall_app in H as (_ & H). inversion H; tauto.
  - enough (t' = t) by congruence. destruct (Hto t' H) as (k1 & k2 & Hc' & Hf' & Hn'). rewrite Hc in Hc'. clear - Hc' Hf Hn Hf' Hn'.
    revert k1 Hc' Hf'. induction Hf as [|x l1 Hx Hl IH]; intros [|y k1] Hc' Hf'; cbn in Hc'; injection Hc' as <- Hc'.
    + reflexivity.
    + inversion Hf'; tauto.
    + tauto.
    + inversion Hf'; subst. eapply IH; eassumption.
Qed.
Lemma resolves_prune E ctx toks t : toks <> [] -> (resolves E (map prune ctx) toks t <-> resolves E ctx toks t).
Proof.
  intros Hne. unfold resolves. rewrite (first_snd E (map prune ctx)), (first_snd E ctx) by exact Hne. rewrite choices_prune. reflexivity.
Qed.
Lemma unresolved_prune E ctx toks : toks <> [] -> (unresolved E (map prune ctx) toks <-> unresolved E ctx toks).
Proof.
  intros Hne. unfold unresolved. rewrite (no_match_snd E (map prune ctx)), (no_match_snd E ctx) by exact Hne. rewrite choices_prune. reflexivity.
Qed.

(** ** Help (C51) *)
Lemma spaced_cons w l : spaced (w :: l) = lit " " ++ w ++ spaced l.
Proof. reflexivity. Qed.
Lemma type_words p : type_desc p = type_word p.
Proof. destruct p as [[]| | | |[]|]; reflexivity. Qed.
Lemma print_desc_spaced pars : print_desc pars = spaced (map type_word pars).
Proof. rewrite <- (map_ext _ _ type_words). unfold print_desc, spaced. rewrite flat_map_concat_map, map_map. reflexivity. Qed.
Lemma print_pdesc_spaced l : print_pdesc l = spaced (map (fun s => lit "<" ++ s ++ lit ">") l).
Proof. unfold print_pdesc, spaced. rewrite flat_map_concat_map, map_map. reflexivity. Qed.
Lemma help_line_entry c : help_line c = if cmd_en c then help_entry c else [].
Proof.
  unfold help_line. destruct (cmd_en c); [|reflexivity]. cbn [negb].
  destruct c as [i n e d p pd h|i n e d pd h|i n e d pr ks]; unfold help_entry; rewrite !spaced_cons.
  - rewrite <- app_assoc. cbn [app lit list_ascii_of_string]. f_equal. f_equal. f_equal. rewrite <- app_assoc. f_equal.
    destruct pd as [|x pd]; cbn [param_words].
    + rewrite print_desc_spaced. cbn [print_pdesc flat_map app]. reflexivity.
    + rewrite print_pdesc_spaced. reflexivity.
  - rewrite <- app_assoc. cbn [app lit list_ascii_of_string]. f_equal. f_equal. f_equal. rewrite <- app_assoc. f_equal.
    destruct pd as [|x pd]; [reflexivity|]. cbn [param_words]. rewrite print_pdesc_spaced. reflexivity.
  - cbn. rewrite app_nil_r. reflexivity.
Qed.
Lemma help_lines l : flat_map help_line l = concat (map help_entry (filter cmd_en l)).
Proof.
  induction l as [|c l IH]; [reflexivity|]. cbn [flat_map filter]. rewrite IH, help_line_entry.
  destruct (cmd_en c); reflexivity.
Qed.
Lemma help_text_screen w ctx : unique_ids (w_root w) -> in_menu w ctx -> help_text w = Some (help_screen ctx).
Proof.
  intros Hu Hm. unfold help_text. rewrite (in_menu_locate w ctx Hu Hm). f_equal.
  change (main_help [global_menu]) with
   (lit " - help" ++ nl ++ tab ++ lit "This help message" ++ nl
  ++ lit " - exit" ++ nl ++ tab ++ lit "Quit the session" ++ nl
  ++ lit " - history" ++ nl ++ tab ++ lit "Show the history" ++ nl
  ++ lit " - ! <history entry index>" ++ nl ++ tab ++ lit "Exec a command by index in the history" ++ nl).
  unfold help_screen. rewrite <- !app_assoc. do 17 f_equal.
  destruct ctx as [|m anc]; [reflexivity|]. cbn [main_help]. destruct (cmd_en m); [|reflexivity]. cbn [negb].
  rewrite filter_app, map_app, concat_app, help_lines. f_equal. destruct anc as [|p anc]; [reflexivity|].
  cbn [firstn filter]. rewrite help_line_entry. destruct (cmd_en p); [cbn; rewrite app_nil_r|]; reflexivity.
Qed.

Lemma feed_help E fuel line w w0 ctx : unique_ids (w_root w) -> in_menu w ctx -> recorded line w [lit "help"] w0 ->
  feed E (S fuel) line w = FOk (log (EvOut (w_sid w) (help_screen ctx)) w0).
Proof.
  intros Hu Hm Hr. cbn [feed]. rewrite (feed_body_spec E _ _ _ _ _ Hr).
  pose proof (recorded_same _ _ _ _ Hr) as (Hroot & Hcur & Hsid & _).
  assert (Hh : help_text w0 = Some (help_screen ctx)).
  { apply help_text_screen; [rewrite Hroot; exact Hu|unfold in_menu; rewrite Hroot, Hcur; exact Hm]. }
  rewrite (dispatch_global E _ [lit "help"] line w0 (TRun HHelp [] []) ltac:(discriminate) (first_help E)).
  - cbn. rewrite Hh. cbn. unfold out. rewrite Hsid. reflexivity.
  - intros w'. cbn. rewrite Hh. discriminate.
Qed.
Lemma feed_history E size fuel line w w0 : size >= 1 -> reachable size (w_hist w) -> recorded line w [lit "history"] w0 ->
  feed E (S fuel) line w = FOk (log (EvOut (w_sid w) (listing (view (w_hist w0)))) w0).
Proof.
  intros Hs Hreach Hr. cbn [feed]. rewrite (feed_body_spec E _ _ _ _ _ Hr).
  pose proof (recorded_same _ _ _ _ Hr) as (_ & _ & Hsid & _).
  assert (Hsh : show (w_hist w0) = Some (listing (view (w_hist w0)))).
  { apply show_spec. destruct Hr as (_ & _ & h & Hh & ->). cbn.
    assert (Hr1 : reachable size h) by (eapply (reachable_step size (w_hist w) (ONew line)); [exact Hreach|exact Hh]).
    apply (inv_oldest h (proj1 (reachable_inv size h Hs Hr1))). }
  rewrite (dispatch_global E _ [lit "history"] line w0 (TRun HHistory [] []) ltac:(discriminate) (first_history E)).
  - cbn. rewrite Hsh. cbn. unfold out. rewrite Hsid. reflexivity.
  - intros w'. cbn. rewrite Hsh. discriminate.
Qed.

(** ** Exit and enter (C37) *)
Lemma apply_op_quiet w o : exists evs, w_trace (apply_op w o) = w_trace w ++ evs /\ Forall quiet evs.
Proof.
  destruct o as [s|s|id|id|id|pid c]; cbn; try (eexists; split; [reflexivity|repeat constructor]);
    try (exists []; rewrite app_nil_r; split; [reflexivity|constructor]).
  destruct (relabel (w_next w) c). cbn. eexists; split; [reflexivity|repeat constructor].
Qed.
Lemma apply_ops_quiet os w : exists evs, w_trace (apply_ops os w) = w_trace w ++ evs /\ Forall quiet evs.
Proof.
  apply (apply_ops_ind (fun w' => exists evs, w_trace w' = w_trace w ++ evs /\ Forall quiet evs)).
  - exists []. rewrite app_nil_r. split; [reflexivity|constructor].
  - intros w' o _ (evs & He & Hq). destruct (apply_op_quiet w' o) as (evs' & He' & Hq').
    exists (evs ++ evs'). rewrite He', He, app_assoc. split; [reflexivity|]. apply Forall_app. auto.
Qed.
Lemma hook_cases E k w : e_has E k = true ->
  exists w' r, hook_ran E k w w' r /\
    run_hook E k [] w = match r with UReturn => HOk w' | UThrow x => HExc x w' end.
Proof.
  intros Hk. rewrite hook_spec. cbn zeta.
  set (w1 := log (EvHook (w_sid w) k []) w). set (r := e_hook E (w_sid w) k [] (w_trace w1)).
  exists (apply_ops (ur_ops r) w1), (ur_end r). split.
  - destruct (apply_ops_quiet (ur_ops r) w1) as (evs & He & Hq).
    destruct (apply_ops_same (ur_ops r) w1) as (H1 & H2 & H3 & H4 & H5).
    split; [exact Hk|]. split; [exists evs; split; [|exact Hq]|].
    + rewrite He. cbn [w1 log w_trace]. rewrite <- app_assoc. reflexivity.
    + repeat split; try assumption.
  - reflexivity.
Qed.
Lemma hook_opt_cases E k w :
  exists w' r, hook_ran_or_absent E k w w' r /\
    (if e_has E k then run_hook E k [] w else HOk w) = match r with UReturn => HOk w' | UThrow x => HExc x w' end.
Proof.
  destruct (e_has E k) eqn:Hk.
  - destruct (hook_cases E k w Hk) as (w' & r & H & He). exists w', r. split; [left; exact H|exact He].
  - exists w, UReturn. split; [right; auto|reflexivity].
Qed.

Lemma exit_cases E size w : size >= 1 -> reachable size (w_hist w) ->
  (e_has E KSesExit = false /\ session_exit E w = HExc (XStd (lit "bad_function_call")) w) \/
  (exists w1 x, hook_ran E KSesExit w w1 (UThrow x) /\ session_exit E w = HExc x w1) \/
  (exists w1 w2 x, hook_ran E KSesExit w w1 UReturn /\ hook_ran E KCliExit w1 w2 (UThrow x) /\ session_exit E w = HExc x w2) \/
  (exists w1 w2, hook_ran E KSesExit w w1 UReturn /\ hook_ran_or_absent E KCliExit w1 w2 UReturn /\
     session_exit E w = HOk (set_exit true (set_store (st_store (w_store w) (lastn (h_cmds (w_hist w)) (committed (w_hist w)))) w2))).
Proof.
  intros Hs Hr. destruct (reachable_inv size _ Hs Hr) as (I & _). unfold session_exit.
  destruct (e_has E KSesExit) eqn:Hk; [|left; split; reflexivity].
  right. destruct (hook_cases E KSesExit w Hk) as (w1 & r & H1 & ->).
  destruct r as [|x]; [|left; exists w1, x; split; [exact H1|reflexivity]].
  right. cbn [h_bind]. destruct (hook_opt_cases E KCliExit w1) as (w2 & r & H2 & ->).
  destruct r as [|x].
  - right. exists w1, w2. split; [exact H1|]. split; [exact H2|]. cbn [h_bind].
    assert (Hh : w_hist w2 = w_hist w /\ w_store w2 = w_store w).
    { destruct H1 as (_ & _ & _ & Hst & Hhi & _).
      destruct H2 as [(_ & _ & _ & Hst2 & Hhi2 & _)|(_ & -> & _)]; split; congruence. }
    destruct Hh as (Hhi & Hst). rewrite Hhi, Hst, (get_commands_spec _ I). reflexivity.
  - left. exists w1, w2, x. split; [exact H1|]. split; [|reflexivity].
    destruct H2 as [H2|(_ & _ & H2)]; [exact H2|discriminate].
Qed.

Lemma enter_cases E w :
  (exists w1 x, hook_ran E KCliEnter w w1 (UThrow x) /\ session_enter E w = HExc x w1) \/
  (exists w1 w2 x, hook_ran_or_absent E KCliEnter w w1 UReturn /\ hook_ran E KSesEnter w1 w2 (UThrow x) /\ session_enter E w = HExc x w2) \/
  (exists w1 w2, hook_ran_or_absent E KCliEnter w w1 UReturn /\ hook_ran_or_absent E KSesEnter w1 w2 UReturn /\ session_enter E w = HOk w2).
Proof.
  unfold session_enter. destruct (hook_opt_cases E KCliEnter w) as (w1 & r & H1 & ->). destruct r as [|x].
  - cbn [h_bind]. right. destruct (hook_opt_cases E KSesEnter w1) as (w2 & r & H2 & ->). destruct r as [|x].
    + right. exists w1, w2. auto.
    + left. exists w1, w2, x. split; [exact H1|]. split; [|reflexivity]. destruct H2 as [H2|(_ & _ & H2)]; [exact H2|discriminate].
  - left. exists w1, x. split; [|reflexivity]. destruct H1 as [H1|(_ & _ & H1)]; [exact H1|discriminate].
Qed.

Lemma session_exit_bad_cast E w s w' : hooks_no_bad_cast E -> session_exit E w <> HExc (XBadCast s) w'.
Proof.
  intros Hk. unfold session_exit. destruct (e_has E KSesExit); [|discriminate].
  rewrite hook_spec. cbn zeta. match goal with |- context[ur_end (e_hook E ?a ?b ?c ?d)] => pose proof (Hk a b c d) as H1; destruct (ur_end (e_hook E a b c d)) as [|x] end.
  - cbn [h_bind]. destruct (e_has E KCliExit).
    + rewrite hook_spec. cbn zeta. match goal with |- context[ur_end (e_hook E ?a ?b ?c ?d)] => pose proof (Hk a b c d) as H2; destruct (ur_end (e_hook E a b c d)) as [|x] end.
      * cbn [h_bind]. destruct (get_commands _); discriminate.
      * cbn. intros H. injection H as -> _. exact (H2 s eq_refl).
    + cbn [h_bind]. destruct (get_commands _); discriminate.
  - cbn. intros H. injection H as -> _. exact (H1 s eq_refl).
Qed.
Lemma feed_exit E fuel line w w0 : hooks_no_bad_cast E -> recorded line w [lit "exit"] w0 ->
  feed E (S fuel) line w =
  match session_exit E w0 with HOk w' => FOk w' | HExc x w' => report E line x w' | HUB => FUB | HFuel => FFuel end.
Proof.
  intros Hk Hr. cbn [feed]. rewrite (feed_body_spec E _ _ _ _ _ Hr).
  assert (Ha : attempt E (builtin E (feed E fuel)) (TRun HExit [] []) w0 =
    match session_exit E w0 with HOk w' => EDone true w' | HExc x w' => EExc x w' | HUB => EUB | HFuel => EFuel end).
  { cbn. pose proof (session_exit_bad_cast E w0) as H. destruct (session_exit E w0) as [w'|[s|s|] w'| |]; try reflexivity.
    exfalso. exact (H s w' Hk eq_refl). }
  rewrite (dispatch_global E _ [lit "exit"] line w0 (TRun HExit [] []) ltac:(discriminate) (first_exit E)).
  - rewrite Ha. destruct (session_exit E w0); reflexivity.
  - intros w'. rewrite Ha. destruct (session_exit E w0); discriminate.
Qed.

(** ** History across sessions (C54) *)
Lemma opened_history sid size root nxt st tr :
  map snd (view (w_hist (open_session sid size root nxt st tr))) = lastn size (st_commands st).
Proof.
  cbn [open_session w_hist]. rewrite load_view by (cbn; lia). unfold view at 1. cbn [history_init h_buf h_max h_oldest rev number app].
  unfold lastn. rewrite <- skipn_map, number_map_snd, number_length. reflexivity.
Qed.
Lemma store_commands st cmds : (forall max f, st = StFile max f -> Forall one_line cmds) ->
  st_commands (st_store st cmds) = lastn (match st with StVolatile m _ | StFile m _ => m end) (st_commands st ++ cmds).
Proof.
  destruct st as [max l|max f]; cbn [st_store st_commands]; intros H.
  - apply append_trim_lastn.
  - apply (f_step_ideal f (SStore max cmds)). eapply H. reflexivity.
Qed.

(** ** Changing the tree (C32) *)
Lemma ids_flat c : forall above, ids c = map (fun x => label_id (snd x)) (flat above c).
Proof.
  induction c as [i n e d p pd h|i n e d pd h|i n e d p ks IH] using cmd_ind2; intros above; try reflexivity.
  rewrite ids_menu. cbn [flat map label_id snd]. f_equal. unfold kids_ids. rewrite map_flat_map. apply flat_map_ext_in.
  intros k Hk. rewrite Forall_forall in IH. auto.
Qed.
Lemma remove_gone id c : NoDup (ids c) -> cmd_id c <> id -> ~ In id (ids (remove_cmd id c)).
Proof.
  intros Hn Hi. rewrite (ids_flat _ []), remove_flat by (auto; intros []). intros H.
  apply in_map_iff in H as (x & Hx & H). apply filter_In in H as (_ & H). unfold untouched in H.
  rewrite Hx in H. cbn [existsb] in H. rewrite Nat.eqb_refl in H. discriminate.
Qed.
Lemma gone_op id w o : id < w_next w -> ~ In id (ids (w_root w)) -> sound w ->
  id < w_next (apply_op w o) /\ ~ In id (ids (w_root (apply_op w o))).
Proof.
  intros Hlt Hn Hs. destruct o as [s|s|i|i|i|pid c]; cbn; try (split; assumption);
    try (rewrite set_enabled_ids; split; assumption).
  - split; [exact Hlt|]. intros H. apply remove_ids_in in H. tauto.
  - pose proof (relabel_ids c (w_next w)) as Hr. destruct (relabel (w_next w) c) as (c', n'). destruct Hr as (Hl & Hids).
    cbn. split; [lia|]. intros H.
    destruct (in_dec Nat.eq_dec pid (menu_ids (w_root w))) as [Hin|Hnin].
    + apply (Permutation_in id (insert_ids pid c' _ (proj1 Hs) Hin)) in H. apply in_app_or in H as [H|H]; [tauto|].
      rewrite Hids in H. apply in_seq in H. lia.
    + rewrite insert_absent in H by exact Hnin. tauto.
Qed.
Lemma gone_ops id os : forall w, id < w_next w -> ~ In id (ids (w_root w)) -> sound w ->
  ~ In id (ids (w_root (apply_ops os w))).
Proof.
  induction os as [|o os IH]; intros w H1 H2 H3; [exact H2|]. cbn. destruct (gone_op id w o H1 H2 H3) as (H4 & H5).
  apply IH; [exact H4|exact H5|apply sound_op; exact H3].
Qed.
Lemma removed_for_good id os w : sound w -> In id (ids (w_root w)) -> cmd_id (w_root w) <> id ->
  ~ In id (ids (w_root (apply_ops os (apply_op w (ORemove id))))).
Proof.
  intros Hs Hin Hid. assert (Hlt : id < w_next w) by (destruct Hs as (_ & Hf); rewrite Forall_forall in Hf; auto).
  apply gone_ops; [exact Hlt|apply remove_gone; [apply Hs|exact Hid]|apply (sound_op w (ORemove id) Hs)].
Qed.
Lemma gone_no_effect id w : ~ In id (ids (w_root w)) ->
  apply_op w (OEnable id) = w /\ apply_op w (ODisable id) = w /\ apply_op w (ORemove id) = w.
Proof.
  intros H. cbn. rewrite !set_enabled_absent, remove_absent by exact H. destruct w. repeat split.
Qed.
Lemma set_enabled_twice id b b' c : set_enabled id b (set_enabled id b' c) = set_enabled id b c.
Proof.
  induction c as [i n e d p pd h|i n e d pd h|i n e d p ks IH] using cmd_ind2; cbn; try (destruct (Nat.eqb i id); reflexivity).
  f_equal; [destruct (Nat.eqb i id); reflexivity|]. rewrite map_map. apply map_ext_in. intros k Hk.
  rewrite Forall_forall in IH. auto.
Qed.

(** ** Navigation (C35) *)
Lemma nav_step_only ctx w ctx1 : nav_step ctx w ctx1 ->
  forall rest p t, reading ctx (w :: rest) p t ->
  exists m anc, ctx1 = m :: anc /\ is_menu m /\
  ((rest = [] /\ t = TGoto (cmd_id m)) \/ exists p', reading ctx1 rest p' t).
Proof.
  intros Hn rest p t Hr. apply reading_cases in Hr; [|discriminate].
  destruct Hr as (m & anc & i & p' & -> & He & -> & [(k & Hk & Hin)|(-> & Ht)]).
  - assert (Hname : cmd_name k = w).
    { destruct Hin as [Hin|(id & name & en & desc & pr & kids & anc' & w' & rest' & Hc & Hw & [->|(Hf & _)] & _)].
      - apply in_leaf in Hin as (_ & [(id & name & desc & pars & pdesc & h & args & -> & Hw & _)|
                                   (id & name & desc & pdesc & h & args & -> & Hw & _)]); injection Hw as -> _; reflexivity.
      - injection Hc as -> _. injection Hw as -> _. reflexivity.
      - discriminate. }
    inversion Hn as [m' anc' k' l1 l2 w' Hem Hkids Hmk Hek Hnk Hoth Hpar|m' q anc' w' Hem Hmq Heq Hw' Hoth]; subst.
    + rewrite Hkids in Hk. apply nth_error_In in Hk. apply in_app_or in Hk as [Hk|[<-|Hk]].
      * exfalso. rewrite Forall_forall in Hoth. apply (Hoth k); [apply in_or_app; left; exact Hk|reflexivity || exact Hname].
      * exists k', (m :: anc). split; [reflexivity|]. split; [exact Hmk|].
        destruct Hin as [Hin|(id & name & en & desc & pr & kids & anc' & w' & rest' & Hc & Hw & _ & _ & Ht)].
        -- destruct Hmk as (? & ? & ? & ? & ? & ? & ->). destruct Hin.
        -- injection Hc as -> <-. injection Hw as _ <-. destruct Ht as [(-> & _ & ->)|Ht]; [left; split; reflexivity|right; eauto].
      * exfalso. rewrite Forall_forall in Hoth. apply (Hoth k); [apply in_or_app; right; exact Hk|reflexivity || exact Hname].
    + exfalso. apply nth_error_In in Hk. rewrite Forall_forall in Hoth. apply (Hoth k Hk). reflexivity.
  - destruct Ht as (id & name & en & desc & pr & kids & anc' & w' & rest' & -> & Hw & Hww & _ & Ht).
    injection Hw as <- <-.
    inversion Hn as [m' anc'' k' l1 l2 w' Hem Hkids Hmk Hek Hnk Hoth Hpar|m' q anc'' w' Hem Hmq Heq Hw' Hoth]; subst.
    + exfalso. destruct (Hpar _ _ eq_refl) as (H1 & H2). destruct Hww as [Hx|(_ & Hx)]; [apply H1; symmetry; exact Hx|apply H2; exact Hx].
    + exists (CMenu id name en desc pr kids), anc'. split; [reflexivity|]. split; [exact Hmq|].
      destruct Ht as [(-> & _ & ->)|Ht]; [left; split; reflexivity|right; eauto].
Qed.
Lemma nav_step_reading ctx w ctx1 : nav_step ctx w ctx1 ->
  exists m anc, ctx1 = m :: anc /\ cmd_en m = true /\
    (exists p, reading ctx [w] p (TGoto (cmd_id m))) /\
    (forall rest p t, reading ctx1 rest p t -> exists p', reading ctx (w :: rest) p' t).
Proof.
  intros H. inversion H as [m anc k l1 l2 w' Hem Hkids Hmk Hek Hnk Hoth Hpar|m q anc w' Hem Hmq Heq Hw' Hoth]; subst.
  - exists k, (m :: anc). split; [reflexivity|]. split; [exact Hek|].
    assert (Hn : nth_error (cmd_kids m) (length l1) = Some k) by (rewrite Hkids, nth_error_app2, Nat.sub_diag by lia; reflexivity).
    destruct Hmk as (id & n & e & d & p & ks & ->). cbn in Hek. subst e. split.
    + exists [length l1]. eapply rd_menu; eauto.
    + intros rest p' t Hr. exists (length l1 :: p'). eapply rd_in_menu; eauto.
  - exists q, anc. split; [reflexivity|]. split; [exact Heq|].
    destruct Hmq as (id & n & e & d & p & ks & ->). cbn in Heq. subst e. cbn in Hw'. split.
    + exists [length (cmd_kids m)]. eapply rd_parent; eauto.
    + intros rest p' t Hr. exists (length (cmd_kids m) :: p'). eapply rd_in_parent; eauto.
Qed.

Lemma nav_match E ctx ws ctx1 : nav ctx ws ctx1 -> ws <> [] ->
  exists m anc, ctx1 = m :: anc /\ cmd_en m = true /\ first_match E ctx ws (TGoto (cmd_id m)).
Proof.
  intros H Hne.
  assert (Hall : (forall p t, reading ctx ws p t -> exists m anc, ctx1 = m :: anc /\ t = TGoto (cmd_id m)) /\
                 exists m anc p, ctx1 = m :: anc /\ cmd_en m = true /\ reading ctx ws p (TGoto (cmd_id m))).
  { induction H as [ctx|ctx w ctx' ws ctx2 Hs Hn IH]; [congruence|]. destruct ws as [|w2 ws].
    - inversion Hn; subst. split.
      + intros p t Hr. destruct (nav_step_only _ _ _ Hs _ _ _ Hr) as (m & anc & -> & _ & [(_ & ->)|(p' & Hr')]); [eauto|].
        destruct (reading_nil_inv _ _ _ Hr').
      + destruct (nav_step_reading _ _ _ Hs) as (m & anc & -> & He & (p & Hr) & _). exists m, anc, p. auto.
    - destruct (IH ltac:(discriminate)) as (IH1 & m & anc & p & -> & He & Hr). split.
      + intros p' t Hr'. destruct (nav_step_only _ _ _ Hs _ _ _ Hr') as (m' & anc' & -> & _ & [(Hx & _)|(p'' & Hr'')]); [discriminate|].
        eapply IH1. exact Hr''.
      + destruct (nav_step_reading _ _ _ Hs) as (m' & anc' & -> & He' & _ & Hin). destruct (Hin _ _ _ Hr) as (p' & Hr').
        exists m, anc, p'. auto. }
  destruct Hall as (H1 & m & anc & p & -> & He & Hr). exists m, anc. split; [reflexivity|]. split; [exact He|].
  assert (Huse : forall i, ~ unusable E (TGoto i)) by (intros i Hu; inversion Hu).
  destruct (match_or_not E ws ctx Hne) as [Hno|(t & p' & Hr' & Hu & Hmin)].
  - exfalso. apply (Huse (cmd_id m)). eapply Hno. exact Hr.
  - destruct (H1 _ _ Hr') as (m' & anc' & Hx & ->). injection Hx as <- <-. exists p'. auto.
Qed.
