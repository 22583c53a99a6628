From Verif Require Import Base FromStringModel HistoryModel HistorySpec HistoryProofs TerminalModel TerminalSpec TerminalProofs PrefixModel PrefixSpec PrefixProofs
  MenuModel SessionModel ResolveSpec SessionSpec TreeProofs SessionProofs InvariantProofs FeatureProofs ConvTotalSpec CompletionModel CompletionSpec CompletionProofs
  ProcessorModel ProcessorSpec ProcessorProofs KeyUBSpec.
Open Scope nat_scope.
Open Scope list_scope.

(** ** Completion *)
Lemma space_odd P c : c_isspace P c = None <-> char_signed P = true /\ negative_byte c.
Proof.
  unfold c_isspace, ctype_ok, negative_byte, code. destruct (char_signed P); cbn [negb orb].
  - destruct (Z.ltb_spec (Z.of_N (N_of_ascii c)) 128); cbn [orb]; [split; [discriminate|lia]|].
    destruct (Z.eqb_spec (Z.of_N (N_of_ascii c)) 255); [split; [discriminate|lia]|].
    assert (N_of_ascii c < 256)%N by apply N_ascii_bounded.
    split; [intros _; split; [reflexivity|lia]|reflexivity].
  - split; [discriminate|intros (? & _); discriminate].
Qed.
Lemma white_not_negative c : CompletionSpec.white c = true -> ~ negative_byte c.
Proof. rewrite white_space. unfold space_code, code, negative_byte. intros H. lia. Qed.

Lemma trim_odd P s : trim_left P s = None <-> odd_start P s.
Proof.
  induction s as [|c s IH]; cbn [trim_left].
  - split; [discriminate|]. intros (_ & [|? ?] & c & r & H & _); discriminate.
  - destruct (c_isspace P c) as [[|]|] eqn:Hc.
    + rewrite IH. assert (Hw : CompletionSpec.white c = true).
      { rewrite white_space. unfold c_isspace in Hc. destruct (ctype_ok P c); [|discriminate]. congruence. }
      split; intros (Hs & pre & x & r & Heq & Hp & Hx); (split; [exact Hs|]).
      * exists (c :: pre), x, r. split; [rewrite Heq; reflexivity|]. split; [constructor; assumption|exact Hx].
      * destruct pre as [|y pre].
        -- injection Heq as -> _. destruct (white_not_negative _ Hw Hx).
        -- injection Heq as <- Heq. inversion Hp; subst. exists pre, x, r. split; [reflexivity|]. split; assumption.
    + split; [discriminate|]. intros (Hs & pre & x & r & Heq & Hp & Hx). exfalso. destruct pre as [|y pre].
      * injection Heq as -> _. assert (c_isspace P x = None) by (apply space_odd; split; assumption). congruence.
      * injection Heq as <- _. inversion Hp as [|? ? Hw _]; subst. rewrite white_space in Hw.
        unfold c_isspace in Hc. destruct (ctype_ok P c); [|discriminate]. congruence.
    + split; [|reflexivity]. intros _. apply space_odd in Hc as (Hs & Hn). split; [exact Hs|].
      exists [], c, s. split; [reflexivity|]. split; [constructor|exact Hn].
Qed.

Definition bad (r : gres) : Prop := r = GUB \/ r = GFuel.
Lemma bad_app_l a b : bad a -> bad (g_app a b).
Proof. intros [->| ->]; [left|right]; reflexivity. Qed.
Lemma bad_app_r a b : bad b -> bad (g_app a b).
Proof. destruct a; intros [->| ->]; cbn; unfold bad; auto. Qed.
Lemma bad_map f a : bad a -> bad (g_map f a).
Proof. intros [->| ->]; [left|right]; reflexivity. Qed.
Lemma bad_all f ks k : In k ks -> bad (f k) -> bad (g_all f ks).
Proof.
  induction ks as [|x ks IH]; intros Hin Hb; [destruct Hin|]. cbn [g_all].
  destruct Hin as [->|Hin]; [apply bad_app_l; exact Hb|apply bad_app_r, IH; assumption].
Qed.

Section Completion.
Context (P : platform).
(** What is done with the text after a menu's name. *)
Definition within (n : nat) (ctx : list cmd) (s : str) : gres :=
  match trim_left P s with None => GUB | Some r => menu_completions P n r ctx end.

Lemma completion_step n up line m anc : is_menu m ->
  menu_completion P (S n) up line (m :: anc) =
  if starts_with (cmd_name m) line then g_map (map (fun c => cmd_name m ++ " "%char :: c)) (within n (m :: anc) (skipn (length (cmd_name m)) line))
  else if up && starts_with (lit "..") line then g_map (map (fun c => lit ".." ++ " "%char :: c)) (within n (m :: anc) (skipn (length (lit "..")) line))
  else GOk (name_completion m line).
Proof.
  intros (i & nm & e & d & pr & ks & ->). cbn [menu_completion cmd_name]. unfold within, menu_completions. cbn [cmd_kids].
  destruct (starts_with nm line).
  - destruct (trim_left P (skipn (length nm) line)); reflexivity.
  - destruct (up && starts_with (lit "..") line); [|reflexivity].
    destruct (trim_left P (skipn (length (lit "..")) line)); reflexivity.
Qed.

Lemma starts_app (a b : str) : starts_with a (a ++ b) = true.
Proof. apply starts_prefix. exists b. reflexivity. Qed.
Lemma skipn_self (a b : str) : skipn (length a) (a ++ b) = b.
Proof. rewrite skipn_app, skipn_all, Nat.sub_diag. reflexivity. Qed.

Lemma completions_ub n line ctx : menu_completions P n line ctx = GUB ->
  (exists k m anc, ctx = m :: anc /\ In k (cmd_kids m) /\ is_menu k /\ menu_completion P n false line (k :: ctx) = GUB) \/
  (exists m p anc, ctx = m :: p :: anc /\ menu_completion P n true line (p :: anc) = GUB).
Proof.
  destruct ctx as [|m anc]; cbn [menu_completions]; [discriminate|]. intros H.
  apply g_app_bad in H as [H|H]; [| |left; reflexivity].
  - apply g_all_bad in H as (k & Hk & H); [|left; reflexivity]. apply not_leaf_bad in H as (Hm & H); [|left; reflexivity].
    left. exists k, m, anc. split; [reflexivity|]. split; [exact Hk|]. split; assumption.
  - destruct anc as [|p anc]; [discriminate|]. right. exists m, p, anc. split; [reflexivity|exact H].
Qed.

Lemma within_meets n : forall ctx s, Forall is_menu ctx -> within n ctx s = GUB -> meets P ctx s.
Proof.
  induction n as [|n IH]; intros ctx s Hm H; unfold within in H;
    (destruct (trim_left P s) as [r|] eqn:Hr; [|apply meets_here, trim_odd, Hr]); apply trim_left_spec in Hr; subst r.
  - apply completions_ub in H as [(k & m & anc & _ & _ & _ & H)|(m & p & anc & _ & H)]; discriminate.
  - apply completions_ub in H as [(k & m & anc & -> & Hk & Hmk & H)|(m & p & anc & -> & H)].
    + rewrite completion_step in H by exact Hmk. cbn [andb] in H.
      destruct (starts_with (cmd_name k) (trim s)) eqn:Hs; [|discriminate].
      apply starts_prefix in Hs as (rest & Hs). rewrite Hs, skipn_self in H.
      apply g_map_bad in H; [|left; reflexivity]. eapply meets_inside; [exact Hk|exact Hmk|exact Hs|].
      apply IH; [constructor; assumption|exact H].
    + inversion Hm as [|? ? _ Hm']; subst. assert (Hp : is_menu p) by (inversion Hm'; assumption).
      rewrite completion_step in H by exact Hp. cbn [andb] in H.
      destruct (starts_with (cmd_name p) (trim s)) eqn:Hs.
      * apply starts_prefix in Hs as (rest & Hs). rewrite Hs, skipn_self in H.
        apply g_map_bad in H; [|left; reflexivity]. eapply meets_parent; [exact Hs|]. apply IH; assumption.
      * destruct (starts_with (lit "..") (trim s)) eqn:Hd; [|discriminate].
        apply starts_prefix_false in Hs. apply starts_prefix in Hd as (rest & Hd). rewrite Hd, skipn_self in H.
        apply g_map_bad in H; [|left; reflexivity]. eapply meets_dots; [exact Hs|exact Hd|]. apply IH; assumption.
Qed.

Lemma meets_within ctx s : meets P ctx s -> Forall is_menu ctx -> forall n, bad (within n ctx s).
Proof.
  induction 1 as [ctx line Ho|m anc k line rest Hk Hmk Hs _ IH|m p anc line rest Hs _ IH|m p anc line rest Hn Hs _ IH]; intros Hm n.
  - left. unfold within. apply trim_odd in Ho. rewrite Ho. reflexivity.
  - unfold within. destruct (trim_left P line) as [r|] eqn:Hr; [|left; reflexivity]. apply trim_left_spec in Hr. subst r.
    cbn [menu_completions]. apply bad_app_l. apply (bad_all _ _ k Hk).
    destruct Hmk as (i & nm & e & d & pr & ks & ->). destruct n as [|n]; [right; reflexivity|].
    rewrite completion_step by (repeat eexists). rewrite Hs, starts_app, skipn_self. apply bad_map, IH.
    constructor; [repeat eexists|exact Hm].
  - unfold within. destruct (trim_left P line) as [r|] eqn:Hr; [|left; reflexivity]. apply trim_left_spec in Hr. subst r.
    cbn [menu_completions]. apply bad_app_r. destruct n as [|n]; [right; reflexivity|].
    inversion Hm as [|? ? _ Hm']; subst. assert (Hp : is_menu p) by (inversion Hm'; assumption).
    rewrite completion_step by exact Hp. rewrite Hs, starts_app, skipn_self. apply bad_map, IH. exact Hm'.
  - unfold within. destruct (trim_left P line) as [r|] eqn:Hr; [|left; reflexivity]. apply trim_left_spec in Hr. subst r.
    cbn [menu_completions]. apply bad_app_r. destruct n as [|n]; [right; reflexivity|].
    inversion Hm as [|? ? _ Hm']; subst. assert (Hp : is_menu p) by (inversion Hm'; assumption).
    rewrite completion_step by exact Hp. apply starts_prefix_false in Hn. rewrite Hn. cbn [andb].
    rewrite Hs, starts_app, skipn_self. apply bad_map, IH. exact Hm'.
Qed.

Lemma tab_undefined fuel line w : unique_ids (w_root w) -> get_completions P fuel line w <> GFuel ->
  (get_completions P fuel line w = GUB <-> ~ live w \/ exists ctx, in_menu w ctx /\ meets P ctx line).
Proof.
  intros Hu Hf.
  destruct (locate (w_cur w) [] (w_root w)) as [ctx|] eqn:Hl.
  - assert (Hin := locate_in_menu w ctx Hl). assert (Hm : Forall is_menu ctx) by (apply (chain_menus (w_root w)), Hin).
    assert (Heq : get_completions P fuel line w = match within fuel ctx line with GOk l =>
        match menu_completions P fuel (trim line) [global_menu] with GOk g => GOk (unique (sort (g ++ l))) | r => r end | r => r end).
    { unfold get_completions, within. destruct (trim_left P line) as [r|] eqn:Hr; [|reflexivity]. apply trim_left_spec in Hr. subst r.
      rewrite Hl. destruct (menu_completions_global P fuel (trim line)) as (g & ->).
      destruct (menu_completions P fuel (trim line) ctx); reflexivity. }
    split.
    + intros H. right. exists ctx. split; [exact Hin|]. apply (within_meets fuel); [exact Hm|]. rewrite Heq in H.
      destruct (within fuel ctx line); [|reflexivity|discriminate].
      destruct (menu_completions_global P fuel (trim line)) as (g & Hg). rewrite Hg in H. discriminate.
    + intros [H|(ctx' & Hin' & H)]; [exfalso; apply H; exists ctx; exact Hin|].
      rewrite (in_menu_unique w ctx' ctx Hu Hin' Hin) in H.
      destruct (meets_within ctx line H Hm fuel) as [Hb|Hb]; rewrite Heq, Hb in *; [reflexivity|congruence].
  - split; [intros _; left; intros (ctx & Hin); apply in_menu_locate in Hin; [congruence|exact Hu]|]. intros _.
    unfold get_completions. destruct (trim_left P line) as [r|]; [|reflexivity]. rewrite Hl.
    destruct (menu_completions_global P fuel r) as (g & ->). reflexivity.
Qed.
End Completion.

(** ** Keys *)
Lemma prompt_undefined tty color p : unique_ids (w_root (p_world p)) ->
  (p_prompt tty color p = PUB <-> w_exit (p_world p) = false /\ ~ live (p_world p)).
Proof.
  intros Hu. unfold p_prompt, prompt, prompt_text. destruct (w_exit (p_world p)); [split; [discriminate|intros (? & _); discriminate]|].
  destruct (locate (w_cur (p_world p)) [] (w_root (p_world p))) as [ctx|] eqn:Hl.
  - assert (Hin := locate_in_menu _ ctx Hl). split; [|intros (_ & Hn); exfalso; apply Hn; exists ctx; exact Hin].
    destruct Hin as (Hc & m & anc & -> & _). apply chain_menus in Hc as (Hc & _). inversion Hc as [|? ? (? & ? & ? & ? & ? & ? & ->) _]; subst.
    destruct (before_prompt color (tm_force (p_term p))). discriminate.
  - split; [intros _|reflexivity]. split; [reflexivity|]. intros (ctx & Hin). apply in_menu_locate in Hin; [congruence|exact Hu].
Qed.

Section Keys.
Context (E : env) (size : nat) (Hsz : size >= 1).

Lemma reprint_undefined tty color line p : unique_ids (w_root (p_world p)) ->
  (p_bind (p_prompt tty color p) (fun p1 => POk (p_set_line tty color line (p_reset_cursor p1))) = PUB <->
   w_exit (p_world p) = false /\ ~ live (p_world p)).
Proof.
  intros Hu. rewrite <- (prompt_undefined tty color p Hu). destruct (p_prompt tty color p); cbn [p_bind]; split; (reflexivity || discriminate).
Qed.

Lemma get_line_eq t e : holds t e -> get_line t = ed_text e.
Proof. intros (H & _). exact H. Qed.

Lemma tab_symbol c text : key_symbol (KAscii c) text = if Ascii.eqb c "009" then SyTab else SyNothing.
Proof. reflexivity. Qed.

Lemma live_out b w : live (out b w) <-> live w.
Proof. split; intros (ctx & H); exists ctx; exact H. Qed.

Lemma press_undefined fuel tty k p e : holds (p_term p) e -> reachable size (w_hist (p_world p)) -> sound (p_world p) ->
  press E fuel tty k p <> PFuel ->
  (press E fuel tty k p = PUB <-> undefined_key E fuel (ks_key k) (ed_text e) (p_world p)).
Proof.
  intros He Hr Hsd Hf. unfold press in *.
  destruct (keypressed_spec tty (ks_color k) (ks_key k) (p_term p) e He) as (t & Hkp & Ht & _). rewrite Hkp in *. clear Hkp.
  destruct (reachable_inv size _ Hsz Hr) as (HI & HM). assert (Hu := proj1 Hsd).
  assert (Hno : ks_key k <> KRet -> ks_key k <> KAscii "009" -> ks_key k <> KClear ->
    ~ undefined_key E fuel (ks_key k) (ed_text e) (p_world p)).
  { intros H1 H2 H3 [(H & _)|[(H & _)|(H & _)]]; congruence. }
  assert (Hfalse : forall (A : pres), A <> PUB -> ks_key k <> KRet -> ks_key k <> KAscii "009" -> ks_key k <> KClear ->
    (A = PUB <-> undefined_key E fuel (ks_key k) (ed_text e) (p_world p))).
  { intros A H1 H2 H3 H4. split; intros H; [contradiction|]. destruct (Hno H2 H3 H4 H). }
  destruct (ks_key k) as [c| | | | | | | | | | | |] eqn:Hk;
    try (apply Hfalse; [cbn [key_symbol process]; discriminate|discriminate|discriminate|discriminate]).
  - rewrite tab_symbol in *. destruct (Ascii.eqb_spec c "009") as [->|Hc].
    + cbn [process p_out p_world p_term] in *. rewrite (get_line_eq t _ Ht) in *.
      replace (ed_text (ed_key (KAscii "009") e)) with (ed_text e) in * by reflexivity.
      set (w0 := out _ (p_world p)) in *.
      assert (Hu0 : unique_ids (w_root w0)) by exact Hu.
      assert (Hg : get_completions (e_plat E) fuel (ed_text e) w0 <> GFuel) by (intros Hg; rewrite Hg in Hf; congruence).
      pose proof (tab_undefined (e_plat E) fuel (ed_text e) w0 Hu0 Hg) as HT.
      assert (HT' : get_completions (e_plat E) fuel (ed_text e) w0 = GUB <-> undefined_key E fuel (KAscii "009") (ed_text e) (p_world p)).
      { rewrite HT. unfold undefined_key. split.
        - intros H. right. left. split; [reflexivity|exact H].
        - intros [(H & _)|[(_ & H)|(H & _)]]; try discriminate. exact H. }
      rewrite <- HT'. clear HT'.
      destruct (get_completions (e_plat E) fuel (ed_text e) w0) as [l| |] eqn:Hl; [|tauto|congruence].
      split; [|discriminate]. intros H. exfalso.
      assert (Hlive : ~ ~ live w0) by (intros Hn; assert (@GOk l = GUB) by (apply HT; left; exact Hn); discriminate).
      destruct l as [|x [|y l]]; try discriminate.
      destruct (common_prefix_spec (x :: y :: l)) as (pre & Hpre & _); [discriminate|]. rewrite Hpre in H.
      destruct (Nat.ltb (length (ed_text e)) (length pre)); [discriminate|].
      apply reprint_undefined in H; [|exact Hu]. destruct H as (_ & H). apply Hlive. exact H.
    + apply Hfalse; try discriminate. intros H. injection H as ->. congruence.
  - apply Hfalse; try discriminate. cbn [key_symbol process p_out p_world p_term]. unfold previous_cmd.
    destruct (previous_inv _ (get_line t) HI ltac:(lia)) as (h' & s & Hp & _).
    change (w_hist (out (key_out tty (ks_color k) (tm_force (p_term p)) KUp e) (p_world p))) with (w_hist (p_world p)).
    rewrite Hp. discriminate.
  - apply Hfalse; try discriminate. cbn [key_symbol process p_out p_world]. unfold next_cmd.
    destruct (next_inv _ HI) as (h' & s & Hp & _).
    change (w_hist (out (key_out tty (ks_color k) (tm_force (p_term p)) KDown e) (p_world p))) with (w_hist (p_world p)).
    rewrite Hp. discriminate.
  - (* Return *)
    cbn [key_symbol process p_out p_log p_world p_term key_out] in *.
    change (log (EvInput (w_sid (out ["013"%char; "010"%char] (p_world p))) false) (out ["013"%char; "010"%char] (p_world p)))
      with (handed (p_world p)) in *.
    pose proof (sound_feed E fuel (ed_text e) (handed (p_world p)) Hsd) as Hs'.
    destruct (feed E fuel (ed_text e) (handed (p_world p))) as [w'|x w'| |] eqn:Hfd; cbn [of_fres p_bind f_inv] in *.
    + pose proof (prompt_undefined tty (ks_color' k) (mkProc w' t) (proj1 Hs')) as HP. cbn [p_world] in HP.
      assert (HX : undefined_key E fuel KRet (ed_text e) (p_world p) <-> w_exit w' = false /\ ~ live w').
      { unfold undefined_key. rewrite Hfd. split.
        - intros [(_ & [H|(w2 & H & H2)])|[(H & _)|(H & _)]]; try discriminate. injection H as <-. exact H2.
        - intros H. left. split; [reflexivity|]. right. exists w'. split; [reflexivity|exact H]. }
      rewrite HX, <- HP. destruct (p_prompt tty (ks_color' k) (mkProc w' t)); cbn [p_bind]; split; intros H; (discriminate H || exact H).
    + split; [intros H; discriminate H|]. unfold undefined_key. rewrite Hfd.
      intros [(_ & [H|(w2 & H & _)])|[(H & _)|(H & _)]]; discriminate H.
    + split; [|reflexivity]. intros _. left. split; [reflexivity|]. left. exact Hfd.
    + congruence.
  - apply Hfalse; try discriminate. cbn [key_symbol process p_out p_world p_term].
    destruct (exit_cases E size (out (key_out tty (ks_color k) (tm_force (p_term p)) KEof e) (p_world p)) Hsz Hr)
      as [(_ & ->)|[(w1 & x & _ & ->)|[(w1 & w2 & x & _ & _ & ->)|(w1 & w2 & _ & _ & ->)]]]; discriminate.
  - cbn [key_symbol process p_out p_world p_term]. rewrite reprint_undefined by exact Hu. cbn [p_world].
    unfold undefined_key. split.
    + intros H. right. right. split; [reflexivity|exact H].
    + intros [(H & _)|[(H & _)|(_ & H)]]; try discriminate. exact H.
Qed.

(** *** What stays; with [rooted], also that the root is a menu *)
Context (rooted : Prop).
Definition kept (w : world) : Prop := reachable size (w_hist w) /\ sound w /\ (rooted -> is_menu (w_root w)).
Lemma kept_op w o : kept w -> kept (apply_op w o).
Proof.
  intros (H1 & H2 & H3). split; [destruct (apply_op_same w o) as (_ & _ & _ & -> & _); exact H1|]. split; [apply sound_op; exact H2|].
  intros Hr. specialize (H3 Hr). destruct H3 as (i & n & e & d & pr & ks & H3).
  destruct o; try destruct (relabel (w_next w) c) as (c' & n') eqn:Hc; cbn; try rewrite Hc; cbn; rewrite H3; cbn; repeat eexists.
Qed.
Lemma kept_feed fuel line w : kept w -> f_inv kept (feed E fuel line w).
Proof.
  apply (feed_inv E kept (fun _ => True)); auto; try (intros; assumption).
  - apply code_ops_all.
  - intros. apply kept_op. assumption.
  - intros l h w0 (H1 & H2) _ Hn. split; [|exact H2]. apply (reachable_step size _ (ONew l) h H1). exact Hn.
  - intros l h1 h2 w0 (H1 & H2) Hn Hf. split; [|exact H2]. apply (reachable_step size _ (OBang l) h2 H1). cbn [hstep]. rewrite Hn. exact Hf.
Qed.
Lemma kept_exit w : kept w -> h_inv kept (session_exit E w).
Proof.
  apply (exit_inv E kept (fun _ => True)); try (intros; assumption).
  - apply code_ops_all.
  - intros. apply kept_op. assumption.
Qed.
Lemma kept_prompt tty color p p' : p_prompt tty color p = POk p' -> kept (p_world p) -> kept (p_world p').
Proof.
  unfold p_prompt. destruct (prompt tty color (tm_force (p_term p)) (p_world p)) as [(b & f)|]; [|discriminate].
  intros H. injection H as <-. intros H. exact H.
Qed.
Lemma prompt_not_exc tty color p x p' : p_prompt tty color p <> PExc x p'.
Proof. unfold p_prompt. destruct (prompt tty color (tm_force (p_term p)) (p_world p)) as [(b & f)|]; discriminate. Qed.
Lemma kept_set_line tty color s p : kept (p_world p) -> kept (p_world (p_set_line tty color s p)).
Proof. intros H. unfold p_set_line. destruct (set_line tty color s (p_term p)) as (b & t). exact H. Qed.
Lemma kept_process fuel tty color sy p : kept (p_world p) ->
  match process E fuel tty color sy p with POk p' | PExc _ p' => kept (p_world p') | _ => True end.
Proof.
  intros H. destruct sy as [|cmd| | | | |]; cbn [process].
  - exact H.
  - pose proof (kept_feed fuel cmd (p_world (p_log (EvInput (w_sid (p_world p)) false) p)) H) as Hf.
    destruct (feed E fuel cmd (p_world (p_log (EvInput (w_sid (p_world p)) false) p))) as [w'|x w'| |]; cbn [of_fres p_bind f_inv] in *; try exact Logic.I; try exact Hf.
    destruct (p_prompt tty color (mkProc w' (p_term (p_log (EvInput (w_sid (p_world p)) false) p)))) as [p3|x p3| |] eqn:Hp; cbn [p_bind]; try exact Logic.I; try (destruct (prompt_not_exc _ _ _ _ _ Hp)).
    exact (kept_prompt _ _ _ _ Hp Hf).
  - unfold previous_cmd. destruct (previous (w_hist (p_world p)) (get_line (p_term p))) as [(s & h)|] eqn:Hp; [|exact Logic.I].
    apply kept_set_line. destruct H as (H1 & H2). split; [|exact H2].
    apply (reachable_step size _ (OUp (get_line (p_term p))) h H1). cbn [hstep]. rewrite Hp. reflexivity.
  - unfold next_cmd. destruct (next (w_hist (p_world p))) as [(s & h)|] eqn:Hp; [|exact Logic.I].
    apply kept_set_line. destruct H as (H1 & H2). split; [|exact H2].
    apply (reachable_step size _ ODown h H1). cbn [hstep]. rewrite Hp. reflexivity.
  - destruct (get_completions (e_plat E) fuel (get_line (p_term p)) (p_world p)) as [[|x [|y l]]| |]; try exact Logic.I; try exact H.
    + apply kept_set_line. exact H.
    + destruct (common_prefix (x :: y :: l)) as [pre|]; [|exact Logic.I].
      destruct (Nat.ltb (length (get_line (p_term p))) (length pre)); [apply kept_set_line; exact H|].
      destruct (p_prompt tty color (p_out (nl ++ flat_map (fun c => tab ++ c) (x :: y :: l) ++ nl) p)) as [p3|x3 p3| |] eqn:Hp; cbn [p_bind]; try exact Logic.I; try (destruct (prompt_not_exc _ _ _ _ _ Hp)).
      apply kept_set_line. exact (kept_prompt _ _ _ _ Hp H).
  - pose proof (kept_exit (p_world p) H) as Hf. destruct (session_exit E (p_world p)); cbn [of_hres h_inv] in *; try exact Logic.I; exact Hf.
  - destruct (p_prompt tty color (p_out clear_screen p)) as [p3|x3 p3| |] eqn:Hp; cbn [p_bind]; try exact Logic.I; try (destruct (prompt_not_exc _ _ _ _ _ Hp)).
    apply kept_set_line. exact (kept_prompt _ _ _ _ Hp H).
Qed.
Lemma kept_press fuel tty k p : kept (p_world p) -> match press E fuel tty k p with POk p' | PExc _ p' => kept (p_world p') | _ => True end.
Proof.
  intros H. unfold press. destruct (keypressed tty (ks_color k) (ks_key k) (p_term p)) as [((b & sy) & t)|]; [|exact Logic.I].
  apply kept_process. exact H.
Qed.

Lemma presses_undefined fuel tty ks : forall p, (exists e, holds (p_term p) e) -> kept (p_world p) ->
  presses E fuel tty ks p <> PFuel ->
  (presses E fuel tty ks p = PUB <->
   exists ks1 k ks2 p' e, ks = ks1 ++ k :: ks2 /\ presses E fuel tty ks1 p = POk p' /\ holds (p_term p') e /\
     undefined_key E fuel (ks_key k) (ed_text e) (p_world p')).
Proof.
  induction ks as [|k ks IH]; intros p (e & He) Hk Hf.
  - cbn [presses]. split; [discriminate|]. intros (ks1 & k & ks2 & p' & e' & H & _). destruct ks1; discriminate.
  - cbn [presses] in *.
    assert (Hf1 : press E fuel tty k p <> PFuel) by (intros H; rewrite H in Hf; apply Hf; reflexivity).
    pose proof (press_undefined fuel tty k p e He (proj1 Hk) (proj1 (proj2 Hk)) Hf1) as HU.
    pose proof (press_holds E fuel tty k p (ex_intro _ e He)) as Hh. pose proof (kept_press fuel tty k p Hk) as Hkp.
    assert (Huniq : forall e', holds (p_term p) e' -> ed_text e' = ed_text e) by (intros e' (H1 & _); rewrite <- H1; apply He).
    assert (Hpart : (exists ks1 k0 ks2 p' e', k :: ks = ks1 ++ k0 :: ks2 /\ presses E fuel tty ks1 p = POk p' /\ holds (p_term p') e' /\
       undefined_key E fuel (ks_key k0) (ed_text e') (p_world p')) <->
       undefined_key E fuel (ks_key k) (ed_text e) (p_world p) \/
       exists p1, press E fuel tty k p = POk p1 /\ exists ks1 k0 ks2 p' e', ks = ks1 ++ k0 :: ks2 /\ presses E fuel tty ks1 p1 = POk p' /\ holds (p_term p') e' /\
       undefined_key E fuel (ks_key k0) (ed_text e') (p_world p')).
    { split.
      - intros (ks1 & k0 & ks2 & p' & e' & H1 & H2 & H3 & H4). destruct ks1 as [|k1 ks1].
        + injection H1 as <- _. injection H2 as <-. left. rewrite <- (Huniq e' H3). exact H4.
        + injection H1 as <- H1. cbn [presses] in H2. right.
          destruct (press E fuel tty k p) as [p1|x p1| |]; cbn [p_bind] in H2; try discriminate.
          exists p1. split; [reflexivity|]. exists ks1, k0, ks2, p', e'. split; [exact H1|]. split; [exact H2|]. split; assumption.
      - intros [H|(p1 & Hp1 & ks1 & k0 & ks2 & p' & e' & H1 & H2 & H3 & H4)].
        + exists [], k, ks, p, e. split; [reflexivity|]. split; [reflexivity|]. split; assumption.
        + exists (k :: ks1), k0, ks2, p', e'. split; [rewrite H1; reflexivity|]. cbn [presses]. rewrite Hp1. cbn [p_bind].
          split; [exact H2|]. split; assumption. }
    rewrite Hpart. destruct (press E fuel tty k p) as [p1|x p1| |] eqn:Hp; cbn [p_bind] in *.
    + rewrite (IH p1 Hh Hkp Hf). split.
      * intros H. right. exists p1. split; [reflexivity|exact H].
      * intros [H|(p2 & H & H2)]; [apply HU in H; discriminate|]. injection H as <-. exact H2.
    + split; [discriminate|]. intros [H|(p2 & H & _)]; [apply HU in H; discriminate|discriminate].
    + split; [|reflexivity]. intros _. left. apply HU. reflexivity.
    + congruence.
Qed.
End Keys.

(** Only negative characters, where char is signed, are met. *)
Lemma meets_signed P ctx s : meets P ctx s -> char_signed P = true /\ Exists negative_byte s.
Proof.
  assert (Htrim : forall line, Exists negative_byte (trim line) -> Exists negative_byte line).
  { induction line as [|c line IH]; intros H; [exact H|]. cbn [trim] in H. destruct (CompletionSpec.white c); [apply Exists_cons_tl, IH, H|exact H]. }
  induction 1 as [ctx line (Hs & pre & c & r & -> & _ & Hc)|m anc k line rest _ _ Hs _ IH|m p anc line rest Hs _ IH|m p anc line rest _ Hs _ IH].
  - split; [exact Hs|]. apply Exists_app. right. apply Exists_cons_hd. exact Hc.
  - destruct IH as (H1 & H2). split; [exact H1|]. apply Htrim. rewrite Hs. apply Exists_app. right. exact H2.
  - destruct IH as (H1 & H2). split; [exact H1|]. apply Htrim. rewrite Hs. apply Exists_app. right. exact H2.
  - destruct IH as (H1 & H2). split; [exact H1|]. apply Htrim. rewrite Hs. apply Exists_app. right. exact H2.
Qed.
