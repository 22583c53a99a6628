(** * Proofs about completion *)

From Coq Require Import Sorted.
From Verif Require Import Base FromStringModel SplitModel SplitSpec SplitProofs PrefixSpec MenuModel SessionModel ResolveSpec SessionSpec TreeProofs CompletionModel CompletionSpec.
Open Scope nat_scope.
Open Scope list_scope.

(** ** Sorting *)
Lemma lex_cons x a b : lex_lt a b -> lex_lt (x :: a) (x :: b).
Proof.
  intros [(c & r & ->)|(p & y & z & r & s & -> & -> & H)].
  - left. exists c, r. reflexivity.
  - right. exists (x :: p), y, z, r, s. auto.
Qed.
Lemma str_ltb_lex a : forall b, str_ltb a b = true -> lex_lt a b.
Proof.
  induction a as [|x a IH]; intros [|y b] H; cbn in H; try discriminate.
  - left. exists y, b. reflexivity.
  - destruct (N.ltb_spec (N_of_ascii x) (N_of_ascii y)) as [Hl|Hl].
    + right. exists [], x, y, a, b. auto.
    + destruct (N.ltb_spec (N_of_ascii y) (N_of_ascii x)) as [Hg|Hg]; [discriminate|].
      assert (Hx : x = y) by (rewrite <- (ascii_N_embedding x), <- (ascii_N_embedding y); f_equal; lia).
      subst y. apply lex_cons, IH, H.
Qed.
Lemma str_ltb_total a : forall b, str_ltb a b = false -> a = b \/ lex_lt b a.
Proof.
  induction a as [|x a IH]; intros [|y b] H; cbn in H; try discriminate; auto.
  - right. left. exists x, a. reflexivity.
  - destruct (N.ltb_spec (N_of_ascii x) (N_of_ascii y)) as [Hl|Hl]; [discriminate|].
    destruct (N.ltb_spec (N_of_ascii y) (N_of_ascii x)) as [Hg|Hg].
    + right. right. exists [], y, x, b, a. auto.
    + assert (Hx : x = y) by (rewrite <- (ascii_N_embedding x), <- (ascii_N_embedding y); f_equal; lia).
      subst y. destruct (IH b H) as [->|Hr]; [left; reflexivity|]. right. apply lex_cons, Hr.
Qed.

Lemma lex_inv x a y b : lex_lt (x :: a) (y :: b) -> (N_of_ascii x < N_of_ascii y)%N \/ (x = y /\ lex_lt a b).
Proof.
  intros [(c & r & H)|(p & u & v & r & s & Ha & Hb & H)].
  - injection H as -> ->. right. split; [reflexivity|]. left. exists c, r. reflexivity.
  - destruct p as [|z p]; cbn in *; injection Ha as -> ->; injection Hb as -> ->.
    + left. exact H.
    + right. split; [reflexivity|]. right. exists p, u, v, r, s. auto.
Qed.
Lemma lex_nil_r a : ~ lex_lt a [].
Proof.
  intros [(c & r & H)|(p & u & v & r & s & _ & H & _)]; [destruct a; discriminate|destruct p; discriminate].
Qed.
Lemma lex_trans a : forall b c, lex_lt a b -> lex_lt b c -> lex_lt a c.
Proof.
  induction a as [|x a IH]; intros b c Hab Hbc.
  - destruct c as [|z c]; [destruct (lex_nil_r _ Hbc)|]. left. exists z, c. reflexivity.
  - destruct b as [|y b]; [destruct (lex_nil_r _ Hab)|]. destruct c as [|z c]; [destruct (lex_nil_r _ Hbc)|].
    apply lex_inv in Hab. apply lex_inv in Hbc.
    destruct Hab as [Hab|(-> & Hab)], Hbc as [Hbc|(-> & Hbc)].
    1-3: right; eexists [], _, _, _, _; split; [reflexivity|split; [reflexivity|lia]].
    apply lex_cons. eapply IH; eassumption.
Qed.
Lemma lex_irrefl a : ~ lex_lt a a.
Proof.
  induction a as [|x a IH]; [apply lex_nil_r|]. intros H. apply lex_inv in H as [H|(_ & H)]; [lia|auto].
Qed.

Definition lex_le (a b : str) : Prop := a = b \/ lex_lt a b.
Lemma lex_le_trans a b c : lex_le a b -> lex_le b c -> lex_le a c.
Proof. intros [->|H] [->|H']; unfold lex_le; eauto using lex_trans. Qed.

Lemma insert_in x l y : In y (insert_sorted x l) <-> y = x \/ In y l.
Proof.
  induction l as [|z l IH]; cbn; [intuition|]. destruct (str_ltb z x); cbn [In]; [rewrite IH|]; intuition.
Qed.
Lemma sort_in l y : In y (sort l) <-> In y l.
Proof.
  induction l as [|x l IH]; cbn; [tauto|]. rewrite insert_in, IH. intuition.
Qed.
Lemma insert_sorted_le x l : StronglySorted lex_le l -> StronglySorted lex_le (insert_sorted x l).
Proof.
  induction l as [|y l IH]; intros H; cbn; [constructor; constructor|].
  inversion H as [|? ? Hl Hy]; subst. destruct (str_ltb y x) eqn:E.
  - constructor; [apply IH; exact Hl|]. rewrite Forall_forall in *. intros z Hz. apply insert_in in Hz as [->|Hz].
    + right. apply str_ltb_lex, E.
    + apply Hy, Hz.
  - constructor; [exact H|]. apply str_ltb_total in E.
    assert (Hxy : lex_le x y) by (destruct E as [->|E]; [left; reflexivity|right; exact E]).
    constructor; [exact Hxy|]. rewrite Forall_forall in *. intros z Hz. eapply lex_le_trans; [exact Hxy|]. apply Hy, Hz.
Qed.
Lemma sort_le l : StronglySorted lex_le (sort l).
Proof. induction l as [|x l IH]; cbn; [constructor|]. apply insert_sorted_le, IH. Qed.

Lemma unique_in l y : In y (unique l) <-> In y l.
Proof.
  induction l as [|x l IH]; [reflexivity|]. destruct l as [|z l]; [reflexivity|].
  cbn [unique]. destruct (str_eqb_spec x z) as [->|Hn].
  - rewrite IH. cbn [In]. intuition.
  - cbn [In] in *. rewrite IH. reflexivity.
Qed.
Lemma unique_increasing l : StronglySorted lex_le l -> increasing (unique l).
Proof.
  induction l as [|x l IH]; intros H; [constructor|]. destruct l as [|z l]; [repeat constructor|].
  inversion H as [|? ? Hl Hx]; subst. cbn [unique]. destruct (str_eqb_spec x z) as [->|Hn]; [apply IH, Hl|].
  constructor; [apply IH, Hl|]. rewrite Forall_forall in *. intros y Hy. rewrite (unique_in (z :: l) y) in Hy.
  assert (Hxz : lex_lt x z) by (destruct (Hx z (or_introl eq_refl)) as [->|?]; [congruence|assumption]).
  destruct Hy as [<-|Hy]; [exact Hxz|].
  inversion Hl as [|? ? _ Hz]; subst. rewrite Forall_forall in Hz.
  destruct (Hz y Hy) as [->|H']; [exact Hxz|eapply lex_trans; eassumption].
Qed.

Lemma completions_sorted P fuel line w l : get_completions P fuel line w = GOk l -> increasing l.
Proof.
  unfold get_completions. destruct (trim_left P line); [|discriminate].
  destruct (g_app _ _) as [v| |]; cbn; try discriminate.
  intros H. injection H as <-. apply unique_increasing, sort_le.
Qed.

Lemma increasing_nodup l : increasing l -> NoDup l.
Proof.
  induction 1 as [|x l Hl IH Hx]; constructor; [|exact IH].
  intros Hin. rewrite Forall_forall in Hx. exact (lex_irrefl x (Hx x Hin)).
Qed.

(** ** Trimming *)
Local Arguments white : simpl never.
Lemma white_space c : white c = space_code c.
Proof.
  destruct c as [a b c d e f g h]; destruct a, b, c, d, e, f, g, h; reflexivity.
Qed.
Lemma trim_left_spec P s r : trim_left P s = Some r -> r = trim s.
Proof.
  induction s as [|c s IH]; cbn; [congruence|]. unfold c_isspace. destruct (ctype_ok P c); [|discriminate].
  rewrite white_space. destruct (space_code c); [exact IH|congruence].
Qed.

(** The ctype functions accept the characters of the line. *)
Definition ctype_line (P : platform) (s : str) : Prop := Forall (fun c => ctype_ok P c = true) s.
Lemma trim_left_some P s : ctype_line P s -> trim_left P s = Some (trim s).
Proof.
  induction 1 as [|c s Hc _ IH]; cbn; [reflexivity|]. unfold c_isspace. rewrite Hc, white_space.
  destruct (space_code c); [exact IH|reflexivity].
Qed.
Lemma trim_suffix s : exists p, s = p ++ trim s.
Proof.
  induction s as [|c s (p & IH)]; cbn; [exists []; reflexivity|].
  destruct (white c); [exists (c :: p); cbn; congruence|exists []; reflexivity].
Qed.
Lemma trim_length s : length (trim s) <= length s.
Proof. destruct (trim_suffix s) as (p & H). rewrite H at 2. rewrite app_length. lia. Qed.
Lemma trim_ctype P s : ctype_line P s -> ctype_line P (trim s).
Proof.
  destruct (trim_suffix s) as (p & H). unfold ctype_line. rewrite H at 1. rewrite Forall_app. tauto.
Qed.
Lemma trim_idem s : trim (trim s) = trim s.
Proof.
  induction s as [|c s IH]; cbn; [reflexivity|]. destruct (white c) eqn:E; [exact IH|]. cbn. rewrite E. reflexivity.
Qed.
Lemma legible_ctype E s : legible E s -> ctype_line (e_plat E) s.
Proof.
  unfold legible, ctype_line, ctype_ok. intros [->|H].
  - apply Forall_forall. intros; reflexivity.
  - eapply Forall_impl; [|exact H]. cbn. intros c Hc. unfold code.
    apply orb_true_iff. left. apply orb_true_iff. right. apply Z.ltb_lt. lia.
Qed.

(** ** The completions of a menu *)
Definition enters (up : bool) (ctx : list cmd) (line c : str) : Prop :=
  match ctx with
  | [] => False
  | m :: anc =>
      (exists rest c', line = cmd_name m ++ rest /\ offers ctx (trim rest) c' /\ c = cmd_name m ++ lit " " ++ c') \/
      (up = true /\ ~ is_prefix (cmd_name m) line /\
       exists rest c', line = lit ".." ++ rest /\ offers ctx (trim rest) c' /\ c = lit ".." ++ lit " " ++ c') \/
      (~ is_prefix (cmd_name m) line /\ (up = true -> ~ is_prefix (lit "..") line) /\
       cmd_en m = true /\ is_prefix line (cmd_name m) /\ c = cmd_name m)
  end.

Lemma starts_prefix p s : starts_with p s = true <-> is_prefix p s.
Proof. apply starts_with_spec. Qed.
Lemma starts_prefix_false p s : starts_with p s = false <-> ~ is_prefix p s.
Proof. rewrite <- starts_prefix. destruct (starts_with p s); split; congruence. Qed.
Lemma prefix_antisym a b : is_prefix a b -> is_prefix b a -> a = b.
Proof.
  intros (r & ->) (s & H). rewrite <- (app_nil_r a) in H at 1. rewrite <- app_assoc in H.
  apply app_inv_head in H. symmetry in H. apply app_eq_nil in H as (-> & ->). rewrite app_nil_r. reflexivity.
Qed.
Lemma name_completion_in k line c :
  In c (name_completion k line) <-> cmd_en k = true /\ is_prefix line (cmd_name k) /\ c = cmd_name k.
Proof.
  unfold name_completion. destruct (cmd_en k); cbn; [|intuition congruence].
  destruct (starts_with line (cmd_name k)) eqn:E; cbn.
  - rewrite starts_prefix in E. intuition.
  - rewrite starts_prefix_false in E. intuition.
Qed.

Lemma g_app_ok a b l : g_app a b = GOk l -> exists x y, a = GOk x /\ b = GOk y /\ l = x ++ y.
Proof. destruct a, b; cbn; try discriminate. intros H. injection H as <-. eauto. Qed.
Lemma g_map_ok f r l : g_map f r = GOk l -> exists x, r = GOk x /\ l = f x.
Proof. destruct r; cbn; try discriminate. intros H. injection H as <-. eauto. Qed.
Lemma g_all_ok f ks l : g_all f ks = GOk l ->
  (forall k, In k ks -> exists x, f k = GOk x) /\
  forall c, In c l <-> exists k x, In k ks /\ f k = GOk x /\ In c x.
Proof.
  revert l. induction ks as [|k ks IH]; cbn; intros l H.
  - injection H as <-. split; [intros ? []|]. cbn. intros c. split; [intros []|intros (? & ? & [] & _)].
  - apply g_app_ok in H as (x & y & Hx & Hy & ->). destruct (IH y Hy) as (H1 & H2). split.
    + intros k' [<-|Hk]; eauto.
    + intros c. rewrite in_app_iff, H2. split.
      * intros [Hc|(k' & x' & Hin & Hf & Hc)]; [exists k, x; auto|exists k', x'; auto].
      * intros (k' & x' & [<-|Hin] & Hf & Hc); [left; congruence|right; eauto].
Qed.

(** The commands of a menu and its parent. *)
Lemma offers_kids m anc line c :
  offers (m :: anc) line c <->
  (exists k, In k (cmd_kids m) /\
     ((is_menu k /\ enters false (k :: m :: anc) line c) \/
      (~ is_menu k /\ cmd_en k = true /\ is_prefix line (cmd_name k) /\ c = cmd_name k))) \/
  (anc <> [] /\ enters true anc line c).
Proof.
  split.
  - intros H. inversion H as [m' anc' k line' Hk He Hp Hm|m' anc' k line' rest c' Hk Hm Hl Ho|m' p anc' line' He Hp Hl Hd
      |m' p anc' line' rest c' Hl Ho|m' p anc' line' rest c' Hp Hl Ho]; subst.
    + left. exists k. split; [exact Hk|].
      destruct k as [i n e d ps pd h|i n e d pd h|i n e d p ks].
      1,2: right; split; [intros (? & ? & ? & ? & ? & ? & ?); discriminate|auto].
      left. split; [repeat eexists|]. right. right.
      split; [|split; [discriminate|auto]].
      intros Hp'. apply Hm. split; [repeat eexists|]. apply prefix_antisym; assumption.
    + left. exists k. split; [exact Hk|]. left. split; [exact Hm|]. left. eauto.
    + right. split; [discriminate|]. right. right. split; [|auto].
      intros Hp'. apply Hl. apply prefix_antisym; assumption.
    + right. split; [discriminate|]. left. eauto.
    + right. split; [discriminate|]. right. left. split; [reflexivity|]. split; [exact Hp|]. eauto.
  - intros [(k & Hk & [(Hm & [H|[(Hu & _)|H]])|(Hm & He & Hp & ->)])|(Ha & H)].
    + destruct H as (rest & c' & Hl & Ho & ->). eapply of_inside; eassumption.
    + discriminate.
    + destruct H as (Hp & _ & He & Hp' & ->). apply of_name; auto. intros (_ & ->). apply Hp. exists []. rewrite app_nil_r. reflexivity.
    + apply of_name; auto. tauto.
    + destruct anc as [|p anc]; [congruence|]. destruct H as [H|[H|H]].
      * destruct H as (rest & c' & Hl & Ho & ->). eapply of_parent; eassumption.
      * destruct H as (_ & Hp & rest & c' & Hl & Ho & ->). eapply of_dots; eassumption.
      * destruct H as (Hp & Hd & He & Hp' & ->). apply of_parent_name; auto.
        intros ->. apply Hp. exists []. rewrite app_nil_r. reflexivity.
Qed.

Section Exact.
Context (P : platform).
Let comp := menu_completion P.

Lemma kids_exact n ctx m anc rest ks l : ctx = m :: anc -> cmd_kids m = ks ->
  (forall line ctx l, Forall is_menu ctx -> forall up, comp n up line ctx = GOk l -> forall c, In c l <-> enters up ctx line c) ->
  Forall is_menu ctx ->
  g_app (g_all (fun k => match k with
                         | CMenu _ _ _ _ _ _ => comp n false rest (k :: ctx)
                         | _ => GOk (name_completion k rest)
                         end) ks)
        (match anc with [] => GOk [] | _ => comp n true rest anc end) = GOk l ->
  forall c, In c l <-> offers ctx rest c.
Proof.
  intros -> <- IH Hm H c. apply g_app_ok in H as (x & y & Hx & Hy & ->).
  rewrite in_app_iff, offers_kids. apply g_all_ok in Hx as (Hall & Hx). rewrite Hx.
  assert (Hanc : Forall is_menu anc) by (inversion Hm; assumption).
  assert (Hl : (exists k x0, In k (cmd_kids m) /\
      match k with CMenu _ _ _ _ _ _ => comp n false rest (k :: m :: anc) | _ => GOk (name_completion k rest) end = GOk x0 /\ In c x0) <->
    (exists k, In k (cmd_kids m) /\
     ((is_menu k /\ enters false (k :: m :: anc) rest c) \/
      (~ is_menu k /\ cmd_en k = true /\ is_prefix rest (cmd_name k) /\ c = cmd_name k)))).
  { split.
    - intros (k & z & Hk & Hz & Hc). exists k. split; [exact Hk|].
      destruct k as [i n0 e d ps pd h|i n0 e d pd h|i n0 e d p ks0].
      1,2: right; injection Hz as <-; split; [intros (? & ? & ? & ? & ? & ? & ?); discriminate|]; apply name_completion_in in Hc; exact Hc.
      left. assert (Hmk : is_menu (CMenu i n0 e d p ks0)) by (repeat eexists). split; [exact Hmk|].
      eapply IH in Hz; [|constructor; [exact Hmk|exact Hm]]. apply Hz, Hc.
    - intros (k & Hk & H). destruct (Hall k Hk) as (z & Hz). exists k, z. split; [exact Hk|]. split; [exact Hz|].
      destruct k as [i n0 e d ps pd h|i n0 e d pd h|i n0 e d p ks0].
      1,2: injection Hz as <-; apply name_completion_in; destruct H as [((? & ? & ? & ? & ? & ? & ?) & _)|(_ & H)]; [discriminate|exact H].
      assert (Hmk : is_menu (CMenu i n0 e d p ks0)) by (repeat eexists).
      eapply IH in Hz; [|constructor; [exact Hmk|exact Hm]]. apply Hz. destruct H as [(_ & H)|(H & _)]; [exact H|contradiction]. }
  rewrite Hl. apply or_iff_compat_l. destruct anc as [|p anc].
  - injection Hy as <-. cbn. intuition congruence.
  - eapply IH in Hy; [|exact Hanc]. rewrite Hy. intuition congruence.
Qed.

Lemma menu_completion_exact n : forall line ctx l, Forall is_menu ctx -> forall up,
  comp n up line ctx = GOk l -> forall c, In c l <-> enters up ctx line c.
Proof.
  induction n as [|n IH]; intros line ctx l Hm up H c; [discriminate|].
  unfold comp in H. cbn [menu_completion] in H. fold comp in H.
  destruct ctx as [|m anc]; [injection H as <-; cbn; tauto|].
  inversion Hm as [|? ? Hmm Hanc]; subst. destruct Hmm as (i & nm & e & d & pr & ks & ->).
  assert (Hin : forall prefix, (forall r, line = prefix ++ r -> skipn (length prefix) line = r)).
  { intros prefix r ->. rewrite skipn_app, skipn_all, Nat.sub_diag. reflexivity. }
  assert (Hinside : forall prefix rest,
    line = prefix ++ rest ->
    match trim_left P (skipn (length prefix) line) with
            | None => GUB
            | Some rest =>
                g_map (map (fun c => prefix ++ " "%char :: c))
                  (g_app
                     (g_all (fun k => match k with
                                      | CMenu _ _ _ _ _ _ => comp n false rest (k :: CMenu i nm e d pr ks :: anc)
                                      | _ => GOk (name_completion k rest)
                                      end) ks)
                     (match anc with [] => GOk [] | _ => comp n true rest anc end))
            end = GOk l ->
    (In c l <-> exists c', offers (CMenu i nm e d pr ks :: anc) (trim rest) c' /\ c = prefix ++ lit " " ++ c')).
  { intros prefix rest Hl Hg. rewrite (Hin prefix rest Hl) in Hg.
    destruct (trim_left P rest) as [r|] eqn:Hr; [|discriminate]. apply trim_left_spec in Hr. subst r.
    apply g_map_ok in Hg as (x & Hx & ->).
    pose proof (kids_exact n (CMenu i nm e d pr ks :: anc) _ anc (trim rest) ks x eq_refl eq_refl IH Hm Hx) as Hk.
    rewrite in_map_iff. split.
    - intros (c' & <- & Hc). exists c'. split; [apply Hk, Hc|reflexivity].
    - intros (c' & Ho & ->). exists c'. split; [reflexivity|apply Hk, Ho]. }
  destruct (starts_with nm line) eqn:E1.
  - apply starts_prefix in E1 as (rest & Hl). pose proof (Hinside nm rest Hl H) as Hi.
    rewrite Hi. cbn [enters cmd_name]. split.
    + intros (c' & Ho & ->). left. eauto.
    + intros [(rest' & c' & Hl' & Ho & ->)|[(_ & Hp & _)|(Hp & _)]].
      * assert (rest' = rest) by (rewrite Hl in Hl'; apply app_inv_head in Hl'; congruence). subst. eauto.
      * exfalso. apply Hp. exists rest. exact Hl.
      * exfalso. apply Hp. exists rest. exact Hl.
  - apply starts_prefix_false in E1.
    destruct (up && starts_with (lit "..") line) eqn:E2.
    + apply andb_true_iff in E2 as (-> & E2). apply starts_prefix in E2 as (rest & Hl).
      pose proof (Hinside (lit "..") rest Hl H) as Hi. rewrite Hi. cbn [enters cmd_name]. split.
      * intros (c' & Ho & ->). right. left. split; [reflexivity|]. split; [exact E1|]. eauto.
      * intros [(rest' & c' & Hl' & _)|[(_ & _ & rest' & c' & Hl' & Ho & ->)|(_ & Hd & _)]].
        -- exfalso. apply E1. exists rest'. exact Hl'.
        -- assert (rest' = rest) by (rewrite Hl in Hl'; apply app_inv_head in Hl'; congruence). subst. eauto.
        -- exfalso. apply (Hd eq_refl). exists rest. exact Hl.
    + injection H as <-. rewrite name_completion_in. cbn [enters cmd_name cmd_en]. split.
      * intros (He & Hp & ->). right. right. split; [exact E1|]. split; [|auto].
        intros ->. apply starts_prefix_false. exact E2.
      * intros [(rest' & c' & Hl' & _)|[(-> & _ & rest' & c' & Hl' & _)|(_ & _ & H)]].
        -- exfalso. apply E1. exists rest'. exact Hl'.
        -- exfalso. apply starts_prefix_false in E2. apply E2. exists rest'. exact Hl'.
        -- exact H.
Qed.

Lemma menu_completions_exact n line ctx l : Forall is_menu ctx -> ctx <> [] ->
  menu_completions P n line ctx = GOk l -> forall c, In c l <-> offers ctx line c.
Proof.
  intros Hm Hn H. destruct ctx as [|m anc]; [congruence|].
  eapply (kids_exact n (m :: anc) m anc line (cmd_kids m)); [reflexivity|reflexivity| |exact Hm|exact H].
  apply menu_completion_exact.
Qed.
End Exact.

Lemma chain_menus root ctx : chain root ctx -> Forall is_menu ctx /\ ctx <> [].
Proof. induction 1 as [H|k p anc H (IH & _) _ Hk]; split; try discriminate; constructor; auto. Qed.
Lemma global_is_menu : is_menu global_menu.
Proof. repeat eexists. Qed.

Lemma completions_exact P fuel line w l : get_completions P fuel line w = GOk l ->
  unique_ids (w_root w) -> forall c, In c l <-> offered w line c.
Proof.
  unfold get_completions. destruct (trim_left P line) as [r|] eqn:Hr; [|discriminate]. apply trim_left_spec in Hr. subst r.
  intros H Hu c. apply g_map_ok in H as (v & H & ->). rewrite unique_in, sort_in.
  apply g_app_ok in H as (x & y & Hx & Hy & ->). rewrite in_app_iff.
  destruct (locate (w_cur w) [] (w_root w)) as [ctx|] eqn:Hl; [|discriminate].
  assert (Hc : in_menu w ctx) by (apply locate_in_menu; exact Hl).
  assert (Hm := chain_menus _ _ (proj1 Hc)).
  rewrite (menu_completions_exact P fuel _ _ _ (proj1 Hm) (proj2 Hm) Hy).
  rewrite (menu_completions_exact P fuel _ [global_menu] _ (Forall_cons _ global_is_menu (Forall_nil _)) ltac:(discriminate) Hx).
  unfold offered. apply or_iff_compat_l. split; [eauto|].
  intros (ctx' & Hc' & Ho). rewrite (in_menu_unique w ctx ctx' Hu Hc Hc'). exact Ho.
Qed.

(** ** Termination, absence of undefined behaviour *)
Lemma g_app_bad a b r : r = GUB \/ r = GFuel -> g_app a b = r -> a = r \/ b = r.
Proof. destruct a, b; cbn; intros [->| ->]; intros; try discriminate; auto. Qed.
Lemma g_map_bad f a r : r = GUB \/ r = GFuel -> g_map f a = r -> a = r.
Proof. destruct a; cbn; intros [->| ->]; intros; try discriminate; auto. Qed.
Lemma g_all_bad f ks r : r = GUB \/ r = GFuel -> g_all f ks = r -> exists k, In k ks /\ f k = r.
Proof.
  intros Hr. induction ks as [|k ks IH]; cbn; [intros <-; destruct Hr; discriminate|].
  intros H. apply g_app_bad in H as [H|H]; auto; [exists k; auto|].
  destruct (IH H) as (k' & Hin & Hk). exists k'. auto.
Qed.
Lemma not_leaf_bad (k : cmd) (a : gres) rest r : r = GUB \/ r = GFuel ->
  match k with CMenu _ _ _ _ _ _ => a | _ => GOk (name_completion k rest) end = r ->
  is_menu k /\ a = r.
Proof.
  intros Hr. destruct k; intros H; try (exfalso; rewrite <- H in Hr; destruct Hr; discriminate).
  split; [repeat eexists|exact H].
Qed.

Section Total.
Context (P : platform).

Definition need (line : str) (ctx : list cmd) : nat :=
  2 * length line + match ctx with m :: _ => match cmd_name m with [] => 2 | _ => 1 end | [] => 1 end.

Lemma menu_completion_fuel root : no_empty_pair root -> forall n up line ctx, chain root ctx ->
  need line ctx <= n -> menu_completion P n up line ctx <> GFuel.
Proof.
  intros Hne. induction n as [|n IH]; intros up line ctx Hc Hn.
  - exfalso. destruct ctx as [|m anc]; unfold need in Hn; [lia|]. destruct (cmd_name m); lia.
  - cbn [menu_completion]. destruct ctx as [|m anc]; [discriminate|].
    destruct (chain_menus _ _ Hc) as (Hm & _). inversion Hm as [|? ? Hmm Hanc]; subst.
    destruct Hmm as (i & nm & e & d & pr & ks & ->). set (m := CMenu i nm e d pr ks) in *.
    assert (Hin : forall prefix, is_prefix prefix line -> (prefix = nm \/ prefix <> []) ->
      match trim_left P (skipn (length prefix) line) with
      | None => GUB
      | Some rest =>
          g_map (map (fun c => prefix ++ " "%char :: c))
            (g_app
               (g_all (fun k => match k with
                                | CMenu _ _ _ _ _ _ => menu_completion P n false rest (k :: m :: anc)
                                | _ => GOk (name_completion k rest)
                                end) ks)
               (match anc with [] => GOk [] | _ => menu_completion P n true rest anc end))
      end <> GFuel).
    { intros prefix (rest & Hl) Hpre. rewrite Hl at 1. rewrite skipn_app, skipn_all, Nat.sub_diag. cbn [skipn app].
      destruct (trim_left P rest) as [r|] eqn:Hr; [|discriminate]. apply trim_left_spec in Hr. subst r.
      assert (Hlen : length (trim rest) + length prefix <= length line).
      { pose proof (trim_length rest). rewrite Hl, app_length. lia. }
      assert (Hnb : forall x y, chain root (x :: y) -> (nm = [] -> cmd_name x <> []) -> need (trim rest) (x :: y) <= n).
      { intros x y _ Hx. unfold need in *. cbn [cmd_name m] in Hn.
        destruct prefix as [|c0 prefix].
        - destruct Hpre as [<-|Hpre]; [|congruence]. specialize (Hx eq_refl). destruct (cmd_name x); [congruence|]. lia.
        - cbn [length] in Hlen. destruct (cmd_name x); destruct nm; lia. }
      intros H. apply g_map_bad in H; auto. apply g_app_bad in H as [H|H]; auto.
      - apply g_all_bad in H as (k & Hk & H); auto. apply not_leaf_bad in H as (Hmk & H); auto.
        assert (Hck : chain root (k :: m :: anc)) by (constructor; auto).
        revert H. apply IH; [exact Hck|]. apply Hnb; [exact Hck|].
        intros Hnil Hk'. apply (Hne k m anc Hck Hk'). exact Hnil.
      - destruct anc as [|p anc]; [discriminate|].
        inversion Hc as [|? ? ? Hcp Hinp _]; subst.
        revert H. apply IH; [exact Hcp|]. apply Hnb; [exact Hcp|].
        intros Hnil Hk'. apply (Hne m p anc Hc); [exact Hnil|exact Hk']. }
    destruct (starts_with nm line) eqn:E1.
    + apply Hin; [apply starts_prefix, E1|auto].
    + destruct (up && starts_with (lit "..") line) eqn:E2; [|discriminate].
      apply andb_true_iff in E2 as (_ & E2). apply Hin; [apply starts_prefix, E2|right; discriminate].
Qed.

Lemma menu_completion_defined : forall n up line ctx, ctype_line P line ->
  menu_completion P n up line ctx <> GUB.
Proof.
  induction n as [|n IH]; intros up line ctx Hl; [discriminate|].
  cbn [menu_completion]. destruct ctx as [|m anc]; [discriminate|].
  destruct m as [i nm e d ps pd h|i nm e d pd h|i nm e d pr ks]; try discriminate.
  assert (Hin : forall prefix,
      match trim_left P (skipn (length prefix) line) with
      | None => GUB
      | Some rest =>
          g_map (map (fun c => prefix ++ " "%char :: c))
            (g_app
               (g_all (fun k => match k with
                                | CMenu _ _ _ _ _ _ => menu_completion P n false rest (k :: CMenu i nm e d pr ks :: anc)
                                | _ => GOk (name_completion k rest)
                                end) ks)
               (match anc with [] => GOk [] | _ => menu_completion P n true rest anc end))
      end <> GUB).
  { intros prefix.
    assert (Hs : ctype_line P (skipn (length prefix) line)).
    { unfold ctype_line in *. rewrite <- (firstn_skipn (length prefix) line) in Hl. apply Forall_app in Hl. tauto. }
    rewrite (trim_left_some _ _ Hs). apply trim_ctype in Hs.
    intros H. apply g_map_bad in H; auto. apply g_app_bad in H as [H|H]; auto.
    - apply g_all_bad in H as (k & Hk & H); auto. apply not_leaf_bad in H as (Hmk & H); auto.
      revert H. apply IH, Hs.
    - destruct anc as [|p anc]; [discriminate|]. revert H. apply IH, Hs. }
  destruct (starts_with nm line); [apply Hin|].
  destruct (up && starts_with (lit "..") line); [apply Hin|discriminate].
Qed.

Lemma menu_completions_bad n line ctx r : r = GUB \/ r = GFuel -> menu_completions P n line ctx = r ->
  exists up ctx', menu_completion P n up line ctx' = r /\
    ((exists k, ctx' = k :: ctx /\ is_menu k /\ exists m anc, ctx = m :: anc /\ In k (cmd_kids m)) \/
     (ctx' <> [] /\ exists m, ctx = m :: ctx')).
Proof.
  intros Hr H. destruct ctx as [|m anc]; cbn in H; [rewrite <- H in Hr; destruct Hr; discriminate|].
  apply g_app_bad in H as [H|H]; auto.
  - apply g_all_bad in H as (k & Hk & H); auto. apply not_leaf_bad in H as (Hm & H); auto.
    exists false, (k :: m :: anc). split; [exact H|]. left. exists k. split; [reflexivity|]. split; [exact Hm|]. eauto.
  - destruct anc as [|p anc]; [rewrite <- H in Hr; destruct Hr; discriminate|].
    exists true, (p :: anc). split; [exact H|]. right. split; [discriminate|]. eauto.
Qed.

Lemma menu_completions_global n line : exists l, menu_completions P n line [global_menu] = GOk l.
Proof. eexists. reflexivity. Qed.

Lemma completions_terminate fuel line w : no_empty_pair (w_root w) -> 2 * length line + 2 <= fuel ->
  get_completions P fuel line w <> GFuel.
Proof.
  intros Hne Hf H. unfold get_completions in H.
  destruct (trim_left P line) as [r|] eqn:Hr; [|discriminate]. apply trim_left_spec in Hr. subst r.
  apply g_map_bad in H; auto. destruct (menu_completions_global fuel (trim line)) as (g & Hg). rewrite Hg in H.
  apply g_app_bad in H as [H|H]; auto; [discriminate|].
  destruct (locate (w_cur w) [] (w_root w)) as [ctx|] eqn:Hl; [|discriminate].
  apply locate_in_menu in Hl as (Hc & _).
  assert (Hneed : forall c, need (trim line) c <= fuel).
  { intros c. unfold need. pose proof (trim_length line). destruct c as [|x c]; [lia|]. destruct (cmd_name x); lia. }
  apply menu_completions_bad in H as (up & ctx' & H & Hctx); auto.
  revert H. apply menu_completion_fuel with (root := w_root w); auto.
  destruct Hctx as [(k & -> & Hk & m & anc & -> & Hin)|(Hn & m & ->)].
  - constructor; auto.
  - inversion Hc; subst; [congruence|assumption].
Qed.

Lemma completions_defined fuel line w : ctype_line P line -> live w -> get_completions P fuel line w <> GUB.
Proof.
  intros Hl Hv H. unfold get_completions in H. rewrite (trim_left_some _ _ Hl) in H. apply trim_ctype in Hl.
  apply g_map_bad in H; auto. destruct (menu_completions_global fuel (trim line)) as (g & Hg). rewrite Hg in H.
  apply g_app_bad in H as [H|H]; auto; [discriminate|].
  apply live_spec, (menu_ids_locate _ []) in Hv as (ctx & Hv). rewrite Hv in H.
  apply menu_completions_bad in H as (up & ctx' & H & _); auto. revert H. apply menu_completion_defined, Hl.
Qed.

Lemma increasing_ext l : forall m, increasing l -> increasing m -> (forall c, In c l <-> In c m) -> l = m.
Proof.
  induction l as [|x l IH]; intros [|y m] Hl Hm H.
  - reflexivity.
  - exfalso. apply (proj2 (H y)). left. reflexivity.
  - exfalso. apply (proj1 (H x)). left. reflexivity.
  - inversion Hl as [|? ? Hl' Hx]; subst. inversion Hm as [|? ? Hm' Hy]; subst. rewrite Forall_forall in *.
    assert (Hxy : x = y).
    { destruct (proj1 (H x) (or_introl eq_refl)) as [E|E]; [congruence|].
      destruct (proj2 (H y) (or_introl eq_refl)) as [E'|E']; [congruence|].
      exfalso. apply (lex_irrefl x). eapply lex_trans; [apply Hx, E'|apply Hy, E]. }
    subst y. f_equal. apply IH; auto. intros c. specialize (H c). cbn [In] in H. split; intros Hc.
    + destruct (proj1 H (or_intror Hc)) as [<-|?]; [|assumption]. exfalso. exact (lex_irrefl x (Hx x Hc)).
    + destruct (proj2 H (or_intror Hc)) as [<-|?]; [|assumption]. exfalso. exact (lex_irrefl x (Hy x Hc)).
Qed.

Lemma completions_total line w : ctype_line P line -> live w -> unique_ids (w_root w) -> no_empty_pair (w_root w) ->
  exists l, forall fuel, 2 * length line + 2 <= fuel -> get_completions P fuel line w = GOk l.
Proof.
  intros Hl Hv Hu Hne.
  assert (Hok : forall fuel, 2 * length line + 2 <= fuel -> exists l, get_completions P fuel line w = GOk l).
  { intros fuel Hf. destruct (get_completions P fuel line w) as [l| |] eqn:E; [eauto| |].
    - exfalso. exact (completions_defined _ _ _ Hl Hv E).
    - exfalso. exact (completions_terminate _ _ _ Hne Hf E). }
  destruct (Hok (2 * length line + 2) (Nat.le_refl _)) as (l & H0). exists l. intros fuel Hf.
  destruct (Hok fuel Hf) as (l' & H1). rewrite H1. f_equal. apply increasing_ext.
  - eapply completions_sorted, H1.
  - eapply completions_sorted, H0.
  - intros c. rewrite (completions_exact _ _ _ _ _ H1 Hu), (completions_exact _ _ _ _ _ H0 Hu). reflexivity.
Qed.
End Total.

(** Two nested menus with empty names: the recursion never ends. *)
Lemma empty_pair_loops P i e d p j e' d' p' : forall n line, ctype_line P line ->
  (menu_completion P n false line [CMenu j [] e' d' p' []; CMenu i [] e d p [CMenu j [] e' d' p' []]] = GFuel) /\
  (menu_completion P n true line [CMenu i [] e d p [CMenu j [] e' d' p' []]] = GFuel).
Proof.
  induction n as [|n IH]; intros line Hl; [split; reflexivity|].
  assert (Ht : ctype_line P (trim line)) by (apply trim_ctype, Hl). destruct (IH _ Ht) as (H1 & H2).
  cbn [menu_completion starts_with length skipn g_all g_app]. rewrite (trim_left_some _ _ Hl), H1, H2. split; reflexivity.
Qed.

(** ** Paths *)
Lemma leads_nonempty ctx words k : leads ctx words k -> words <> [].
Proof. destruct 1; discriminate. Qed.
Lemma join_cons w ws : ws <> [] -> join (w :: ws) = w ++ lit " " ++ join ws.
Proof. destruct ws; [congruence|reflexivity]. Qed.
Lemma offers_path ctx line c : offers ctx line c -> on_path ctx line c.
Proof.
  induction 1 as [m anc k line Hk He Hp Hm|m anc k line rest c Hk Hm Hl Ho IH|m p anc line He Hp Hl Hd
      |m p anc line rest c Hl Ho IH|m p anc line rest c Hp Hl Ho IH].
  - exists [cmd_name k], k, line. split; [apply ld_kid; exact Hk|]. split; [apply ty_last; exact Hp|]. auto.
  - destruct IH as (ws & x & part & Hld & Ht & He & Hx & ->). exists (cmd_name k :: ws), x, part.
    split; [eapply ld_inside; eauto|]. split; [eapply ty_more; eauto|]. split; [exact He|]. split; [exact Hx|].
    rewrite join_cons; [reflexivity|eapply leads_nonempty, Hld].
  - exists [cmd_name p], p, line. split; [apply ld_parent|]. split; [apply ty_last; exact Hp|]. split; [exact He|]. split; [|reflexivity]. tauto.
  - destruct IH as (ws & x & part & Hld & Ht & He & Hx & ->). exists (cmd_name p :: ws), x, part.
    split; [eapply ld_up; eauto|]. split; [eapply ty_more; eauto|]. split; [exact He|]. split; [exact Hx|].
    rewrite join_cons; [reflexivity|eapply leads_nonempty, Hld].
  - destruct IH as (ws & x & part & Hld & Ht & He & Hx & ->). exists (lit ".." :: ws), x, part.
    split; [eapply ld_up; eauto|]. split; [eapply ty_more; eauto|]. split; [exact He|]. split; [exact Hx|].
    rewrite join_cons; [reflexivity|eapply leads_nonempty, Hld].
Qed.

Lemma typed_inv line w ws part : typed line (w :: ws) part -> ws <> [] ->
  exists rest, line = w ++ rest /\ typed (trim rest) ws part.
Proof. intros H Hn. inversion H; subst; [congruence|eauto]. Qed.
Lemma typed_one line w part : typed line [w] part -> is_prefix line w /\ part = line.
Proof. intros H. inversion H as [|? ? ? ? ? ? Ht]; subst; [auto|inversion Ht]. Qed.

Lemma path_offers root : undotted root -> forall ctx words k, leads ctx words k -> chain root ctx ->
  forall line part, typed line words part -> cmd_en k = true -> ~ (is_menu k /\ part = cmd_name k) ->
  offers ctx line (join words).
Proof.
  intros Hu ctx words k H.
  induction H as [m anc k Hk|m p anc|m anc sub ws k Hs Hm Hld IH|m p anc word ws k Hw Hld IH];
    intros Hc line part Ht He Hn.
  - apply typed_one in Ht as (Hp & ->). apply of_name; auto.
  - apply typed_one in Ht as (Hp & ->). inversion Hc as [|? ? ? Hcp _ _]; subst.
    destruct (chain_menus _ _ Hcp) as (Hmp & _). inversion Hmp; subst.
    apply of_parent_name; auto.
    intros Hd. destruct (Hu _ _ Hcp) as (c & r & Hnm & Hdot).
    destruct Hp as (r1 & Hr1). destruct Hd as (r2 & ->). rewrite Hnm in Hr1. cbn in Hr1. congruence.
  - apply typed_inv in Ht as (rest & -> & Ht); [|eapply leads_nonempty, Hld].
    rewrite join_cons; [|eapply leads_nonempty, Hld].
    eapply of_inside; [exact Hs|exact Hm|reflexivity|]. eapply IH; eauto. constructor; auto.
  - apply typed_inv in Ht as (rest & -> & Ht); [|eapply leads_nonempty, Hld].
    rewrite join_cons; [|eapply leads_nonempty, Hld]. inversion Hc as [|? ? ? Hcp _ _]; subst.
    destruct Hw as [->| ->].
    + eapply of_parent; [reflexivity|]. eapply IH; eauto.
    + eapply of_dots; [|reflexivity|eapply IH; eauto].
      destruct (Hu _ _ Hcp) as (c & r & Hnm & Hdot). rewrite Hnm. intros (r' & Hr'). cbn in Hr'. congruence.
Qed.
Lemma offers_on_path root ctx line c : undotted root -> chain root ctx -> (offers ctx line c <-> on_path ctx line c).
Proof.
  intros Hu Hc. split; [apply offers_path|].
  intros (words & k & part & Hld & Ht & He & Hn & ->). eapply path_offers; eauto.
Qed.

(** ** Completions can be executed *)
Lemma plain_split w : plain_word w -> complete w /\ split w = Some [w].
Proof.
  intros (Hn & Hw).
  assert (Hsrc : pieces_src (map Plain w) = w /\ pieces_val (map Plain w) = w).
  { clear. induction w as [|c w (IH1 & IH2)]; [split; reflexivity|].
    unfold pieces_src, pieces_val in *. cbn. rewrite IH1, IH2. split; reflexivity. }
  assert (Hwf : wf_line [Bare (map Plain w)] TNone).
  { split; [|split; [exact Logic.I|]].
    - constructor; [|constructor]. split; [destruct w; [congruence|discriminate]|].
      apply Forall_map. eapply Forall_impl; [|exact Hw]. intros c H. exact H.
    - cbn. auto. }
  assert (Hl : line_src [Bare (map Plain w)] TNone = w).
  { unfold line_src. cbn. rewrite !app_nil_r. apply Hsrc. }
  split; [exists [Bare (map Plain w)]; auto|].
  rewrite <- Hl at 1. rewrite split_line by exact Hwf. unfold line_tokens. cbn. rewrite (proj2 Hsrc).
  destruct w; [congruence|reflexivity].
Qed.
Lemma split_join ws : Forall plain_word ws -> split (join ws) = Some ws.
Proof.
  induction 1 as [|w ws Hw Hws IH]; [reflexivity|].
  destruct ws as [|w' ws]; [apply plain_split, Hw|].
  rewrite join_cons by discriminate. destruct (plain_split w Hw) as (Hc & Hs).
  cbn [lit list_ascii_of_string app]. rewrite (split_concat w " "%char (join (w' :: ws)) Hc (or_introl eq_refl)).
  rewrite Hs, IH. reflexivity.
Qed.

Lemma dots_plain : plain_word (lit "..").
Proof.
  split; [discriminate|].
  repeat constructor; try discriminate; try (intros [H|[H|H]]; discriminate); intros [H|H]; discriminate.
Qed.
Lemma leads_plain root : open_tree root -> forall ctx ws k, leads ctx ws k -> chain root ctx -> Forall plain_word ws.
Proof.
  intros Ho ctx ws k H.
  induction H as [m anc k Hk|m p anc|m anc sub ws k Hs Hm Hld IH|m p anc word ws k Hw Hld IH]; intros Hc.
  - destruct (Ho _ _ Hc) as (_ & Hp). inversion Hp as [|? ? _ Hks]; subst. rewrite Forall_forall in Hks.
    constructor; [apply Hks, Hk|constructor].
  - inversion Hc as [|? ? ? Hcp _ _]; subst. destruct (Ho _ _ Hcp) as (_ & Hp). inversion Hp; subst. auto.
  - assert (Hcs : chain root (sub :: m :: anc)) by (constructor; auto).
    destruct (Ho _ _ Hcs) as (_ & Hp). inversion Hp; subst. constructor; auto.
  - inversion Hc as [|? ? ? Hcp _ _]; subst. constructor; [|auto].
    destruct Hw as [->| ->]; [|apply dots_plain]. destruct (Ho _ _ Hcp) as (_ & Hp). inversion Hp; subst. auto.
Qed.

Lemma leads_invocable root : open_tree root -> forall ctx ws k, leads ctx ws k -> chain root ctx ->
  cmd_en k = true -> invocable ctx ws k.
Proof.
  intros Ho ctx ws k H.
  induction H as [m anc k Hk|m p anc|m anc sub ws k Hs Hm Hld IH|m p anc word ws k Hw Hld IH]; intros Hc He.
  - destruct (Ho _ _ Hc) as (Hm & _). apply In_nth_error in Hk as (i & Hi).
    destruct k as [j n e d ps pd h|j n e d pd h|j n e d p ks]; cbn in He; subst e; cbn.
    + intros args Ha. exists [i]. eapply rd_fn; eauto.
    + intros args. exists [i]. eapply rd_free; eauto.
    + exists [i]. eapply rd_menu; eauto.
  - inversion Hc as [|? ? ? Hcp _ _]; subst. destruct (Ho _ _ Hc) as (Hm & _).
    destruct (chain_menus _ _ Hcp) as (Hmp & _). inversion Hmp as [|? ? Hmp' _]; subst.
    destruct Hmp' as (i & n & e & d & pr & ks & ->). cbn in He; subst e. cbn.
    eexists. eapply rd_parent; eauto.
  - destruct (Ho _ _ Hc) as (Hme & _). apply In_nth_error in Hs as (i & Hi).
    destruct Hm as (j & n & e & d & pr & ks & ->).
    assert (Hcs : chain root (CMenu j n e d pr ks :: m :: anc)).
    { constructor; auto; [eapply nth_error_In, Hi|repeat eexists]. }
    specialize (IH Hcs He). destruct k as [j' n' e' d' ps pd h|j' n' e' d' pd h|j' n' e' d' p ks']; cbn in IH |- *.
    + intros args Ha. destruct (IH args Ha) as (path & Hr). exists (i :: path). eapply rd_in_menu; eauto.
    + intros args. destruct (IH args) as (path & Hr). exists (i :: path). eapply rd_in_menu; eauto.
    + destruct IH as (path & Hr). exists (i :: path). eapply rd_in_menu; eauto.
  - destruct (Ho _ _ Hc) as (Hme & _). inversion Hc as [|? ? ? Hcp _ _]; subst.
    destruct (chain_menus _ _ Hcp) as (Hmp & _). inversion Hmp as [|? ? Hmp' _]; subst.
    destruct Hmp' as (i & n & e & d & pr & ks & ->).
    specialize (IH Hcp He). destruct k as [j' n' e' d' ps pd h|j' n' e' d' pd h|j' n' e' d' p ks']; cbn in IH |- *.
    + intros args Ha. destruct (IH args Ha) as (path & Hr). eexists. eapply rd_in_parent; eauto.
    + intros args. destruct (IH args) as (path & Hr). eexists. eapply rd_in_parent; eauto.
    + destruct IH as (path & Hr). eexists. eapply rd_in_parent; eauto.
Qed.

Lemma offers_invocable root ctx line c : open_tree root -> chain root ctx -> offers ctx line c ->
  exists ws k, split c = Some ws /\ leads ctx ws k /\ cmd_en k = true /\ invocable ctx ws k.
Proof.
  intros Ho Hc H. apply offers_path in H as (ws & k & part & Hld & _ & He & _ & ->).
  exists ws, k. split; [apply split_join; eapply leads_plain; eauto|]. split; [exact Hld|]. split; [exact He|].
  eapply leads_invocable; eauto.
Qed.

Lemma squeeze_app a b : squeeze (a ++ b) = squeeze a ++ squeeze b.
Proof. apply filter_app. Qed.
Lemma squeeze_trim s : squeeze (trim s) = squeeze s.
Proof.
  induction s as [|c s IH]; [reflexivity|]. cbn. destruct (white c) eqn:E; cbn; [exact IH|]. rewrite E. reflexivity.
Qed.
Lemma prefix_app_l p a b : is_prefix a b -> is_prefix (p ++ a) (p ++ b).
Proof. intros (r & ->). exists r. rewrite app_assoc. reflexivity. Qed.
Lemma squeeze_prefix a b : is_prefix a b -> is_prefix (squeeze a) (squeeze b).
Proof. intros (r & ->). exists (squeeze r). apply squeeze_app. Qed.

(** A completion extends the line up to blanks. *)
Lemma offers_extends ctx line c : offers ctx line c -> is_prefix (squeeze line) (squeeze c).
Proof.
  induction 1 as [m anc k line Hk He Hp Hm|m anc k line rest c Hk Hm Hl Ho IH|m p anc line He Hp Hl Hd
      |m p anc line rest c Hl Ho IH|m p anc line rest c Hp Hl Ho IH]; subst; try (apply squeeze_prefix; assumption).
  all: rewrite !squeeze_app; apply prefix_app_l; rewrite squeeze_trim in IH; exact IH.
Qed.

(** ** Disabled commands *)
Definition keep (k : cmd) : list cmd :=
  match k with
  | CMenu _ _ _ _ _ _ => [drop_disabled k]
  | _ => if cmd_en k then [k] else []
  end.
Lemma g_app_nil r : g_app (GOk []) r = r.
Proof. destruct r; reflexivity. Qed.
Lemma g_all_keep (f f' : cmd -> gres) ks :
  (forall k, In k ks -> is_menu k -> f (drop_disabled k) = f' k) ->
  (forall k, In k ks -> ~ is_menu k -> f k = f' k /\ (cmd_en k = false -> f' k = GOk [])) ->
  g_all f (flat_map keep ks) = g_all f' ks.
Proof.
  induction ks as [|k ks IH]; intros Hm Hl; [reflexivity|].
  assert (IH' : g_all f (flat_map keep ks) = g_all f' ks).
  { apply IH; intros x Hx; [apply Hm|apply Hl]; right; exact Hx. }
  cbn [flat_map]. destruct k as [i n e d ps pd h|i n e d pd h|i n e d p ks'].
  1,2: destruct (Hl _ (or_introl eq_refl)) as (H1 & H2); [intros (? & ? & ? & ? & ? & ? & ?); discriminate|];
    cbn [keep cmd_en]; destruct e; cbn [app g_all]; [rewrite H1, IH'; reflexivity|];
    rewrite (H2 eq_refl), g_app_nil; exact IH'.
  cbn [keep app g_all]. rewrite IH', (Hm _ (or_introl eq_refl)); [reflexivity|repeat eexists].
Qed.
Lemma drop_menu i n e d p ks : drop_disabled (CMenu i n e d p ks) = CMenu i n e d p (flat_map keep ks).
Proof. reflexivity. Qed.
Lemma leaf_keep (F G : cmd -> gres) line k : ~ is_menu k ->
  match k with CMenu _ _ _ _ _ _ => F k | _ => GOk (name_completion k line) end =
  match k with CMenu _ _ _ _ _ _ => G k | _ => GOk (name_completion k line) end /\
  (cmd_en k = false -> match k with CMenu _ _ _ _ _ _ => G k | _ => GOk (name_completion k line) end = GOk []).
Proof.
  intros Hm. unfold name_completion. destruct k as [i n e d ps pd h|i n e d pd h|i n e d p ks].
  1,2: split; [reflexivity|]; intros ->; reflexivity.
  exfalso. apply Hm. repeat eexists.
Qed.

Lemma menu_completion_drop P n : forall up line ctx,
  menu_completion P n up line (map drop_disabled ctx) = menu_completion P n up line ctx.
Proof.
  induction n as [|n IH]; intros up line ctx; [reflexivity|].
  cbn [menu_completion]. destruct ctx as [|m anc]; [reflexivity|]. cbn [map].
  destruct m as [i nm e d ps pd h|i nm e d pd h|i nm e d p ks]; try reflexivity.
  rewrite drop_menu. unfold name_completion. cbn [cmd_en cmd_name].
  assert (Hrest : forall rest,
    g_app (g_all (fun k => match k with
                           | CMenu _ _ _ _ _ _ => menu_completion P n false rest (k :: CMenu i nm e d p (flat_map keep ks) :: map drop_disabled anc)
                           | _ => GOk (name_completion k rest)
                           end) (flat_map keep ks))
          (match map drop_disabled anc with [] => GOk [] | _ => menu_completion P n true rest (map drop_disabled anc) end) =
    g_app (g_all (fun k => match k with
                           | CMenu _ _ _ _ _ _ => menu_completion P n false rest (k :: CMenu i nm e d p ks :: anc)
                           | _ => GOk (name_completion k rest)
                           end) ks)
          (match anc with [] => GOk [] | _ => menu_completion P n true rest anc end)).
  { intros rest. f_equal.
    - apply g_all_keep.
      + intros k _ (j & n' & e' & d' & p' & ks' & ->). rewrite drop_menu, <- !drop_menu.
        change (drop_disabled (CMenu j n' e' d' p' ks') :: drop_disabled (CMenu i nm e d p ks) :: map drop_disabled anc)
          with (map drop_disabled (CMenu j n' e' d' p' ks' :: CMenu i nm e d p ks :: anc)). apply IH.
      + intros k _ Hk. apply leaf_keep with
          (F := fun k => menu_completion P n false rest (k :: CMenu i nm e d p (flat_map keep ks) :: map drop_disabled anc))
          (G := fun k => menu_completion P n false rest (k :: CMenu i nm e d p ks :: anc)). exact Hk.
    - destruct anc; [reflexivity|]. apply IH. }
  assert (Hinside : forall prefix (a b : str -> gres), (forall r, a r = b r) ->
     match trim_left P (skipn (length prefix) line) with None => GUB | Some rest => g_map (map (fun c => prefix ++ " "%char :: c)) (a rest) end =
     match trim_left P (skipn (length prefix) line) with None => GUB | Some rest => g_map (map (fun c => prefix ++ " "%char :: c)) (b rest) end).
  { intros prefix a b H. destruct (trim_left P _); [rewrite H|]; reflexivity. }
  destruct (starts_with nm line); [apply Hinside, Hrest|].
  destruct (up && starts_with (lit "..") line); [apply Hinside, Hrest|reflexivity].
Qed.

Lemma menu_completions_drop P n line ctx : Forall is_menu ctx ->
  menu_completions P n line (map drop_disabled ctx) = menu_completions P n line ctx.
Proof.
  intros Hm. destruct ctx as [|m anc]; [reflexivity|]. inversion Hm as [|? ? Hmm _]; subst.
  destruct Hmm as (i & nm & e & d & p & ks & ->).
  cbn [map]. rewrite drop_menu. cbn [menu_completions cmd_kids]. f_equal.
  - apply g_all_keep.
    + intros k _ (j & n' & e' & d' & p' & ks' & ->). rewrite drop_menu, <- !drop_menu.
      change (drop_disabled (CMenu j n' e' d' p' ks') :: drop_disabled (CMenu i nm e d p ks) :: map drop_disabled anc)
        with (map drop_disabled (CMenu j n' e' d' p' ks' :: CMenu i nm e d p ks :: anc)). apply menu_completion_drop.
    + intros k _ Hk. apply leaf_keep with
        (F := fun k => menu_completion P n false line (k :: CMenu i nm e d p (flat_map keep ks) :: map drop_disabled anc))
        (G := fun k => menu_completion P n false line (k :: CMenu i nm e d p ks :: anc)). exact Hk.
  - destruct anc; [reflexivity|]. apply menu_completion_drop.
Qed.

Lemma locate_drop id c : forall anc,
  locate id (map drop_disabled anc) (drop_disabled c) = option_map (map drop_disabled) (locate id anc c).
Proof.
  induction c as [i n e d ps pd h|i n e d pd h|i n e d p ks IH] using cmd_ind2; intros anc; try reflexivity.
  rewrite drop_menu, !locate_menu. destruct (Nat.eqb i id); [reflexivity|].
  rewrite <- drop_menu. change (drop_disabled (CMenu i n e d p ks) :: map drop_disabled anc) with (map drop_disabled (CMenu i n e d p ks :: anc)).
  generalize (CMenu i n e d p ks :: anc) as A. intros A.
  induction IH as [|k ks Hk Hks IHk]; [reflexivity|].
  cbn [flat_map]. destruct k as [j n' e' d' ps pd h|j n' e' d' pd h|j n' e' d' p' ks'].
  1,2: cbn [keep cmd_en]; destruct e'; cbn [app locate_list locate]; exact IHk.
  cbn [keep app]. set (k := CMenu j n' e' d' p' ks') in *. cbn [locate_list]. rewrite (Hk A).
  destruct (locate id A k); cbn [option_map]; [reflexivity|exact IHk].
Qed.

Lemma completions_drop P fuel line w :
  get_completions P fuel line (set_root (drop_disabled (w_root w)) (w_next w) w) = get_completions P fuel line w.
Proof.
  unfold get_completions. destruct (trim_left P line) as [r|]; [|reflexivity]. f_equal. f_equal.
  cbn [w_cur w_root set_root]. change (locate (w_cur w) [] (drop_disabled (w_root w))) with (locate (w_cur w) (map drop_disabled []) (drop_disabled (w_root w))).
  rewrite (locate_drop (w_cur w) (w_root w) []).
  destruct (locate (w_cur w) [] (w_root w)) as [ctx|] eqn:Hl; [|reflexivity]. cbn [option_map].
  apply menu_completions_drop. apply locate_in_menu in Hl as (Hc & _). apply (chain_menus _ _ Hc).
Qed.
