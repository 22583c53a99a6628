(** * Proofs about what can be called *)

From Verif Require Import Base SplitModel SplitSpec SplitProofs FromStringModel FromStringSpec FromStringProofs HistoryModel HistorySpec HistoryProofs
  StorageModel MenuModel SessionModel ResolveSpec ResolveProofs SessionSpec TreeProofs SessionProofs ProcessorSpec ReachSpec.
Open Scope nat_scope.
Open Scope list_scope.

(** ** The tree *)
Lemma every_kid Q c k : every Q c -> In k (cmd_kids c) -> every Q k.
Proof.
  destruct c as [| |i n e d p kids]; cbn [cmd_kids every]; try contradiction. intros [_ H]. revert H.
  induction kids as [|x l IH]; cbn [fold_right In]; [contradiction|]. intros [H1 H2] [->|Hin]; auto.
Qed.
Lemma every_here Q c : every Q c -> Q c.
Proof. destruct c; cbn [every]; intros [H _]; exact H. Qed.
Lemma chain_named root ctx : chain root ctx -> well_named root -> Forall well_named ctx.
Proof.
  intros H W. induction H as [Hm|k p anc Hc IH Hin Hm]; [constructor; auto|].
  constructor; [|exact IH]. inversion IH; subst. eapply every_kid; eauto.
Qed.
Lemma chain_menus root ctx : chain root ctx -> Forall is_menu ctx.
Proof. intros H. induction H; constructor; auto. Qed.

(** ** Readings *)
Lemma first_word m anc w rest i q t : reading (m :: anc) (w :: rest) (i :: q) t ->
  (exists k, nth_error (cmd_kids m) i = Some k /\ cmd_name k = w) \/ i = length (cmd_kids m).
Proof. intros H. inversion H; subst; auto; left; eexists; (split; [eassumption|reflexivity]). Qed.
Lemma path_cons ctx toks path t : reading ctx toks path t -> exists i q, path = i :: q.
Proof. intros H. inversion H; eauto. Qed.

Lemma same_name (l : list cmd) i j k k' : NoDup (map cmd_name l) -> nth_error l i = Some k -> nth_error l j = Some k' ->
  cmd_name k = cmd_name k' -> i = j.
Proof.
  intros N Hi Hj E. rewrite NoDup_nth_error in N. apply N.
  - rewrite map_length. apply nth_error_Some. congruence.
  - rewrite !nth_error_map, Hi, Hj. cbn. congruence.
Qed.

(** What a command means with the words [args] after its name. *)
Inductive means : cmd -> list str -> target -> Prop :=
| mn_fn id name desc pars pdesc h args : length args = length pars -> means (CFn id name true desc pars pdesc h) args (TRun h pars args)
| mn_free id name desc pdesc h args : means (CFree id name true desc pdesc h) args (TFree h args)
| mn_menu id name desc pr kids : means (CMenu id name true desc pr kids) [] (TGoto id).

Definition leads (ctx : list cmd) (words : list str) (t : target) : Prop :=
  exists path, reading ctx words path t /\ forall path' t', reading ctx words path' t' -> ~ before path' path.

Lemma earlier_kid m anc w rest i k path' t' : NoDup (map cmd_name (cmd_kids m)) -> nth_error (cmd_kids m) i = Some k -> cmd_name k = w ->
  reading (m :: anc) (w :: rest) path' t' -> forall p, before path' (i :: p) -> exists q, path' = i :: q /\ before q p.
Proof.
  intros N Hi En R p B. inversion B as [a b x y L|a x y B']; subst; [|eauto]. exfalso.
  destruct (first_word _ _ _ _ _ _ _ R) as [(k' & Hk & Ek)|El].
  - pose proof (same_name _ _ _ _ _ N Hi Hk (eq_sym Ek)). lia.
  - assert (i < length (cmd_kids m)) by (apply nth_error_Some; congruence). lia.
Qed.

Lemma below_leads m ws c : named_by m ws c -> well_named m -> forall anc args t, means c args t -> leads (m :: anc) (ws ++ args) t.
Proof.
  induction 1 as [m k He Hin Hk|m s ws c He Hin Hs Hb IH]; intros W anc args t M.
  - destruct (every_here _ _ W) as [N _]. apply In_nth_error in Hin as [i Hi]. exists [i]. split.
    + cbn [app]. inversion M; subst; cbn [cmd_name].
      * eapply rd_fn; eauto. * eapply rd_free; eauto. * eapply rd_menu; eauto.
    + cbn [app]. intros path' t' R B. destruct (earlier_kid _ _ _ _ _ _ _ _ N Hi eq_refl R _ B) as (q & _ & B'). inversion B'.
  - destruct (every_here _ _ W) as [N _]. pose proof (every_kid _ _ _ W Hin) as Ws.
    destruct (IH Ws (m :: anc) args t M) as (p & R & F). apply In_nth_error in Hin as [i Hi].
    destruct Hs as (id & n & e & d & pr & ks & ->). exists (i :: p). cbn [app cmd_name]. split.
    + eapply rd_in_menu; eauto.
    + intros path' t' R' B. destruct (earlier_kid m anc _ _ i _ path' t' N Hi eq_refl R' _ B) as (q & -> & B').
      assert (L : i < length (cmd_kids m)) by (apply nth_error_Some; congruence).
      inversion R' as
      [m0 anc0 i0 id0 name desc pars pdesc h args0 He0 Hn Hl|m0 anc0 i0 id0 name desc pdesc h args0 He0 Hn|
       m0 anc0 i0 id0 name desc pr0 kids He0 Hn|m0 anc0 i0 sub id0 name en desc pr0 kids rest path t0 He0 Hn Hs0 Hr|
       m0 q0 anc0 id0 name desc pr0 kids word He0 Hp Hw|
       m0 q0 anc0 id0 name en desc pr0 kids word rest path t0 He0 Hp Hw Hr]; subst; try congruence; try lia.
      * inversion B'.
      * rewrite Hi in Hn. inversion Hn; subst. exact (F _ _ Hr B').
Qed.

Lemma climb_leads l m anc words t : Forall (fun x => cmd_en x = true /\ Forall (fun k => cmd_name k <> lit "..") (cmd_kids x)) l ->
  Forall is_menu (l ++ m :: anc) -> leads (m :: anc) words t -> leads (l ++ m :: anc) (repeat (lit "..") (length l) ++ words) t.
Proof.
  induction l as [|x l IH]; intros F Mn L; [exact L|]. inversion F as [|? ? [He Hk] F']; subst. inversion Mn as [|? ? _ Mn']; subst.
  destruct (IH F' Mn' L) as (p & R & First). cbn [app repeat length].
  destruct (l ++ m :: anc) as [|q0 anc'] eqn:El; [destruct l; discriminate|]. inversion Mn' as [|? ? Hq _]; subst.
  destruct Hq as (id & n & e & d & pr & ks & ->).
  set (rest := repeat (lit "..") (length l) ++ words) in *. exists (length (cmd_kids x) :: p). split.
  - eapply rd_in_parent; eauto.
  - intros path' t' R' B. destruct (path_cons _ _ _ _ R') as (i & q & ->).
    destruct (first_word _ _ _ _ _ _ _ R') as [(k' & Hn & Ek)| ->].
    + apply nth_error_In in Hn. rewrite Forall_forall in Hk. exact (Hk _ Hn Ek).
    + inversion B as [a b y z Lt|a y z B']; subst; [lia|].
      inversion R' as
      [m0 anc0 i0 id0 name desc pars pdesc h args0 He0 Hn Hl|m0 anc0 i0 id0 name desc pdesc h args0 He0 Hn|
       m0 anc0 i0 id0 name desc pr0 kids He0 Hn|m0 anc0 i0 sub id0 name en desc pr0 kids rest0 path t0 He0 Hn Hs0 Hr|
       m0 q0 anc0 id0 name desc pr0 kids word He0 Hp Hw|
       m0 q0 anc0 id0 name en desc pr0 kids word rest0 path t0 He0 Hp Hw Hr]; subst.
      1-4: exfalso; assert (Hx : nth_error (cmd_kids x) (length (cmd_kids x)) <> None) by congruence;
           apply nth_error_Some in Hx; lia.
      * inversion B'.
      * exact (First _ _ Hr B').
Qed.

Section Env.
Context (E : env).

Lemma converts_usable h pars args vs : converts E pars args vs -> ~ unusable E (TRun h pars args).
Proof.
  intros C U. inversion U as [h0 p0 a0 M]; subst. clear U. induction C as [|p ps s ss v vs Hc C IH]; inversion M; subst; [congruence|auto].
Qed.

Lemma not_reserved words : ~ In (hd [] words) reserved -> no_match E [global_menu] words.
Proof.
  intros Hn path t R. exfalso. destruct words as [|w rest]; [exact (reading_nil_inv _ _ _ R)|]. cbn [hd] in Hn.
  destruct (path_cons _ _ _ _ R) as (i & q & ->). destruct (first_word _ _ _ _ _ _ _ R) as [(k & Hk & Ek)| ->].
  - apply nth_error_In in Hk. apply Hn. cbn [global_menu cmd_kids In] in Hk. unfold reserved. cbn [In].
    destruct Hk as [<-|[<-|[<-|[<-|[]]]]]; cbn [cmd_name] in Ek; auto.
  - inversion R; subst; cbn in *; congruence.
Qed.

Lemma leads_resolves ctx words t : ~ In (hd [] words) reserved -> leads ctx words t -> ~ unusable E t -> resolves E ctx words t.
Proof.
  intros Hn (p & R & F) U. right. split; [apply not_reserved; exact Hn|]. exists p. split; [exact R|]. split; [exact U|].
  intros p' t' R' B. exfalso. exact (F _ _ R' B).
Qed.

(** Some text converts to each passable value, and only to these. *)
Lemma passable_text t v : strict (e_plat E) = false -> passable E t v -> exists s, s <> [] /\ convert E t s = COk v.
Proof.
  intros Hp H. destruct t as [i| | | |r|n d]; destruct v as [z|b|c|s|x|x|l]; cbn [passable] in H; try contradiction.
  - exists (print_Z z). assert (T : int_text i (print_Z z) z).
    { split; [|exact H]. destruct (print_Z_text z) as [D|[D|D]]; [left; exact D|right; left; exact D|].
      destruct D as (r & Er & D). destruct (Z.leb_spec 0 z) as [L|L].
      - unfold print_Z in Er. destruct (Z.ltb_spec z 0); [lia|]. left.
        destruct (print_Z_text z) as [D'|[(r' & Er' & D')|(r' & Er' & D')]]; [exact D'|exfalso|exfalso].
        + unfold print_Z in Er'. destruct (Z.ltb_spec z 0); [lia|]. congruence.
        + pose proof (digits_nonneg _ _ (proj2 D')) as Hz. assert (z = 0%Z) as -> by lia. discriminate Er'.
      - right. right. split; [|eauto]. destruct i; cbn [int_range fst] in H; try lia; cbn; auto 10. }
    split.
    + intros En. rewrite En in T. destruct T as [[(N & _)|[(r & Er & _)|(_ & r & Er & _)]] _]; congruence.
    + cbn [convert]. unfold cmap.
      assert (int_from_string (e_plat E) i (print_Z z) = COk z) as ->; [|reflexivity].
      apply int_types; [right; apply print_Z_plain|left; exact Hp|exact T].
  - exists (if b then lit "true" else lit "false"). split; [destruct b; discriminate|]. destruct b; reflexivity.
  - exists [c]. split; [discriminate|]. cbn [convert]. unfold cmap. rewrite (proj2 (char_exact [c] c) eq_refl). reflexivity.
  - exists s. split; [exact H|reflexivity].
  - destruct H as (s & Hs & Hr & Hw & Hx). exists s. split; [exact Hs|]. cbn [convert]. unfold cmap.
    rewrite (proj2 (proj1 (float_exact _ (e_real E r) (e_plat E) s (readable_safe _ _ Hr)) x) (conj Hw Hx)). reflexivity.
  - destruct H as (s & rest & Hs & Hx & Hw). exists s. split; [exact Hs|]. cbn [convert]. unfold cmap.
    rewrite (proj2 (custom_exact _ (e_custom E n) s x)); [reflexivity|eauto].
Qed.
Lemma text_passable t v s : strict (e_plat E) = false -> readable (e_plat E) s -> s <> [] -> convert E t s = COk v -> passable E t v.
Proof.
  intros Hp Hr Hs H. destruct t as [i| | | |r|n d]; cbn [convert] in H; unfold cmap, cbind in H.
  - destruct (int_from_string (e_plat E) i s) as [z| |] eqn:Ez; try discriminate. injection H as <-. cbn [passable].
    apply (int_types (e_plat E) i s Hr (or_introl Hp)) in Ez. exact (proj2 Ez).
  - destruct (bool_from_string (e_plat E) s) as [b| |]; try discriminate. injection H as <-. exact Logic.I.
  - destruct (char_from_string s) as [c| |]; try discriminate. injection H as <-. exact Logic.I.
  - injection H as <-. exact Hs.
  - destruct (float_from_string (e_plat E) (e_real E r) s) as [x| |] eqn:Ex; try discriminate. injection H as <-. cbn [passable].
    apply (float_exact _ (e_real E r) (e_plat E) s (readable_safe _ _ Hr)) in Ex as [Hw Hx]. eauto.
  - destruct (custom_from_string (e_custom E n) s) as [x| |] eqn:Ex; try discriminate. injection H as <-. cbn [passable].
    apply custom_exact in Ex as (rest & Hx & Hw). eauto.
Qed.

Lemma passable_texts pars vs : strict (e_plat E) = false -> Forall2 (passable E) pars vs ->
  exists args, Forall (fun a => a <> []) args /\ converts E pars args vs /\ length args = length pars.
Proof.
  intros Hp. induction 1 as [|t v ts vs H _ IH]; [exists []; repeat constructor|].
  destruct IH as (args & F & C & L). destruct (passable_text t v Hp H) as (s & Hs & Hc).
  exists (s :: args). split; [constructor; auto|]. split; [constructor; auto|cbn; congruence].
Qed.
Lemma texts_passable pars args vs : strict (e_plat E) = false -> Forall (fun a => readable (e_plat E) a /\ a <> []) args ->
  converts E pars args vs -> Forall2 (passable E) pars vs.
Proof.
  intros Hp F C. induction C as [|p ps s ss v vs Hc C IH]; [constructor|]. inversion F as [|? ? [Hr Hs] F']; subst.
  constructor; [eapply text_passable; eauto|auto].
Qed.

(** Any words are the words of some line. *)
Lemma words_line words : Forall (fun a => a <> []) words -> exists line, split line = Some words.
Proof.
  intros F. exists (quoted_line (map (fun a => (lit " ", """"%char, a)) words) []).
  rewrite quoting_round_trip_nonempty.
  - rewrite map_map. cbn. rewrite map_id. reflexivity.
  - apply Forall_forall. intros x Hx. apply in_map_iff in Hx as (a & <- & Ha). rewrite Forall_forall in F.
    split; [repeat constructor|]. split; [left; reflexivity|exact (F a Ha)].
  - constructor.
Qed.
Lemma line_recorded size w words : size >= 1 -> reachable size (w_hist w) -> words <> [] -> Forall (fun a => a <> []) words ->
  exists line w0, recorded line w words w0.
Proof.
  intros Hs Hr Hn F. destruct (words_line words F) as [line Hl]. destruct (reachable_inv size _ Hs Hr) as [I M]. rewrite <- M in Hs.
  destruct (new_command_inv (w_hist w) line I Hs) as (h' & Hc & _). exists line, (set_hist h' w).
  split; [exact Hl|]. split; [exact Hn|]. exists h'. auto.
Qed.

(** ** All together *)
Lemma below_words m ws c : named_by m ws c -> well_named m -> ws <> [] /\ Forall (fun a => a <> []) ws /\ ~ In (hd [] ws) reserved.
Proof.
  induction 1 as [m k He Hin Hk|m s ws c He Hin Hs Hb IH]; intros W; destruct (every_here _ _ W) as [_ F]; rewrite Forall_forall in F.
  - destruct (F k Hin) as (N1 & _ & N3). split; [discriminate|]. split; [repeat constructor; exact N1|exact N3].
  - destruct (F s Hin) as (N1 & _ & N3). destruct (IH (every_kid _ _ _ W Hin)) as (_ & F' & _).
    split; [discriminate|]. split; [constructor; auto|exact N3].
Qed.

Lemma route size w l m anc ws c : size >= 1 -> reachable size (w_hist w) -> well_named (w_root w) ->
  in_menu w (l ++ m :: anc) -> Forall (fun x => cmd_en x = true) l -> named_by m ws c ->
  forall args t, means c args t -> ~ unusable E t -> Forall (fun a => a <> []) args ->
  exists line w0, recorded line w (repeat (lit "..") (length l) ++ ws ++ args) w0 /\
    resolves E (l ++ m :: anc) (repeat (lit "..") (length l) ++ ws ++ args) t.
Proof.
  intros Hs Hr W [Hc _] En Hb args t M U Fa.
  pose proof (chain_named _ _ Hc W) as Wc. pose proof (chain_menus _ _ Hc) as Mc.
  apply Forall_app in Wc as [Wl Wm]. inversion Wm as [|? ? Wm' _]; subst.
  destruct (below_words _ _ _ Hb Wm') as (Hne & Fw & Hres).
  destruct (line_recorded size w (repeat (lit "..") (length l) ++ ws ++ args) Hs Hr) as (line & w0 & Rec).
  { destruct l; [cbn; destruct ws; [congruence|discriminate]|discriminate]. }
  { apply Forall_app. split; [apply Forall_forall; intros x Hx; apply repeat_spec in Hx as ->; discriminate|]. apply Forall_app. auto. }
  exists line, w0. split; [exact Rec|]. apply leads_resolves; [|apply climb_leads; [|exact Mc|]|exact U].
  - destruct l as [|x l]; cbn [length repeat app hd].
    + destruct ws as [|a ws]; [congruence|exact Hres].
    + unfold reserved. cbn [In]. intros [H|[H|[H|[H|[]]]]]; discriminate.
  - apply Forall_forall. intros x Hx. rewrite Forall_forall in En, Wl. split; [auto|].
    destruct (every_here _ _ (Wl x Hx)) as [_ F]. rewrite Forall_forall in F |- *. intros k Hk. exact (proj1 (proj2 (F k Hk))).
  - apply below_leads with (c := c); auto.
Qed.

(** ** No function is called with an empty string *)
Definition good (w w' : world) : Prop := exists evs, w_trace w' = w_trace w ++ evs /\ Forall full_call evs.
Lemma good_refl w : good w w.
Proof. exists []. rewrite app_nil_r. auto. Qed.
Lemma good_trans a b c : good a b -> good b c -> good a c.
Proof.
  intros (e1 & H1 & F1) (e2 & H2 & F2). exists (e1 ++ e2). rewrite H2, H1, app_assoc. split; [reflexivity|]. apply Forall_app. auto.
Qed.
Lemma grows_good a b : grows 0 a b -> good a b.
Proof.
  intros (evs & H & C). exists evs. split; [exact H|]. clear H. induction evs as [|e l IH]; [constructor|].
  unfold calls in *. cbn [filter] in C. destruct e; cbn [is_call length] in C; try lia; (constructor; [exact Logic.I|apply IH; exact C]).
Qed.
Lemma call_good sid u vs w : Forall no_empty vs -> good w (log (EvCall sid u vs) w).
Proof. intros F. exists [EvCall sid u vs]. split; [reflexivity|]. repeat constructor. exact F. Qed.
Lemma call_user_good u vs w : Forall no_empty vs -> good w (snd (call_user E u vs w)).
Proof.
  intros F. unfold call_user. cbn [snd]. eapply good_trans; [apply call_good; exact F|apply grows_good, apply_ops_grows].
Qed.

Definition e_good (w : world) (r : eres) : Prop := match r with EDone _ w' | EExc _ w' => good w w' | _ => True end.
Definition h_good (w : world) (r : hres) : Prop := match r with HOk w' | HExc _ w' => good w w' | _ => True end.
Definition f_good (w : world) (r : fres) : Prop := match r with FOk w' | FExc _ w' => good w w' | _ => True end.

Lemma e_bind_good w r f : e_good w r -> (forall w', e_good w' (f w')) -> e_good w (e_bind r f).
Proof.
  intros Hr Hf. destruct r as [[] w'|x w'| |]; cbn in *; auto.
  specialize (Hf w'). destruct (f w') as [b w2|x w2| |]; cbn in *; auto; eapply good_trans; eassumption.
Qed.

Definition t_args (t : target) : list str := match t with TRun _ _ args | TFree _ args => args | TGoto _ => [] end.
Lemma reading_args ctx toks p t : reading ctx toks p t -> incl (t_args t) toks.
Proof.
  induction 1; cbn [t_args]; intros x Hx; try (right; exact Hx); try contradiction; right; auto.
Qed.

Lemma converted_full ps : forall ss vs, ~ In [] ss -> convert_all E ps ss = COk vs -> Forall no_empty vs.
Proof.
  induction ps as [|p ps IH]; intros ss vs Hn H; [injection H as <-; constructor|].
  destruct ss as [|s ss]; [injection H as <-; constructor|]. cbn [convert_all] in H. unfold cbind at 1 in H.
  destruct (convert E p s) as [v| |] eqn:Hv; try discriminate. unfold cmap, cbind in H.
  destruct (convert_all E ps ss) as [vs'| |] eqn:Hvs; try discriminate. injection H as <-. constructor.
  - destruct p; cbn [convert] in Hv; unfold cmap, cbind in Hv;
      try (match type of Hv with context [match ?x with _ => _ end] => destruct x end; try discriminate; injection Hv as <-; exact Logic.I).
    injection Hv as <-. cbn. intros ->. apply Hn. left. reflexivity.
  - eapply IH; [|exact Hvs]. intros Hi. apply Hn. right. exact Hi.
Qed.

Lemma attempt_good bi t w : ~ In [] (t_args t) -> (forall h args w, h_good w (bi h args w)) -> e_good w (attempt E bi t w).
Proof.
  intros Hn Hb. destruct t as [h pars args|h args|id]; cbn [attempt t_args] in *.
  - destruct (convert_all E pars args) as [vs| |] eqn:Hc; [|apply good_refl|exact Logic.I].
    pose proof (converted_full _ _ _ Hn Hc) as F. unfold run_fn.
    assert (Hbi : e_good w (match bi h vs w with
        | HOk w' => EDone true w' | HExc (XBadCast _) w' => EDone false w' | HExc x w' => EExc x w'
        | HUB => EUB | HFuel => EFuel end)).
    { specialize (Hb h vs w). destruct (bi h vs w) as [w'|[s|s|] w'| |]; cbn in *; auto. }
    destruct h as [u| | | |]; try exact Hbi.
    pose proof (call_user_good u vs w F) as G. destruct (call_user E u vs w) as (r, w'). cbn [snd] in G.
    destruct (ur_end r) as [|[s|s|]]; cbn; auto. destruct (existsb is_tree_op (ur_ops r)); cbn; auto.
  - unfold run_free. destruct h as [u| | | |]; try exact Logic.I.
    pose proof (call_user_good u [VList args] w) as G. destruct (call_user E u [VList args] w) as (r, w'). cbn [snd] in G.
    destruct (ur_end r); cbn; apply G; repeat constructor; exact Hn.
  - exists []. rewrite app_nil_r. auto.
Qed.
Lemma attempts_good bi l : Forall (fun x => ~ In [] (t_args (snd x))) l -> (forall h args w, h_good w (bi h args w)) ->
  forall w, e_good w (attempts E bi l w).
Proof.
  intros F Hb. induction F as [|x l Hx F IH]; intros w; cbn [attempts]; [apply good_refl|].
  apply e_bind_good; [apply attempt_good; assumption|exact IH].
Qed.
Lemma scan_good bi toks ctx w : toks <> [] -> ~ In [] toks -> (forall h args w, h_good w (bi h args w)) -> e_good w (scan E bi toks ctx w).
Proof.
  intros Hne Hn Hb. rewrite scan_attempts by exact Hne. apply attempts_good; [|exact Hb].
  apply Forall_forall. intros (p, t) Hi Hin. apply in_choices in Hi; [|exact Hne]. apply Hn. exact (reading_args _ _ _ _ Hi _ Hin).
Qed.

Lemma hook_good k args w : h_good w (run_hook E k args w).
Proof.
  pose proof (run_hook_grows E k args w) as H. destruct (run_hook E k args w); cbn in *; auto; apply grows_good; exact H.
Qed.
Lemma builtin_good rec : (forall line w, f_good w (rec line w)) -> forall h args w, h_good w (builtin E rec h args w).
Proof.
  intros Hg h args w. destruct h as [u| | | |]; cbn [builtin].
  - destruct args as [|[] [|]]; exact Logic.I.
  - destruct (help_text w); [|exact Logic.I]. apply grows_good, grows_log. reflexivity.
  - pose proof (session_exit_grows E w) as H. destruct (session_exit E w); cbn in *; auto; apply grows_good; exact H.
  - destruct (show (w_hist w)); cbn; apply grows_good; [apply grows_log; reflexivity|apply grows_refl].
  - destruct args as [|[n| | | | | |] [|]]; try exact Logic.I.
    destruct (forget_latest (w_hist w)) as [h'|]; [|exact Logic.I].
    destruct (at_id h' n) as [l| |]; cbn; auto; [|apply grows_good, set_hist_grows].
    specialize (Hg l (set_hist h' w)). destruct (rec l (set_hist h' w)) as [w2|x w2| |]; cbn in *; auto.
Qed.
Lemma dispatch_good bi toks line w : toks <> [] -> ~ In [] toks -> (forall h args w, h_good w (bi h args w)) ->
  e_good w (dispatch E bi toks line w).
Proof.
  intros Hne Hn Hb. unfold dispatch. apply e_bind_good; [apply scan_good; assumption|]. intros w1.
  destruct (locate (w_cur w1) [] (w_root w1)) as [ctx|]; [|exact Logic.I].
  apply e_bind_good; [apply scan_good; auto; intros; exact Logic.I|]. intros w2.
  assert (H : h_good w2 (wrong_command E line w2)).
  { unfold wrong_command. destruct (e_has E KWrong); [apply hook_good|]. apply grows_good, grows_log. reflexivity. }
  destruct (wrong_command E line w2); cbn in *; auto.
Qed.
Lemma feed_good fuel : forall line w, f_good w (feed E fuel line w).
Proof.
  induction fuel as [|fuel IH]; intros line w; [exact Logic.I|]. cbn [feed].
  destruct (split_safe line) as (toks & Hs & Hn).
  destruct toks as [|t toks]; [unfold feed_body; rewrite Hs; apply good_refl|].
  destruct (new_command (w_hist w) line) as [h|] eqn:Hh; [|unfold feed_body; rewrite Hs, Hh; exact Logic.I].
  rewrite (feed_body_spec E (feed E fuel) line w (t :: toks) (set_hist h w)).
  2:{ split; [exact Hs|]. split; [discriminate|]. exists h. auto. }
  pose proof (dispatch_good (builtin E (feed E fuel)) (t :: toks) line (set_hist h w) ltac:(discriminate) Hn (builtin_good _ IH)) as H.
  destruct (dispatch _ _ _ _ _) as [b w'|x w'| |]; cbn [finish f_good e_good] in *; auto.
  pose proof (report_grows E line x w') as Hr. destruct (report E line x w') as [w2|y w2| |]; cbn in *; auto;
    (apply (good_trans _ w'); [exact H|apply grows_good; exact Hr]).
Qed.
End Env.
