(** * Proofs about the tokeniser: the model of SplitModel.v implements the
    grammar of SplitSpec.v. *)

From Verif Require Import Base SplitModel SplitSpec.

(** ** Character classes *)
Lemma is_blank_spec c : is_blank c = true <-> blank c.
Proof.
  unfold is_blank, blank. rewrite !orb_true_iff, !Ascii.eqb_eq. tauto.
Qed.
Lemma is_blank_false c : is_blank c = false <-> ~ blank c.
Proof. rewrite <- is_blank_spec. destruct (is_blank c); split; congruence. Qed.
Lemma is_quote_spec c : is_quote c = true <-> quote c.
Proof. unfold is_quote, quote. rewrite !orb_true_iff, !Ascii.eqb_eq. tauto. Qed.
Lemma is_quote_false c : is_quote c = false <-> ~ quote c.
Proof. rewrite <- is_quote_spec. destruct (is_quote c); split; congruence. Qed.
Lemma is_backslash_false c : is_backslash c = false <-> c <> backslash.
Proof. unfold is_backslash, backslash. apply Ascii.eqb_neq. Qed.
Lemma is_bang_false c : is_bang c = false <-> c <> bang.
Proof. unfold is_bang, bang. apply Ascii.eqb_neq. Qed.

Lemma quote_not_blank q : quote q -> is_blank q = false.
Proof. intros [-> | ->]; reflexivity. Qed.
Lemma quote_not_bang q : quote q -> is_bang q = false.
Proof. intros [-> | ->]; reflexivity. Qed.
Lemma quote_is_quote q : quote q -> is_quote q = true.
Proof. apply is_quote_spec. Qed.

Lemma stype_of_eq q c : quote q -> quote c ->
  stype_eqb (stype_of c) (stype_of q) = true <-> c = q.
Proof. intros [-> | ->] [-> | ->]; cbn; split; congruence. Qed.

Lemma esc_val c :
  (if negb (Ascii.eqb c """") && negb (Ascii.eqb c "'") && negb (Ascii.eqb c "\")
   then ["\"%char; c] else [c]) = piece_val (Esc c).
Proof.
  unfold piece_val, escapable, backslash.
  destruct (Ascii.eqb_spec c """"); destruct (ascii_dec c """"); try congruence; cbn; [reflexivity|].
  destruct (Ascii.eqb_spec c "'"); destruct (ascii_dec c "'"); try congruence; cbn; [reflexivity|].
  destruct (Ascii.eqb_spec c "\"); destruct (ascii_dec c "\"); try congruence; cbn; reflexivity.
Qed.

(** ** Token vectors *)
Lemma back_append_snoc v w x : back_append (v ++ [w]) x = Some (v ++ [w ++ x]).
Proof.
  unfold back_append. rewrite rev_app_distr. cbn. rewrite rev_involutive. reflexivity.
Qed.

Lemma nonempty_app a b : nonempty (a ++ b) = nonempty a ++ nonempty b.
Proof. induction a as [|[|c x] a IH]; cbn; [reflexivity|assumption|rewrite IH; reflexivity]. Qed.

Lemma remove_empty_app a b : remove_empty (a ++ b) = remove_empty a ++ remove_empty b.
Proof.
  unfold remove_empty. induction a as [|x a IH]; cbn; [reflexivity|].
  destruct (negb (is_empty x)); cbn; rewrite IH; reflexivity.
Qed.
Lemma remove_empty_nonempty v : remove_empty v = nonempty v.
Proof.
  unfold remove_empty. induction v as [|[|c x] v IH]; cbn; [reflexivity|assumption|rewrite IH; reflexivity].
Qed.
Lemma nonempty_in x v : In x (nonempty v) -> x <> [].
Proof.
  induction v as [|[|c y] v IH]; cbn; [tauto|assumption|].
  intros [<-|H]; [discriminate|auto].
Qed.

(** ** Running the machine *)
Lemma run_text_app t a b :
  run_text t (a ++ b) =
  match run_text t a with None => None | Some t' => run_text t' b end.
Proof.
  revert t. induction a as [|c a IH]; intro t; cbn [app run_text]; [reflexivity|].
  destruct (eval t c); [apply IH|reflexivity].
Qed.

Lemma pieces_src_cons p ps : pieces_src (p :: ps) = piece_src p ++ pieces_src ps.
Proof. reflexivity. Qed.
Lemma pieces_val_cons p ps : pieces_val (p :: ps) = piece_val p ++ pieces_val ps.
Proof. reflexivity. Qed.

Lemma run_esc st p ty v w c :
  (st = Word \/ st = Sentence) ->
  run_text (mkText Escape st ty (v ++ [w])) [c] =
  Some (mkText st st ty (v ++ [w ++ piece_val (Esc c)])) /\
  run_text (mkText st p ty (v ++ [w])) (piece_src (Esc c)) =
  Some (mkText st st ty (v ++ [w ++ piece_val (Esc c)])).
Proof.
  intro H.
  assert (E : run_text (mkText Escape st ty (v ++ [w])) [c] =
              Some (mkText st st ty (v ++ [w ++ piece_val (Esc c)]))).
  { cbn [run_text]. unfold eval; cbn [t_state]. unfold eval_escape; cbn [t_res t_prev t_stype].
    rewrite esc_val, back_append_snoc. reflexivity. }
  split; [exact E|].
  cbn [piece_src]. change [backslash; c] with ([backslash] ++ [c]).
  rewrite run_text_app.
  destruct H as [-> | ->]; exact E.
Qed.

Lemma run_plain_word p ty v w c :
  ~ blank c /\ ~ quote c /\ c <> backslash /\ c <> bang ->
  run_text (mkText Word p ty (v ++ [w])) [c] = Some (mkText Word p ty (v ++ [w ++ [c]])).
Proof.
  intros (Hb & Hq & Hs & Hn). cbn [run_text]. unfold eval; cbn [t_state]. unfold eval_word.
  rewrite (proj2 (is_blank_false c) Hb), (proj2 (is_bang_false c) Hn),
    (proj2 (is_quote_false c) Hq), (proj2 (is_backslash_false c) Hs).
  cbn [t_res]. rewrite back_append_snoc. reflexivity.
Qed.

Lemma run_plain_sentence q p v w c :
  quote q -> c <> q /\ c <> backslash ->
  run_text (mkText Sentence p (stype_of q) (v ++ [w])) [c] =
  Some (mkText Sentence p (stype_of q) (v ++ [w ++ [c]])).
Proof.
  intros Hq (Hc & Hs). cbn [run_text]. unfold eval; cbn [t_state]. unfold eval_sentence.
  cbn [t_res t_stype].
  destruct (is_quote c) eqn:E.
  - apply is_quote_spec in E.
    destruct (stype_eqb (stype_of c) (stype_of q)) eqn:F.
    + apply stype_of_eq in F; [contradiction|assumption|assumption].
    + rewrite back_append_snoc. reflexivity.
  - rewrite (proj2 (is_backslash_false c) Hs), back_append_snoc. reflexivity.
Qed.

Lemma run_bare ps : Forall bare_piece ps -> forall p ty v w,
  exists p', run_text (mkText Word p ty (v ++ [w])) (pieces_src ps) =
             Some (mkText Word p' ty (v ++ [w ++ pieces_val ps])).
Proof.
  induction 1 as [|x ps Hx _ IH]; intros p ty v w.
  - exists p. cbn. rewrite app_nil_r. reflexivity.
  - rewrite pieces_src_cons, run_text_app, pieces_val_cons, app_assoc.
    destruct x as [c|c].
    + cbn [piece_src piece_val]. rewrite run_plain_word by exact Hx. apply IH.
    + rewrite (proj2 (run_esc Word p ty v w c (or_introl eq_refl))). apply IH.
Qed.

Lemma run_sentence q ps : quote q -> Forall (sentence_piece q) ps -> forall p v w,
  exists p', run_text (mkText Sentence p (stype_of q) (v ++ [w])) (pieces_src ps) =
             Some (mkText Sentence p' (stype_of q) (v ++ [w ++ pieces_val ps])).
Proof.
  intro Hq. induction 1 as [|x ps Hx _ IH]; intros p v w.
  - exists p. cbn. rewrite app_nil_r. reflexivity.
  - rewrite pieces_src_cons, run_text_app, pieces_val_cons, app_assoc.
    destruct x as [c|c].
    + cbn [piece_src piece_val]. rewrite run_plain_sentence by assumption. apply IH.
    + rewrite (proj2 (run_esc Sentence p (stype_of q) v w c (or_intror eq_refl))). apply IH.
Qed.

(** A bare word started from the [Space] state. *)
Lemma run_bare_start ps : ps <> [] -> Forall bare_piece ps -> forall p ty v,
  exists p', run_text (mkText Space p ty v) (pieces_src ps) =
             Some (mkText Word p' ty (v ++ [pieces_val ps])).
Proof.
  intros Hne H p ty v. destruct H as [|x ps Hx Hps]; [contradiction|].
  rewrite pieces_src_cons, pieces_val_cons, run_text_app.
  destruct x as [c|c].
  - cbn [piece_src piece_val].
    assert (E : run_text (mkText Space p ty v) [c] = Some (mkText Word p ty (v ++ [[c]]))).
    { destruct Hx as (Hb & Hq & Hs & Hn). cbn [run_text]. unfold eval; cbn [t_state].
      unfold eval_space.
      rewrite (proj2 (is_blank_false c) Hb), (proj2 (is_bang_false c) Hn),
        (proj2 (is_quote_false c) Hq), (proj2 (is_backslash_false c) Hs). reflexivity. }
    rewrite E. apply run_bare. exact Hps.
  - cbn [piece_src]. change [backslash; c] with ([backslash] ++ [c]). rewrite run_text_app.
    change (run_text (mkText Space p ty v) [backslash]) with
      (Some (mkText Escape Word ty (v ++ [[]]))).
    cbv iota beta. rewrite (proj1 (run_esc Word p ty v [] c (or_introl eq_refl))).
    apply (run_bare ps Hps Word ty v (piece_val (Esc c))).
Qed.

(** Opening a quoted sentence, from [Space] or [Word]. *)
Lemma run_open st p ty v q : quote q -> st = Space \/ st = Word ->
  run_text (mkText st p ty v) [q] = Some (mkText Sentence p (stype_of q) (v ++ [[]])).
Proof. intros [-> | ->] [-> | ->]; reflexivity. Qed.

Lemma run_close p v q : quote q ->
  run_text (mkText Sentence p (stype_of q) v) [q] = Some (mkText Space p (stype_of q) v).
Proof. intros [-> | ->]; reflexivity. Qed.

(** [ready st b]: the machine can start an item; [b] tells whether it is bare. *)
Definition ready (st : tstate) (b : bool) : Prop := st = Space \/ (st = Word /\ b = false).

Lemma run_item i : wf_item i -> forall st p ty v, ready st (is_bare i) ->
  exists p' ty' v',
    run_text (mkText st p ty v) (item_src i) =
      Some (mkText (if is_bare i then Word else Space) p' ty' v') /\
    nonempty v' = nonempty v ++ nonempty [item_val i].
Proof.
  intros Hi st p ty v Hr. destruct i as [c| |ps|q ps]; cbn [item_src item_val is_bare] in *.
  - exists p, ty, v. split; [|cbn; rewrite app_nil_r; reflexivity].
    destruct Hi as [-> | [-> | ->]]; destruct Hr as [-> | [-> _]]; reflexivity.
  - exists p, ty, (v ++ [[bang]]). split; [|rewrite nonempty_app; reflexivity].
    destruct Hr as [-> | [-> _]]; reflexivity.
  - destruct Hr as [-> | [_ Hf]]; [|discriminate Hf].
    destruct Hi as [Hne Hps].
    destruct (run_bare_start ps Hne Hps p ty v) as [p' E].
    exists p', ty, (v ++ [pieces_val ps]). split; [exact E|]. apply nonempty_app.
  - destruct Hi as [Hq Hps].
    change (q :: pieces_src ps ++ [q]) with ([q] ++ (pieces_src ps ++ [q])).
    rewrite run_text_app, run_open by (try assumption; destruct Hr as [H|[H _]]; auto).
    rewrite run_text_app.
    destruct (run_sentence q ps Hq Hps p v []) as [p' E]. rewrite E.
    rewrite run_close by assumption.
    eexists _, _, _. split; [reflexivity|]. cbn [app]. rewrite nonempty_app. reflexivity.
Qed.

Lemma run_tail t : wf_tail t -> forall st p ty v, ready st (is_bare_tail t) ->
  exists T, run_text (mkText st p ty v) (tail_src t) = Some T /\
            nonempty (t_res T) = nonempty v ++ nonempty [tail_val t].
Proof.
  intros Ht st p ty v Hr. destruct t as [|ps|q ps|q ps]; cbn [tail_src tail_val is_bare_tail] in *.
  - eexists; split; [reflexivity|]. cbn. rewrite app_nil_r. reflexivity.
  - destruct Hr as [-> | [_ Hf]]; [|discriminate Hf].
    rewrite run_text_app. destruct ps as [|x ps].
    + eexists; split; [reflexivity|]. cbn [t_res]. rewrite nonempty_app. reflexivity.
    + destruct (run_bare_start (x :: ps) ltac:(discriminate) Ht p ty v) as [p' E].
      rewrite E. eexists; split; [reflexivity|]. cbn [t_res]. apply nonempty_app.
  - destruct Ht as [Hq Hps]. change (q :: pieces_src ps) with ([q] ++ pieces_src ps).
    rewrite run_text_app, run_open by (try assumption; destruct Hr as [H|[H _]]; auto).
    destruct (run_sentence q ps Hq Hps p v []) as [p' E]. rewrite E.
    eexists; split; [reflexivity|]. cbn [t_res]. apply nonempty_app.
  - destruct Ht as [Hq Hps].
    change (q :: pieces_src ps ++ [backslash]) with ([q] ++ (pieces_src ps ++ [backslash])).
    rewrite run_text_app, run_open by (try assumption; destruct Hr as [H|[H _]]; auto).
    rewrite run_text_app.
    destruct (run_sentence q ps Hq Hps p v []) as [p' E]. rewrite E.
    eexists; split; [reflexivity|]. cbn [t_res]. apply nonempty_app.
Qed.

Definition head_bare (l : list item) (t : tail_) : bool :=
  match l with [] => is_bare_tail t | i :: _ => is_bare i end.

Lemma run_line t : wf_tail t -> forall l, Forall wf_item l -> munch l t ->
  forall st p ty v, ready st (head_bare l t) ->
  exists T, run_text (mkText st p ty v) (line_src l t) = Some T /\
            nonempty (t_res T) = nonempty v ++ line_tokens l t.
Proof.
  intros Ht. induction l as [|i l IH]; intros Hl Hm st p ty v Hr.
  - apply run_tail; assumption.
  - inversion Hl as [|x y Hi Hl' E]; subst x y. destruct Hm as [Hm1 Hm2].
    unfold line_src. cbn [map concat]. rewrite <- app_assoc, run_text_app.
    destruct (run_item i Hi st p ty v Hr) as (p' & ty' & v' & E1 & E2). rewrite E1.
    destruct (IH Hl' Hm2 (if is_bare i then Word else Space) p' ty' v') as (T & E3 & E4).
    { destruct (is_bare i) eqn:B; [right; split; [reflexivity|]|left; reflexivity].
      destruct l as [|j l]; cbn [head_bare]; apply Hm1; reflexivity. }
    exists T. split; [exact E3|]. rewrite E4, E2, <- app_assoc. f_equal.
    unfold line_tokens. rewrite <- nonempty_app. reflexivity.
Qed.

Lemma split_line l t : wf_line l t -> split (line_src l t) = Some (line_tokens l t).
Proof.
  intros (Hl & Ht & Hm). unfold split, text_reset.
  destruct (run_line t Ht l Hl Hm Space Space DoubleQuote [] (or_introl eq_refl)) as (T & E & F).
  rewrite E, remove_empty_nonempty, F. reflexivity.
Qed.

(** ** Every line has a reading *)
Lemma sentence_reading q n : forall s, length s <= n ->
  exists ps, Forall (sentence_piece q) ps /\
    (s = pieces_src ps \/ s = pieces_src ps ++ [backslash] \/
     exists r, s = pieces_src ps ++ q :: r).
Proof.
  induction n as [|n IH]; intros s Hs.
  - destruct s; [|cbn in Hs; lia]. exists []. split; [constructor|left; reflexivity].
  - destruct s as [|c s]; [exists []; split; [constructor|left; reflexivity]|].
    cbn in Hs.
    destruct (ascii_dec c q) as [->|Hq].
    { exists []. split; [constructor|]. right; right. exists s. reflexivity. }
    destruct (ascii_dec c backslash) as [->|Hb].
    + destruct s as [|d s].
      { exists []. split; [constructor|]. right; left. reflexivity. }
      destruct (IH s ltac:(cbn in Hs; lia)) as (ps & Hps & H).
      exists (Esc d :: ps). split; [constructor; [exact I|assumption]|].
      rewrite pieces_src_cons. cbn [piece_src app].
      destruct H as [-> | [-> | [r ->]]]; [left|right; left|right; right; exists r]; reflexivity.
    + destruct (IH s ltac:(lia)) as (ps & Hps & H).
      exists (Plain c :: ps). split; [constructor; [split; assumption|assumption]|].
      rewrite pieces_src_cons. cbn [piece_src app].
      destruct H as [-> | [-> | [r ->]]]; [left|right; left|right; right; exists r]; reflexivity.
Qed.

(** Putting a bare piece in front of a reading. *)
Lemma prepend_piece x l t : bare_piece x -> wf_line l t ->
  exists l' t', wf_line l' t' /\ line_src l' t' = piece_src x ++ line_src l t.
Proof.
  intros Hx (Hl & Ht & Hm).
  destruct l as [|i l].
  - destruct t as [|ps|q ps|q ps].
    + exists [Bare [x]], TNone. split; [|unfold line_src, pieces_src; cbn; rewrite !app_nil_r; reflexivity].
      repeat split; try constructor; try (split; [discriminate|repeat constructor; assumption]); constructor.
    + exists [], (TBareBs (x :: ps)). split.
      * repeat split; [constructor|constructor; assumption].
      * unfold line_src. cbn [map concat app tail_src]. rewrite pieces_src_cons, <- app_assoc. reflexivity.
    + exists [Bare [x]], (TOpen q ps). split.
      * repeat split; [|apply Ht|apply Ht].
        repeat constructor; [discriminate|assumption].
      * unfold line_src. cbn. rewrite !app_nil_r. reflexivity.
    + exists [Bare [x]], (TOpenBs q ps). split.
      * repeat split; [|apply Ht|apply Ht].
        repeat constructor; [discriminate|assumption].
      * unfold line_src. cbn. rewrite !app_nil_r. reflexivity.
  - assert (G : is_bare i = false ->
      exists l' t', wf_line l' t' /\ line_src l' t' = piece_src x ++ line_src (i :: l) t).
    { intro B. exists (Bare [x] :: i :: l), t. split.
      - repeat split; [|assumption| |apply Hm|apply Hm].
        + constructor; [|assumption]. split; [discriminate|]. repeat constructor; assumption.
        + intros _. exact B.
      - unfold line_src. cbn [map concat item_src pieces_src]. cbn [map concat].
        rewrite !app_nil_r, <- !app_assoc. reflexivity. }
    destruct i as [c| |ps|q ps]; [apply G; reflexivity|apply G; reflexivity| |apply G; reflexivity].
    exists (Bare (x :: ps) :: l), t. split.
    + inversion Hl as [|a b Hi Hl']; subst a b. destruct Hi as [Hne Hps].
      repeat split; [|assumption|apply Hm|apply Hm].
      constructor; [|assumption]. split; [discriminate|]. constructor; assumption.
    + unfold line_src. cbn [map concat item_src]. rewrite pieces_src_cons, <- !app_assoc. reflexivity.
Qed.

(** Putting a non-bare item in front of a reading. *)
Lemma prepend_item i l t : is_bare i = false -> wf_item i -> wf_line l t ->
  wf_line (i :: l) t /\ line_src (i :: l) t = item_src i ++ line_src l t.
Proof.
  intros B Hi (Hl & Ht & Hm). repeat split; [constructor; assumption|assumption| |assumption|].
  - destruct l; rewrite B; discriminate.
  - unfold line_src. cbn [map concat]. rewrite <- app_assoc. reflexivity.
Qed.

Lemma wf_nil t : wf_tail t -> wf_line [] t.
Proof. intro H. repeat split; [constructor|exact H]. Qed.

Lemma bare_dec c :
  {blank c} + {quote c} + {c = backslash} + {c = bang} +
  {~ blank c /\ ~ quote c /\ c <> backslash /\ c <> bang}.
Proof.
  destruct (is_blank c) eqn:E1; [left; left; left; left; apply is_blank_spec; assumption|].
  destruct (is_quote c) eqn:E2; [left; left; left; right; apply is_quote_spec; assumption|].
  destruct (ascii_dec c backslash) as [E3|E3]; [left; left; right; assumption|].
  destruct (ascii_dec c bang) as [E4|E4]; [left; right; assumption|].
  right. apply is_blank_false in E1. apply is_quote_false in E2. tauto.
Defined.

Lemma reading_exists_aux n : forall s, length s <= n ->
  exists l t, wf_line l t /\ line_src l t = s.
Proof.
  induction n as [|n IH]; intros s Hs.
  - destruct s; [|cbn in Hs; lia]. exists [], TNone. split; [apply wf_nil; exact I|reflexivity].
  - destruct s as [|c s]; [exists [], TNone; split; [apply wf_nil; exact I|reflexivity]|].
    cbn in Hs. destruct (bare_dec c) as [[[[H|H]|H]|H]|H].
    + destruct (IH s ltac:(lia)) as (l & t & W & <-).
      exists (Blank c :: l), t. apply prepend_item; [reflexivity|exact H|exact W].
    + destruct (sentence_reading c n s ltac:(lia)) as (ps & Hps & [-> | [-> | [r ->]]]).
      * exists [], (TOpen c ps). split; [apply wf_nil; split; assumption|reflexivity].
      * exists [], (TOpenBs c ps). split; [apply wf_nil; split; assumption|reflexivity].
      * destruct (IH r) as (l & t & W & <-).
        { rewrite app_length in Hs. cbn in Hs. lia. }
        exists (Quoted c ps :: l), t.
        destruct (prepend_item (Quoted c ps) l t eq_refl (conj H Hps) W) as [W' E].
        split; [exact W'|]. rewrite E. cbn [item_src app]. rewrite <- app_assoc. reflexivity.
    + subst c. destruct s as [|d s].
      * exists [], (TBareBs []). split; [apply wf_nil; constructor|reflexivity].
      * destruct (IH s ltac:(cbn in Hs; lia)) as (l & t & W & <-).
        apply (prepend_piece (Esc d) l t I W).
    + subst c. destruct (IH s ltac:(lia)) as (l & t & W & <-).
      exists (Bang :: l), t. apply prepend_item; [reflexivity|exact I|exact W].
    + destruct (IH s ltac:(lia)) as (l & t & W & <-).
      apply (prepend_piece (Plain c) l t H W).
Qed.

Lemma reading_exists s : exists l t, wf_line l t /\ line_src l t = s.
Proof. apply (reading_exists_aux (length s) s (le_n _)). Qed.

(** ** Safety *)
Lemma split_safe s : exists toks, split s = Some toks /\ ~ In [] toks.
Proof.
  destruct (reading_exists s) as (l & t & W & <-).
  exists (line_tokens l t). split; [apply split_line; exact W|].
  intro H. apply nonempty_in in H. congruence.
Qed.

(** ** Quoting *)
Fixpoint arg_pieces (s : str) : list piece :=
  match s with
  | [] => []
  | c :: s' => (if escapable c then Esc c else Plain c) :: arg_pieces s'
  end.

Lemma escapable_false c : escapable c = false -> ~ quote c /\ c <> backslash.
Proof.
  unfold escapable. destruct (ascii_dec c """"); [discriminate|].
  destruct (ascii_dec c "'"); [discriminate|].
  destruct (ascii_dec c backslash); [discriminate|].
  intros _. split; [|assumption]. intros [->| ->]; congruence.
Qed.

Lemma arg_pieces_ok q s : quote q -> Forall (sentence_piece q) (arg_pieces s).
Proof.
  intro Hq. induction s as [|c s IH]; cbn [arg_pieces]; constructor; [|exact IH].
  destruct (escapable c) eqn:E; [exact I|].
  apply escapable_false in E as [E1 E2]. split; [|exact E2]. intros ->. contradiction.
Qed.
Lemma arg_pieces_src s : pieces_src (arg_pieces s) = escape_arg s.
Proof.
  induction s as [|c s IH]; [reflexivity|].
  cbn [arg_pieces escape_arg]. rewrite pieces_src_cons, IH. destruct (escapable c); reflexivity.
Qed.
Lemma arg_pieces_val s : pieces_val (arg_pieces s) = s.
Proof.
  induction s as [|c s IH]; [reflexivity|].
  cbn [arg_pieces]. rewrite pieces_val_cons, IH.
  destruct (escapable c) eqn:E; cbn [piece_val]; rewrite ?E; reflexivity.
Qed.

Definition quoted_item (x : str * ascii * str) : list item :=
  match x with (sep, q, a) => map Blank sep ++ [Quoted q (arg_pieces a)] end.

Lemma munch_no_bare l t : (forall i, In i l -> is_bare i = false) -> munch l t.
Proof.
  induction l as [|i l IH]; cbn [munch]; [exact (fun _ => I)|].
  intro H. split; [|apply IH; intros j Hj; apply H; right; exact Hj].
  destruct l; rewrite (H i (or_introl eq_refl)); discriminate.
Qed.

Lemma nonempty_blanks sep : nonempty (map item_val (map Blank sep)) = [].
Proof. induction sep; cbn; auto. Qed.
Lemma concat_blanks sep : concat (map item_src (map Blank sep)) = sep.
Proof. induction sep as [|c sep IH]; cbn; [reflexivity|rewrite IH; reflexivity]. Qed.

Lemma quoting_round_trip args final :
  Forall (fun x => match x with (sep, q, a) => Forall blank sep /\ quote q end) args ->
  Forall blank final ->
  split (quoted_line args final) = Some (nonempty (map snd args)).
Proof.
  intros Ha Hf.
  set (l := concat (map quoted_item args) ++ map Blank final).
  assert (Hl : Forall wf_item l /\ forall i, In i l -> is_bare i = false).
  { assert (B : forall sep, Forall blank sep ->
        Forall wf_item (map Blank sep) /\ forall i, In i (map Blank sep) -> is_bare i = false).
    { intros sep Hs. split.
      - induction Hs; cbn; constructor; assumption.
      - intros i Hi. apply in_map_iff in Hi as (c & <- & _). reflexivity. }
    subst l. split.
    - apply Forall_app. split; [|apply B; exact Hf].
      induction Ha as [|[[sep q] a] args [Hs Hq] _ IH]; [constructor|].
      cbn [map concat quoted_item]. rewrite <- app_assoc. apply Forall_app. split; [apply B; exact Hs|].
      cbn [app]. constructor; [split; [exact Hq|apply arg_pieces_ok; exact Hq]|exact IH].
    - intros i Hi. apply in_app_or in Hi as [Hi|Hi]; [|apply (B _ Hf); exact Hi].
      apply in_concat in Hi as (y & Hy & Hi). apply in_map_iff in Hy as ([[sep q] a] & <- & Hin).
      cbn [quoted_item] in Hi. apply in_app_or in Hi as [Hi|[<-|[]]]; [|reflexivity].
      apply in_map_iff in Hi as (c & <- & _). reflexivity. }
  assert (Es : line_src l TNone = quoted_line args final).
  { subst l. unfold line_src. cbn [tail_src]. rewrite app_nil_r, map_app, concat_app, concat_blanks.
    clear. induction args as [|[[sep q] a] args IH]; [reflexivity|].
    cbn [map concat quoted_item quoted_line]. rewrite !map_app, !concat_app, concat_blanks, <- !app_assoc.
    f_equal. cbn [map concat item_src]. rewrite app_nil_r, arg_pieces_src.
    unfold quote_arg. cbn [app]. rewrite <- !app_assoc. f_equal. f_equal. cbn [app]. f_equal. exact IH. }
  rewrite <- Es, split_line.
  - f_equal. unfold line_tokens. rewrite nonempty_app. cbn [tail_val nonempty]. rewrite app_nil_r.
    subst l. rewrite map_app, nonempty_app, nonempty_blanks, app_nil_r. clear.
    induction args as [|[[sep q] a] args IH]; [reflexivity|].
    cbn [map concat quoted_item snd]. rewrite !map_app, !nonempty_app, nonempty_blanks.
    cbn [app map item_val]. rewrite arg_pieces_val, IH. destruct a; reflexivity.
  - repeat split; [apply Hl|]. apply munch_no_bare. apply Hl.
Qed.

(** ** Blanks *)
Lemma line_src_blank_app pre l t : line_src (map Blank pre ++ l) t = pre ++ line_src l t.
Proof. unfold line_src. rewrite map_app, concat_app, concat_blanks, app_assoc. reflexivity. Qed.

Lemma leading_blanks pre s : Forall blank pre -> split (pre ++ s) = split s.
Proof.
  intro H. destruct (reading_exists s) as (l & t & W & <-).
  assert (W' : wf_line (map Blank pre ++ l) t).
  { induction H as [|c pre Hc _ IH]; [exact W|].
    cbn [map app]. apply (prepend_item (Blank c)); [reflexivity|exact Hc|exact IH]. }
  rewrite <- line_src_blank_app, !split_line by assumption. f_equal.
  unfold line_tokens. rewrite map_app, <- app_assoc, nonempty_app, nonempty_blanks. reflexivity.
Qed.

Lemma munch_app_blank l post : munch l TNone -> munch (l ++ map Blank post) TNone.
Proof.
  induction l as [|i l IH]; intro H.
  - apply munch_no_bare. intros i Hi. cbn in Hi. apply in_map_iff in Hi as (c & <- & _). reflexivity.
  - destruct H as [H1 H2]. cbn [app munch]. split; [|apply IH; exact H2].
    destruct l as [|j l]; [destruct post; cbn; reflexivity|exact H1].
Qed.

Lemma trailing_blanks s post : complete s -> Forall blank post -> split (s ++ post) = split s.
Proof.
  intros (l & W & <-) H.
  assert (W' : wf_line (l ++ map Blank post) TNone).
  { destruct W as (Hl & Ht & Hm). repeat split; [|apply munch_app_blank; exact Hm].
    apply Forall_app. split; [exact Hl|]. induction H; cbn; constructor; assumption. }
  assert (E : line_src (l ++ map Blank post) TNone = line_src l TNone ++ post).
  { unfold line_src. cbn [tail_src]. rewrite !app_nil_r, map_app, concat_app, concat_blanks. reflexivity. }
  rewrite <- E, !split_line by assumption. f_equal.
  unfold line_tokens. rewrite !nonempty_app, map_app, nonempty_app, nonempty_blanks.
  cbn. rewrite !app_nil_r. reflexivity.
Qed.

Lemma blank_line s : Forall blank s -> split s = Some [].
Proof. intro H. rewrite <- (app_nil_r s), leading_blanks by exact H. reflexivity. Qed.

(** Two complete lines with a blank in between are tokenised independently. *)
Lemma split_concat a c b :
  complete a -> blank c ->
  split (a ++ c :: b) =
  match split a, split b with Some x, Some y => Some (x ++ y) | _, _ => None end.
Proof.
  intros (l & (Hl & _ & Hm) & <-) Hc.
  destruct (reading_exists b) as (l2 & t2 & (Hl2 & Ht2 & Hm2) & <-).
  assert (W : wf_line (l ++ Blank c :: l2) t2).
  { repeat split.
    - apply Forall_app. split; [assumption|constructor; assumption].
    - exact Ht2.
    - clear Hl. induction l as [|i l IH].
      + cbn [app munch]. split; [destruct l2; discriminate|exact Hm2].
      + destruct Hm as [H1 H2]. cbn [app munch]. split; [|apply IH; exact H2].
        destruct l; cbn [app]; [reflexivity|exact H1]. }
  assert (E : line_src (l ++ Blank c :: l2) t2 = line_src l TNone ++ c :: line_src l2 t2).
  { unfold line_src. cbn [tail_src]. rewrite map_app, concat_app, app_nil_r, <- app_assoc. reflexivity. }
  rewrite <- E, !split_line; [|repeat split; assumption|repeat split; assumption|exact W].
  f_equal. unfold line_tokens. rewrite !nonempty_app, map_app, nonempty_app. cbn.
  rewrite ?nonempty_app, ?app_nil_r, <- ?app_assoc. reflexivity.
Qed.

Lemma nonempty_id l : ~ In [] l -> nonempty l = l.
Proof.
  induction l as [|[|c x] l IH]; intro H; cbn; [reflexivity|exfalso; apply H; left; reflexivity|].
  rewrite IH; [reflexivity|]. intro K. apply H. right. exact K.
Qed.

Lemma quoting_round_trip_nonempty args final :
  Forall (fun x => match x with (sep, q, a) => Forall blank sep /\ quote q /\ a <> [] end) args ->
  Forall blank final ->
  split (quoted_line args final) = Some (map snd args).
Proof.
  intros Ha Hf. rewrite quoting_round_trip; [|clear Hf|exact Hf].
  - rewrite nonempty_id; [reflexivity|]. intro H. apply in_map_iff in H as ([[sep q] a] & E & Hin).
    rewrite Forall_forall in Ha. specialize (Ha _ Hin). cbn in *. tauto.
  - eapply Forall_impl; [|exact Ha]. intros [[sep q] a]. tauto.
Qed.

Lemma reading_unique l1 t1 l2 t2 :
  wf_line l1 t1 -> wf_line l2 t2 -> line_src l1 t1 = line_src l2 t2 ->
  line_tokens l1 t1 = line_tokens l2 t2.
Proof.
  intros H1 H2 E. apply split_line in H1. apply split_line in H2. rewrite E in H1. congruence.
Qed.
