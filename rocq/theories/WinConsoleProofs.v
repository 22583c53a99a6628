(** * Proofs about coloured output on Windows *)

From Verif Require Import Base WinConsoleModel WinConsoleSpec.
Open Scope nat_scope.
Open Scope list_scope.

Lemma attribute_looks m st : m <> Fg None -> m <> Bg None ->
  exists st', set_win_attribute m st = Some st' /\ looks st' = rendition (manip_number m) (looks st).
Proof.
  intros H1 H2.
  destruct m as [[]|[[]|]|[[]|]|[]|[]]; try congruence; (eexists; split; [reflexivity|]); try reflexivity;
    unfold looks; rewrite !N.lor_spec, !N.land_spec; cbv -[N.testbit];
    repeat match goal with |- context [N.testbit (Npos ?p) ?n] => let b := eval vm_compute in (N.testbit (Npos p) n) in change (N.testbit (Npos p) n) with b end;
    repeat match goal with |- context [N.testbit 0 ?n] => change (N.testbit 0 n) with false end;
    repeat match goal with |- context [N.testbit st ?n] => destruct (N.testbit st n) end; reflexivity.
Qed.
Lemma receives m : forall t, t_reading t = Plain ->
  fold_left receive ("027"%char :: "["%char :: print_N (manip_number m) ++ ["m"%char]) t = mkTerminal (t_cells t) (rendition (manip_number m) (t_now t)) Plain.
Proof.
  intros [cells now md] H. cbn [t_reading] in H. subst md.
  destruct m as [[]|[[]|]|[[]|]|[]|[]]; cbv -[rendition]; reflexivity.
Qed.
Lemma plain_text s : ~ In "027"%char s -> forall t, t_reading t = Plain ->
  fold_left receive s t = mkTerminal (t_cells t ++ map (fun c => (c, t_now t)) s) (t_now t) Plain.
Proof.
  induction s as [|c s IH]; intros Hs [cells now md] H; cbn [t_reading] in H; subst md; cbn [fold_left map t_cells t_now].
  - rewrite app_nil_r. reflexivity.
  - unfold receive at 2. cbn [t_reading t_cells t_now]. destruct (Ascii.eqb_spec c "027") as [->|_]; [exfalso; apply Hs; left; reflexivity|].
    rewrite IH; [|intros Hin; apply Hs; right; exact Hin|reflexivity]. cbn [t_cells t_now]. rewrite <- app_assoc. reflexivity.
Qed.

Section Same.
Context (tty : nat -> bool).
Definition seen (w : win) : list (ascii * sight) := map (fun x => (fst x, looks (snd x))) (wn_cells w).
Definition same (w v : win) : Prop :=
  wn_state w = wn_attr w /\ (forall i, wn_force w i = wn_force v i) /\ wn_color w = wn_color v /\ (forall i, wn_text w i = wn_text v i) /\
  shows (map fst (wn_cells v)) = mkTerminal (seen w) (looks (wn_attr w)) Plain.
Lemma shows_app a b : shows (a ++ b) = fold_left receive b (shows a).
Proof. apply fold_left_app. Qed.
Lemma chars_of (a : N) s : map fst (map (fun c : ascii => (c, a)) s) = s.
Proof. induction s as [|c s IH]; [reflexivity|]. cbn. rewrite IH. reflexivity. Qed.

Lemma same_write i s w v : same w v -> ~ In "027"%char s -> same (w_write tty i s w) (w_write tty i s v).
Proof.
  intros (H1 & H2 & H3 & H4 & H5) Hs. unfold w_write. destruct (tty i).
  - split; [exact H1|]. split; [exact H2|]. split; [exact H3|]. split; [exact H4|]. cbn [wn_cells wn_attr].
    rewrite map_app, chars_of, shows_app, H5, (plain_text s Hs) by reflexivity. cbn [t_cells t_now]. unfold seen. cbn [wn_cells].
    rewrite map_app, map_map. reflexivity.
  - split; [exact H1|]. split; [exact H2|]. split; [exact H3|]. split; [|exact H5]. cbn [wn_text]. intros j. unfold set_at. rewrite !H4. reflexivity.
Qed.
Lemma same_put i m w v w' : same w v -> w_put true tty i m w = Some w' -> exists v', w_put false tty i m v = Some v' /\ same w' v'.
Proof.
  intros (H1 & H2 & H3 & H4 & H5) Hw. unfold w_put in *. rewrite <- H2. destruct (wn_force w i || tty i) eqn:Hf; [|injection Hw as <-; exists v; repeat split; assumption].
  unfold w_set_color in *. cbn [andb] in *. destruct (tty i) eqn:Ht.
  - assert (Hm : m <> Fg None /\ m <> Bg None) by (split; intros ->; discriminate Hw).
    destruct (attribute_looks m (wn_state w) (proj1 Hm) (proj2 Hm)) as (st & Hst & Hl). rewrite Hst in Hw. injection Hw as <-.
    eexists. split; [reflexivity|]. unfold w_write. rewrite Ht. split; [reflexivity|]. split; [exact H2|]. split; [exact H3|]. split; [exact H4|].
    cbn [wn_cells wn_attr]. rewrite map_app, chars_of, shows_app, H5, receives by reflexivity. cbn [t_cells t_now]. rewrite Hl, H1. reflexivity.
  - injection Hw as <-. eexists. split; [reflexivity|]. unfold w_write. rewrite Ht.
    split; [exact H1|]. split; [exact H2|]. split; [exact H3|]. split; [|exact H5]. cbn [wn_text]. intros j. unfold set_at. rewrite !H4. reflexivity.
Qed.
Lemma same_control i b w v : same w v -> same (w_control i b w) (w_control i b v).
Proof.
  intros (H1 & H2 & H3 & H4 & H5). split; [exact H1|]. split; [|split; [exact H3|split; [exact H4|exact H5]]].
  cbn [wn_force w_control]. intros j. unfold set_at. rewrite H2. reflexivity.
Qed.
Lemma same_step a w v w' : same w v -> text_only a -> win_step true tty a w = Some w' -> exists v', win_step false tty a v = Some v' /\ same w' v'.
Proof.
  intros H Ht Hw. destruct a as [i m|i b|i s|i k|b]; cbn [win_step] in *.
  - exact (same_put _ _ _ _ _ H Hw).
  - injection Hw as <-. eexists. split; [reflexivity|]. apply same_control, H.
  - injection Hw as <-. eexists. split; [reflexivity|]. apply same_write; assumption.
  - pose proof H as (_ & _ & Hc & _). destruct k; cbn [w_mark] in *; rewrite <- ?Hc in *.
    + destruct (wn_color w); [|injection Hw as <-; eauto].
      destruct (w_put true tty i (Fg (Some Green)) (w_control i true w)) as [w1|] eqn:E1; [|discriminate].
      destruct (same_put _ _ _ _ _ (same_control i true _ _ H) E1) as (v1 & -> & H1). exact (same_put _ _ _ _ _ H1 Hw).
    + exact (same_put _ _ _ _ _ H Hw).
    + destruct (wn_color w); [|injection Hw as <-; eauto]. exact (same_put _ _ _ _ _ (same_control i true _ _ H) Hw).
    + exact (same_put _ _ _ _ _ H Hw).
  - injection Hw as <-. eexists. split; [reflexivity|]. destruct H as (H1 & H2 & H3 & H4 & H5). repeat split; assumption.
Qed.
Lemma same_run l : forall w v w', same w v -> Forall text_only l -> win_run true tty l w = Some w' -> exists v', win_run false tty l v = Some v' /\ same w' v'.
Proof.
  induction l as [|a l IH]; intros w v w' H Hl Hw; cbn [win_run] in *; [injection Hw as <-; eauto|]. inversion Hl as [|? ? Ha Hl']; subst.
  destruct (win_step true tty a w) as [w1|] eqn:E; [|discriminate]. destruct (same_step _ _ _ _ H Ha E) as (v1 & -> & H1). exact (IH _ _ _ H1 Hl' Hw).
Qed.
Lemma init_same : same (win_init default_attr) (win_init default_attr).
Proof. repeat split; reflexivity. Qed.
Theorem old_as_new l w : Forall text_only l -> win_run true tty l (win_init default_attr) = Some w ->
  exists v, win_run false tty l (win_init default_attr) = Some v /\
    t_cells (shows (map fst (wn_cells v))) = map (fun x => (fst x, looks (snd x))) (wn_cells w) /\
    t_now (shows (map fst (wn_cells v))) = looks (wn_attr w) /\ forall i, wn_text w i = wn_text v i.
Proof.
  intros Hl Hw. destruct (same_run l _ _ _ init_same Hl Hw) as (v & Hv & (_ & _ & _ & Ht & Hs)). exists v. split; [exact Hv|]. rewrite Hs. auto.
Qed.

(** ** Where it is undefined *)
Lemma put_defined i m w : w_put true tty i m w = None <-> tty i = true /\ (m = Fg None \/ m = Bg None).
Proof.
  unfold w_put, w_set_color. cbn [andb]. split.
  - destruct (wn_force w i || tty i); [|discriminate]. destruct (tty i); [|discriminate]. intros H. split; [reflexivity|].
    destruct m as [[]|[[]|]|[[]|]|[]|[]]; try discriminate; auto.
  - intros (-> & [-> | ->]); rewrite orb_true_r; reflexivity.
Qed.
Lemma step_defined a w : win_step true tty a w = None <-> bare_reset tty a.
Proof.
  destruct a as [i m|i b|i s|i k|b]; cbn [win_step bare_reset]; try (split; [discriminate|contradiction]).
  - rewrite put_defined. split; [intros (H & [-> | ->]); exact H|]. destruct m as [s|[c|]|[c|]|c|c]; try contradiction; intros H; auto.
  - split; [|contradiction]. destruct k; cbn [w_mark].
    1: destruct (wn_color w); [|discriminate]; destruct (w_put true tty i (Fg (Some Green)) (w_control i true w)) eqn:E;
       [|apply put_defined in E as (_ & [E|E]); discriminate].
    3: destruct (wn_color w); [|discriminate].
    all: intros H; apply put_defined in H as (_ & [H|H]); discriminate.
Qed.
Theorem run_defined l : forall w, win_run true tty l w = None <-> Exists (bare_reset tty) l.
Proof.
  induction l as [|a l IH]; intros w; cbn [win_run]; [split; [discriminate|intros H; inversion H]|].
  rewrite Exists_cons. rewrite <- (step_defined a w). destruct (win_step true tty a w) as [w1|]; [rewrite (IH w1); split; [auto|intros [H|H]; [discriminate|exact H]]|].
  split; auto.
Qed.
Theorem new_defined l : forall w, win_run false tty l w <> None.
Proof.
  assert (Hp : forall i m w, exists w', w_put false tty i m w = Some w').
  { intros i m w. unfold w_put, w_set_color. cbn [andb]. destruct (_ || _); eauto. }
  induction l as [|a l IH]; intros w; cbn [win_run]; [discriminate|].
  assert (H : exists w', win_step false tty a w = Some w').
  { destruct a as [i m|i b|i s|i k|b]; cbn [win_step]; eauto. destruct k; cbn [w_mark]; try destruct (wn_color w); eauto.
    destruct (Hp i (Fg (Some Green)) (w_control i true w)) as (w1 & ->). apply Hp. }
  destruct H as (w' & ->). apply IH.
Qed.
End Same.

(** ** Clear *)
Lemma fill_length c n : forall l, length (fill_character c n l) = length l.
Proof. induction n as [|n IH]; intros [|(x, a) l]; cbn; auto. Qed.
Lemma fill_all c n : forall l, length l <= n -> map fst (fill_character c n l) = repeat c (length l) /\ map snd (fill_character c n l) = map snd l.
Proof.
  induction n as [|n IH]; intros [|(x, a) l] H; cbn in *; try (split; reflexivity); [lia|]. destruct (IH l) as (-> & ->); [lia|]. split; reflexivity.
Qed.
Theorem clears k : length (cn_cells k) = cn_columns k * cn_rows k -> exists k', win_clear (Some k) = Some k' /\
  map fst (cn_cells k') = repeat " "%char (cn_columns k * cn_rows k) /\ map snd (cn_cells k') = map snd (cn_cells k) /\
  cn_cursor k' = (0, 0) /\ cn_columns k' = cn_columns k /\ cn_rows k' = cn_rows k.
Proof.
  intros H. eexists. split; [reflexivity|]. cbn [cn_cells cn_cursor cn_columns cn_rows].
  destruct (fill_all " " (cn_columns k * cn_rows k) (cn_cells k)) as (-> & ->); [lia|]. rewrite H. auto.
Qed.

Lemma names : forall c st, exists f g h k, set_win_attribute (Fg (Some c)) st = Some f /\ looks f = mkSight (shade_named c false) (s_paper (looks st)) /\
  set_win_attribute (Bg (Some c)) st = Some g /\ looks g = mkSight (s_ink (looks st)) (shade_named c false) /\
  set_win_attribute (FgB c) st = Some h /\ looks h = mkSight (shade_named c true) (s_paper (looks st)) /\
  set_win_attribute (BgB c) st = Some k /\ looks k = mkSight (s_ink (looks st)) (shade_named c true).
Proof.
  intros c st. destruct (attribute_looks (Fg (Some c)) st) as (f & F & Lf); [discriminate|discriminate|]. destruct (attribute_looks (Bg (Some c)) st) as (g & G & Lg); [discriminate|discriminate|].
  destruct (attribute_looks (FgB c) st) as (h & H & Lh); [discriminate|discriminate|]. destruct (attribute_looks (BgB c) st) as (k & K & Lk); [discriminate|discriminate|].
  exists f, g, h, k. rewrite Lf, Lg, Lh, Lk. repeat split; try assumption; destruct c; reflexivity.
Qed.
Lemma old_put tty i m w st : tty i = true -> set_win_attribute m (wn_state w) = Some st ->
  w_put true tty i m w = Some (mkWin (wn_force w) st (wn_color w) st (wn_cells w) (wn_text w)).
Proof. intros Ht Hs. unfold w_put, w_set_color. rewrite Ht, orb_true_r. cbn [andb]. rewrite Hs. reflexivity. Qed.
Lemma dialogue_seen : forall tty i b p s t w, tty i = true -> exists w', win_run true tty
    [WColor b; WMark i WAfterInput; WMark i WBeforePrompt; WText i p; WMark i WAfterPrompt; WMark i WBeforeInput; WText i s; WMark i WAfterInput; WText i t] w = Some w' /\
  map (fun x => (fst x, looks (snd x))) (wn_cells w') = map (fun x => (fst x, looks (snd x))) (wn_cells w) ++
    in_ink (if b then shade_named Green false else shade_named Gray false) p ++ in_ink (shade_named Gray b) s ++ in_ink (shade_named Gray false) t.
Proof.
  intros tty i b p s t w Ht. unfold in_ink. cbn [win_run win_step w_mark].
  erewrite old_put by (exact Ht || reflexivity). cbn [wn_color wn_force wn_state wn_cells wn_text wn_attr]. destruct b.
  - unfold w_control. cbn [wn_color wn_force wn_state wn_cells wn_text wn_attr]. erewrite old_put by (exact Ht || reflexivity). cbn [wn_color wn_force wn_state wn_cells wn_text wn_attr].
    erewrite old_put by (exact Ht || reflexivity). unfold w_write. rewrite Ht. cbn [wn_color wn_force wn_state wn_cells wn_text wn_attr].
    erewrite old_put by (exact Ht || reflexivity). cbn [wn_color wn_force wn_state wn_cells wn_text wn_attr].
    erewrite old_put by (exact Ht || reflexivity). cbn [wn_color wn_force wn_state wn_cells wn_text wn_attr].
    erewrite old_put by (exact Ht || reflexivity). cbn [wn_color wn_force wn_state wn_cells wn_text wn_attr].
    eexists. split; [reflexivity|]. cbn [wn_cells]. rewrite !map_app, !map_map, <- !app_assoc. reflexivity.
  - unfold w_write. rewrite Ht. cbn [wn_color wn_force wn_state wn_cells wn_text wn_attr].
    erewrite old_put by (exact Ht || reflexivity). cbn [wn_color wn_force wn_state wn_cells wn_text wn_attr].
    erewrite old_put by (exact Ht || reflexivity). cbn [wn_color wn_force wn_state wn_cells wn_text wn_attr].
    eexists. split; [reflexivity|]. cbn [wn_cells]. rewrite !map_app, !map_map, <- !app_assoc. reflexivity.
Qed.
Lemma control_text : forall old tty i b m w, tty i = false -> exists w', win_run old tty [WControl i b; WManip i m] w = Some w' /\
  wn_cells w' = wn_cells w /\ forall j, wn_text w' j = if Nat.eqb j i then wn_text w i ++ (if b then "027"%char :: "["%char :: print_N (manip_number m) ++ ["m"%char] else []) else wn_text w j.
Proof.
  intros old tty i b m w Ht. cbn [win_run win_step]. unfold w_put. rewrite Ht, orb_false_r. cbn [w_control wn_force]. unfold set_at at 1. rewrite Nat.eqb_refl. destruct b.
  - unfold w_set_color. rewrite Ht, andb_false_r. eexists. split; [reflexivity|]. unfold w_write. rewrite Ht. split; [reflexivity|]. intros j. cbn [wn_text w_control]. unfold set_at. destruct (Nat.eqb j i); reflexivity.
  - eexists. split; [reflexivity|]. split; [reflexivity|]. intros j. destruct (Nat.eqb_spec j i) as [->|]; [rewrite app_nil_r|]; reflexivity.
Qed.
