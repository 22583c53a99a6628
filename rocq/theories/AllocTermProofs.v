(** * Proofs about the line editor when memory runs out *)

From Verif Require Import Base TerminalModel TerminalSpec TerminalProofs AllocTermModel AllocTermSpec.
Open Scope nat_scope.
Open Scope list_scope.

(** Output that leaves a screen ready, with nothing below the cursor. *)
Definition calm (out : str) : Prop :=
  forall sc, sc_esc sc = Ground -> sc_below sc = [] -> sc_esc (display out sc) = Ground /\ sc_below (display out sc) = [].
Lemma calm_nil : calm [].
Proof. intros sc G B. split; assumption. Qed.
Lemma calm_app a b : calm a -> calm b -> calm (a ++ b).
Proof. intros A B sc G E. rewrite display_app. destruct (A sc G E) as [G' E']. exact (B _ G' E'). Qed.
Lemma calm_char c : printable c -> calm [c].
Proof.
  intros P [ab row be col es]. cbn [sc_esc sc_below]. intros -> ->. apply printable_ground in P as (H1 & H2 & H3 & H4).
  unfold display. cbn [fold_left]. unfold show_byte. cbn [sc_esc]. rewrite H1, H2, H3, H4. split; reflexivity.
Qed.
Lemma calm_text s : Forall printable s -> calm s.
Proof.
  induction 1 as [|c s P _ IH]; [exact calm_nil|]. change (c :: s) with ([c] ++ s). apply calm_app; [apply calm_char, P|exact IH].
Qed.
Lemma calm_backs n : calm (backs n).
Proof. intros [ab row be col es]. cbn [sc_esc sc_below]. intros -> ->. rewrite display_backs. split; reflexivity. Qed.
Lemma calm_back : calm ["008"%char].
Proof. exact (calm_backs 1). Qed.
Lemma calm_space : calm [" "%char].
Proof. exact (calm_text _ printable_space). Qed.
Lemma calm_bi color : calm (bi color).
Proof. intros [ab row be col es]. cbn [sc_esc sc_below]. intros -> ->. rewrite display_bi. split; reflexivity. Qed.
Lemma calm_ai tty f : calm (after_input tty f).
Proof. intros [ab row be col es]. cbn [sc_esc sc_below]. intros -> ->. rewrite display_ai. split; reflexivity. Qed.
Lemma calm_ret : calm ["013"; "010"]%char.
Proof. intros [ab row be col es]. cbn [sc_esc sc_below]. intros -> ->. split; reflexivity. Qed.

Ltac calm := repeat first [apply calm_nil | apply calm_ai | apply calm_bi | apply calm_backs | apply calm_ret
  | apply calm_back | apply calm_space | (apply calm_text, printable_blanks) | (apply calm_text; assumption)
  | (apply calm_char; assumption) | apply calm_app].

Definition outcome (r : tres_m) : option (str * option symbol * term) :=
  match r with TDone out sy t => Some (out, Some sy, t) | TThrew out t => Some (out, None, t) | TUB => None end.

Lemma ff_0 ok : first_fail 0 ok = None.
Proof. reflexivity. Qed.

Ltac fin := eexists _, _; split; [reflexivity|]; cbn [fst snd];
  split; [unfold holds, ed_text; cbn [tm_line tm_pos tm_force before after rev length tl];
          rewrite ?rev_involutive, ?app_nil_r, ?rev_length, <- ?app_assoc; cbn [app]; split; [reflexivity|try reflexivity; lia]
         |].

Lemma step_m ltr tty o t e : holds t e ->
  exists out t', outcome (run_op_m ltr tty o t) = Some (out, fst (ed_op_m o e), t') /\
    holds t' (snd (ed_op_m o e)) /\ (printable_ed e -> typed o -> calm out).
Proof.
  destruct t as [line pos force], e as [b a], o as [color o ok]. unfold holds at 1, ed_text at 1.
  cbn [tm_line tm_pos before after]. intros [-> ->].
  unfold run_op_m, ed_op_m, typed, printable_ed. cbn [op_ed op_color op_ok before after].
  destruct o as [k|s].
  - unfold keypressed_m. cbn [tm_line tm_pos tm_force]. rewrite before_input_eq.
    destruct k as [c| | | | | | | | | | | |]; cbn [needs before after].
    + destruct (Ascii.eqb c "009") eqn:Ec.
      { rewrite ff_0. cbn [key_symbol ed_op ed_key]. rewrite Ec. fin. intros; calm. }
      assert (P : printable_op (EKey (KAscii c)) -> printable c).
      { intros [->|P]; [discriminate|exact P]. }
      unfold first_fail. cbn [seq find]. destruct (ok 0); cbn [negb].
      2: { cbn [in_effect]. fin. intros _ Q. apply P in Q. calm. }
      rewrite tail_from_rev. cbn [def]. destruct (ok 1); cbn [negb].
      2: { cbn [in_effect]. fin. intros [_ A] Q. apply P in Q. calm. }
      rewrite size_sub_rev. cbn [def]. destruct (ok 2); cbn [negb].
      2: { cbn [in_effect]. fin. intros [_ A] Q. apply P in Q. calm. }
      rewrite <- (rev_length b), insert_at_app. cbn [def key_symbol ed_op ed_key]. rewrite Ec. fin.
      intros [_ A] Q. apply P in Q. calm.
    + rewrite ff_0. fin. intros; calm.
    + rewrite ff_0. fin. intros; calm.
    + rewrite ff_0. cbn [ed_op ed_key before after]. destruct b as [|c b]; cbn [length Nat.ltb Nat.leb]; fin; intros; calm.
    + rewrite ff_0. cbn [ed_op ed_key before after]. destruct a as [|c a].
      * rewrite app_nil_r, rev_length. destruct (Nat.ltb_spec (length b) (length b)); [lia|]. fin. intros; calm.
      * rewrite app_length, rev_length. cbn [length].
        destruct (Nat.ltb_spec (length b) (length b + S (length a))); [|lia].
        rewrite nth_error_app2 by (rewrite rev_length; lia). rewrite rev_length, Nat.sub_diag. cbn [nth_error def].
        fin. intros [_ A] _. inversion_clear A. calm.
    + destruct b as [|c b]; cbn [length Nat.eqb]; [rewrite ff_0; fin; intros; calm|].
      unfold first_fail. cbn [seq find].
      replace (S (length b) - 1) with (length (rev b)) by (rewrite rev_length; lia).
      cbn [rev]. rewrite <- app_assoc. cbn [app]. rewrite erase_at_app. cbn [def].
      destruct (ok 0); cbn [negb].
      2: { cbn [in_effect ed_op ed_key before after]. fin. intros; calm. }
      rewrite tail_from_app. cbn [def]. destruct (ok 1); cbn [negb].
      2: { cbn [in_effect ed_op ed_key before after]. fin. intros [_ A] _.
           change ("008"%char :: a ++ [" "%char]) with (["008"%char] ++ a ++ [" "%char]). calm. }
      rewrite size_sub_app. cbn [def ed_op ed_key before after]. fin. intros [_ A] _.
      match goal with |- calm ("008"%char :: ?x) => change ("008"%char :: x) with (["008"%char] ++ x) end.
      match goal with |- calm (_ ++ a ++ " "%char :: ?x) => change (" "%char :: x) with ([" "%char] ++ x) end. calm.
    + destruct a as [|c a].
      { rewrite app_nil_r, rev_length, Nat.eqb_refl, ff_0. fin. intros; calm. }
      destruct (Nat.eqb_spec (length b) (length (rev b ++ c :: a))) as [E|_].
      { rewrite app_length, rev_length in E. cbn in E. lia. }
      unfold first_fail. cbn [seq find]. destruct (ok 0); cbn [negb].
      2: { cbn [in_effect]. fin. intros; calm. }
      replace (length b + 1) with (length (rev b ++ [c])) by (rewrite app_length, rev_length; cbn; lia).
      replace (tail_from (length (rev b ++ [c])) (rev b ++ c :: a)) with (Some a).
      2: { change (rev b ++ c :: a) with (rev b ++ [c] ++ a). rewrite app_assoc. symmetry. apply tail_from_app. }
      cbn [def]. destruct (ok 1); cbn [negb].
      2: { cbn [in_effect]. fin. intros [_ A] _. inversion_clear A. calm. }
      rewrite size_sub_rev. cbn [def]. rewrite erase_at_rev. cbn [def ed_op ed_key before after]. fin.
      intros [_ A] _. inversion_clear A. calm.
    + unfold first_fail. cbn [seq find]. destruct (ok 0); cbn [negb]; [|cbn [in_effect]; fin; intros; calm].
      cbn [ed_op ed_key]. fin. intros; calm.
    + unfold first_fail. cbn [seq find]. destruct (ok 0); cbn [negb].
      2: { cbn [in_effect]. destruct ltr; fin; intros; calm. }
      rewrite tail_from_rev. cbn [def ed_op ed_key]. unfold ed_text. cbn [before after]. fin. intros [_ A] _. calm.
    + unfold first_fail. cbn [seq find]. destruct (ok 0); cbn [negb]; [|cbn [in_effect Nat.eqb]; fin; intros; calm].
      destruct (ok 1); cbn [negb].
      2: { cbn [in_effect Nat.eqb ed_op ed_key]. fin. intros; calm. }
      cbn [ed_op ed_key key_symbol]. fin. intros; calm.
    + rewrite ff_0. fin. intros; calm.
    + rewrite ff_0. fin. intros; calm.
    + rewrite ff_0. fin. intros; calm.
  - unfold set_line_m. cbn [tm_line tm_pos tm_force needs]. rewrite before_input_eq. unfold ed_text at 1 2. cbn [before after].
    cbn [printable_op].
    destruct (Nat.ltb (length s) (length (rev b ++ a))); unfold first_fail; cbn [seq find].
    + destruct (ok 0); cbn [negb].
      2: { cbn [in_effect]. destruct ltr; fin; intros; calm. }
      destruct (ok 1); cbn [negb]; [|cbn [in_effect]; fin; intros; calm].
      destruct (ok 2); cbn [negb]; [|cbn [in_effect]; fin; intros; calm].
      destruct (ok 3); cbn [negb]; [|cbn [in_effect]; fin; intros; calm].
      cbn [ed_op]. fin. intros; calm.
    + destruct (ok 0); cbn [negb].
      2: { cbn [in_effect]. destruct ltr; fin; intros; calm. }
      destruct (ok 1); cbn [negb]; [|cbn [in_effect]; fin; intros; calm].
      cbn [ed_op]. fin. intros; calm.
Qed.

Lemma typed_keeps o e : typed o -> printable_ed e -> printable_ed (snd (ed_op_m o e)).
Proof.
  intros T P. unfold ed_op_m.
  assert (G : printable_ed (ed_op (op_ed o) e)).
  { unfold typed in T. destruct (op_ed o) as [k|s]; [|apply printable_ed_op; assumption].
    destruct k; try (apply printable_ed_op; assumption). split; constructor. }
  destruct (first_fail _ _) as [n|]; cbn [snd]; [|exact G]. destruct (in_effect _ _); [exact G|exact P].
Qed.

Lemma run_m ltr tty os : forall t e, holds t e ->
  exists out t', run_ops_m ltr tty os t = Some (out, fst (ed_run_m os e), t') /\ holds t' (snd (ed_run_m os e)) /\
    (printable_ed e -> Forall typed os -> calm out).
Proof.
  induction os as [|o os IH]; intros t e H; cbn [run_ops_m ed_run_m].
  - exists [], t. split; [reflexivity|]. split; [exact H|]. intros; apply calm_nil.
  - destruct (step_m ltr tty o t e H) as (out & t1 & E & H1 & C1).
    pose proof (typed_keeps o e) as K.
    destruct (ed_op_m o e) as [r e1]. cbn [fst snd] in *.
    destruct (IH t1 e1 H1) as (out2 & t2 & E2 & H2 & C2).
    destruct (ed_run_m os e1) as [rs e2]. cbn [fst snd] in *.
    exists (out ++ out2), t2.
    assert (C : printable_ed e -> Forall typed (o :: os) -> calm (out ++ out2)).
    { intros P F. inversion_clear F as [|? ? T F']. apply calm_app; [exact (C1 P T)|exact (C2 (K T P) F')]. }
    destruct (run_op_m ltr tty o t) as [x y z|x z|]; cbn [outcome] in E; [| |discriminate]; injection E as -> <- ->; rewrite E2;
      (split; [reflexivity|]; split; [exact H2|exact C]).
Qed.

(** With memory: TerminalModel.v. *)
Lemma key_plenty ltr tty color ok k t : (forall n, ok n = true) ->
  keypressed_m ltr tty color ok k t = match keypressed tty color k t with Some (out, sy, t') => TDone out sy t' | None => TUB end.
Proof.
  intro O. unfold keypressed_m, keypressed. rewrite !O. cbn [negb]. destruct (before_input color (tm_force t)) as [x f].
  destruct k; try reflexivity.
  - destruct (Ascii.eqb c "009"); [reflexivity|]. destruct (tail_from _ _); [|reflexivity]. cbn [def obind].
    destruct (size_sub _ _); [|reflexivity]. cbn [def obind]. destruct (insert_at _ _ _); reflexivity.
  - destruct (Nat.ltb _ _); reflexivity.
  - destruct (Nat.ltb _ _); [|reflexivity]. destruct (nth_error _ _); reflexivity.
  - destruct (Nat.eqb _ _); [reflexivity|]. destruct (erase_at _ _); [|reflexivity]. cbn [def obind].
    destruct (tail_from _ _); [|reflexivity]. cbn [def obind]. destruct (size_sub _ _); reflexivity.
  - destruct (Nat.eqb _ _); [reflexivity|]. destruct (tail_from _ _); [|reflexivity]. cbn [def obind].
    destruct (size_sub _ _); [|reflexivity]. cbn [def obind]. destruct (erase_at _ _); reflexivity.
  - destruct (tail_from _ _); reflexivity.
Qed.
Lemma set_plenty ltr tty color ok s t : (forall n, ok n = true) ->
  set_line_m ltr tty color ok s t = let (out, t') := set_line tty color s t in TDone out SyNothing t'.
Proof.
  intro O. unfold set_line_m, set_line. rewrite !O. cbn [negb]. destruct (before_input color (tm_force t)) as [x f].
  destruct (Nat.ltb _ _); reflexivity.
Qed.
Lemma run_plenty ltr tty os : Forall plenty os -> forall t,
  run_ops_m ltr tty os t =
  match run_ops tty (map (fun o => (op_color o, op_ed o)) os) t with
  | Some (out, sys, t') => Some (out, map Some sys, t')
  | None => None
  end.
Proof.
  induction 1 as [|o os O _ IH]; intro t; [reflexivity|]. cbn [run_ops_m map run_ops]. unfold run_op_m, run_op. cbn [fst snd].
  destruct (op_ed o) as [k|s].
  - rewrite (key_plenty _ _ _ _ k t O). destruct (keypressed tty (op_color o) k t) as [[[out sy] t1]|]; [|reflexivity].
    rewrite IH. destruct (run_ops _ _ _) as [[[out' sys] t2]|]; reflexivity.
  - rewrite (set_plenty _ _ _ _ s t O). destruct (set_line tty (op_color o) s t) as [out t1].
    rewrite IH. destruct (run_ops _ _ _) as [[[out' sys] t2]|]; reflexivity.
Qed.

Lemma calm_return out sc : calm out -> sc_esc sc = Ground -> sc_below sc = [] ->
  shows [] (mkEd [] []) (display (out ++ ["013"; "010"]%char) sc).
Proof.
  intros C G B. rewrite display_app. destruct (C sc G B) as [G' B']. destruct (display out sc) as [ab row be col es].
  cbn [sc_esc sc_below] in G', B'. subst. unfold shows. cbn. split; [exists 0; reflexivity|]. repeat split.
Qed.

Lemma run_m_app ltr tty a : forall b t,
  run_ops_m ltr tty (a ++ b) t =
  match run_ops_m ltr tty a t with
  | None => None
  | Some (out, rs, t1) =>
      match run_ops_m ltr tty b t1 with None => None | Some (out', rs', t2) => Some (out ++ out', rs ++ rs', t2) end
  end.
Proof.
  induction a as [|o a IH]; intros b t; cbn [run_ops_m app].
  - destruct (run_ops_m ltr tty b t) as [[[x y] z]|]; reflexivity.
  - destruct (run_op_m ltr tty o t) as [x sy t1|x t1|]; [| |reflexivity]; rewrite IH;
      (destruct (run_ops_m ltr tty a t1) as [[[x1 y1] z1]|]; [|reflexivity]);
      (destruct (run_ops_m ltr tty b z1) as [[[x2 y2] z2]|]; [|reflexivity]); rewrite <- app_assoc; reflexivity.
Qed.

(** What is typed after a Return is shown again. *)
Lemma fresh ltr tty os o os' t e sc : holds t e -> printable_ed e -> Forall typed os ->
  op_ed o = EKey KRet -> op_ok o 0 = true -> op_ok o 1 = true ->
  Forall plenty os' -> Forall (fun o => printable_op (op_ed o)) os' -> sc_esc sc = Ground -> sc_below sc = [] ->
  exists out rs t', run_ops_m ltr tty (os ++ o :: os') t = Some (out, rs, t') /\
    shows [] (snd (ed_run (map op_ed os') (mkEd [] []))) (display out sc).
Proof.
  intros H P T K O0 O1 Y Q G B. rewrite run_m_app. destruct (run_m ltr tty os t e H) as (out & t1 & -> & _ & C).
  cbn [run_ops_m]. unfold run_op_m. rewrite K. cbn [keypressed_m]. rewrite O0, O1. cbn [negb]. rewrite (run_plenty ltr tty os' Y).
  pose proof (calm_return out sc (C P T) G B) as S.
  assert (Q' : Forall (fun o => printable_op (snd o)) (map (fun o => (op_color o, op_ed o)) os')).
  { clear - Q. induction Q; cbn; constructor; assumption. }
  assert (H' : holds (mkTerm [] 0 (tm_force t1)) (mkEd [] [])) by (split; reflexivity).
  assert (P' : printable_ed (mkEd [] [])) by (split; constructor).
  destruct (display_refinement tty _ _ _ [] _ H' P' Q' S) as (out2 & sys & t2 & E & S2). rewrite E.
  rewrite map_map in S2. cbn [snd] in S2.
  eexists _, _, t2. split; [reflexivity|]. rewrite app_assoc, display_app. exact S2.
Qed.

(** What was written when an operation failed is the beginning of what it writes. *)
Lemma threw_prefix ltr tty o t e out t1 : holds t e -> run_op_m ltr tty o t = TThrew out t1 ->
  exists rest sy t2, run_op tty (op_color o, op_ed o) t = Some (out ++ rest, sy, t2).
Proof.
  destruct t as [line pos force], e as [b a], o as [color o ok]. unfold holds, ed_text.
  cbn [tm_line tm_pos before after]. intros [-> ->]. unfold run_op_m, run_op. cbn [op_ed op_color op_ok fst snd].
  destruct o as [k|s].
  - unfold keypressed_m, keypressed. cbn [tm_line tm_pos tm_force]. rewrite before_input_eq.
    destruct k as [c| | | | | | | | | | | |]; intro R; try discriminate.
    + destruct (Ascii.eqb c "009"); [discriminate|]. rewrite <- (rev_length b) in *.
      rewrite tail_from_app, size_sub_app, insert_at_app in *. cbn [def obind] in *.
      destruct (ok 0); cbn [negb] in R.
      2: { injection R as <- _. eexists _, _, _. rewrite <- app_assoc. reflexivity. }
      destruct (ok 1); cbn [negb] in R.
      2: { injection R as <- _. eexists (backs _), _, _. rewrite <- !app_assoc. cbn [app]. rewrite <- !app_assoc. reflexivity. }
      destruct (ok 2); cbn [negb] in R; [discriminate|].
      injection R as <- _. eexists [], _, _. rewrite app_nil_r. reflexivity.
    + destruct (Nat.ltb _ _); discriminate.
    + destruct (Nat.ltb _ _); [|discriminate]. destruct (nth_error _ _); discriminate.
    + destruct b as [|c b]; cbn [length Nat.eqb] in *; [discriminate|].
      replace (S (length b) - 1) with (length (rev b)) in * by (rewrite rev_length; lia).
      cbn [rev] in *. rewrite <- app_assoc in *. cbn [app] in *. rewrite erase_at_app in *. cbn [def obind] in *.
      rewrite tail_from_app, size_sub_app in *. cbn [def obind] in *.
      destruct (ok 0); cbn [negb] in R.
      2: { injection R as <- _. eexists _, _, _. cbn [app]. reflexivity. }
      destruct (ok 1); cbn [negb] in R; [discriminate|].
      injection R as <- _. eexists (backs _), _, _. cbn [app]. rewrite <- app_assoc. reflexivity.
    + destruct a as [|c a]; [rewrite app_nil_r, rev_length, Nat.eqb_refl in R; discriminate|].
      destruct (Nat.eqb_spec (length b) (length (rev b ++ c :: a))) as [E|_]; [discriminate|].
      replace (length b + 1) with (length (rev b ++ [c])) in * by (rewrite app_length, rev_length; cbn; lia).
      replace (tail_from (length (rev b ++ [c])) (rev b ++ c :: a)) with (Some a) in *.
      2: { change (rev b ++ c :: a) with (rev b ++ [c] ++ a). rewrite app_assoc. symmetry. apply tail_from_app. }
      cbn [def obind] in *. rewrite size_sub_rev, erase_at_rev in *. cbn [def obind] in *.
      destruct (ok 0); cbn [negb] in R.
      2: { injection R as <- _. eexists _, _, _. cbn [app]. reflexivity. }
      destruct (ok 1); cbn [negb] in R; [discriminate|].
      injection R as <- _. eexists (backs _), _, _. rewrite <- app_assoc. reflexivity.
    + destruct (ok 0); cbn [negb] in R; [discriminate|]. injection R as <- _. eexists _, _, _. cbn [app]. reflexivity.
    + rewrite tail_from_rev in *. cbn [def obind] in *. destruct (ok 0); cbn [negb] in R; [discriminate|].
      destruct ltr; injection R as <- _; eexists _, _, _; [reflexivity|cbn [app]; reflexivity].
    + destruct (ok 0); cbn [negb] in R; [destruct (ok 1); cbn [negb] in R; [discriminate|]|];
        injection R as <- _; eexists [], _, _; reflexivity.
  - unfold set_line_m, set_line. cbn [tm_line tm_pos tm_force]. rewrite before_input_eq. intro R.
    destruct (ok 0); cbn [negb] in R.
    2: { destruct (Nat.ltb (length s) (length (rev b ++ a))); destruct ltr; injection R as <- _; eexists _, _, _;
           rewrite <- ?app_assoc; [reflexivity|cbn [app]; reflexivity|reflexivity|cbn [app]; reflexivity]. }
    destruct (Nat.ltb (length s) (length (rev b ++ a))).
    + destruct (ok 1); cbn [negb] in R; [|injection R as <- _; eexists _, _, _; reflexivity].
      destruct (ok 2); cbn [negb] in R; [|injection R as <- _; eexists _, _, _; rewrite (app_assoc _ (blanks _)); reflexivity].
      destruct (ok 3); cbn [negb] in R; [discriminate|]. injection R as <- _. eexists [], _, _. rewrite app_nil_r. reflexivity.
    + destruct (ok 1); cbn [negb] in R; [discriminate|]. injection R as <- _. eexists [], _, _. rewrite app_nil_r. reflexivity.
Qed.
