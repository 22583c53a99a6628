(** * Proofs about terminals of a given width *)

From Verif Require Import Base TerminalModel TerminalSpec TerminalProofs WidthSpec.
Open Scope nat_scope.
Open Scope list_scope.

(** The columns on the unbounded screen all stay below [W]. *)
Fixpoint narrow (W : nat) (out : str) (s : screen) : Prop :=
  sc_col s < W /\ match out with [] => True | c :: out' => narrow W out' (show_byte c s) end.

Lemma narrow_app W a : forall b s, narrow W (a ++ b) s <-> narrow W a s /\ narrow W b (display a s).
Proof.
  induction a as [|c a IH]; intros b s.
  - cbn [app]. cbn. split; [|tauto]. intros H. split; [|exact H]. split; [|exact Logic.I]. destruct b; apply H.
  - cbn [app narrow]. rewrite IH. change (display (c :: a) s) with (display a (show_byte c s)). tauto.
Qed.
Lemma narrow_col W out s : narrow W out s -> sc_col s < W.
Proof. destruct out; intros H; apply H. Qed.

Lemma wrap_byte_narrow defer W c s : sc_col s < W -> sc_col (show_byte c s) < W -> wrap_byte defer W c s = show_byte c s.
Proof.
  intros H1 H2. unfold wrap_byte. destruct (Nat.leb_spec W (sc_col s)) as [L|_]; [lia|]. rewrite andb_false_r.
  destruct (written c s) eqn:Hw; [|reflexivity].
  assert (E : put_char c s = show_byte c s).
  { unfold written in Hw. unfold show_byte. destruct (sc_esc s); try discriminate. apply negb_true_iff in Hw.
    apply orb_false_iff in Hw as (Hw & ->). apply orb_false_iff in Hw as (Hw & ->). apply orb_false_iff in Hw as (-> & ->). reflexivity. }
  cbv zeta. rewrite E. destruct (Nat.leb_spec W (sc_col (show_byte c s))); [lia|]. rewrite andb_false_r. reflexivity.
Qed.
(** Then the width does not matter. *)
Lemma wrap_display_narrow defer W out : forall s, narrow W out s -> wrap_display defer W out s = display out s.
Proof.
  induction out as [|c out IH]; intros s H; [reflexivity|]. cbn [narrow] in H. destruct H as (H1 & H2).
  unfold wrap_display. cbn [fold_left]. rewrite wrap_byte_narrow; [|exact H1|eapply narrow_col; exact H2].
  apply IH. exact H2.
Qed.
Lemma narrow_all W out : forall s, (forall n, sc_col (display (firstn n out) s) < W) -> narrow W out s.
Proof.
  induction out as [|c out IH]; intros s H; (split; [exact (H 0)|]); [exact Logic.I|].
  apply IH. intros n. exact (H (S n)).
Qed.
Lemma wrap_any defer W out s : (forall n, sc_col (display (firstn n out) s) < W) -> wrap_display defer W out s = display out s.
Proof. intros H. apply wrap_display_narrow, narrow_all, H. Qed.
Lemma wrap_display_app defer W a b s : wrap_display defer W (a ++ b) s = wrap_display defer W b (wrap_display defer W a s).
Proof. apply fold_left_app. Qed.

(** ** The columns of what the terminal object writes *)
Definition walks (W : nat) (out : str) (c c' : nat) : Prop :=
  forall s, sc_esc s = Ground -> sc_col s = c ->
    narrow W out s /\ sc_col (display out s) = c' /\ sc_esc (display out s) = Ground /\ sc_above (display out s) = sc_above s.
Lemma walks_app W a b c c' c'' : walks W a c c' -> walks W b c' c'' -> walks W (a ++ b) c c''.
Proof.
  intros Ha Hb s Hg Hc. destruct (Ha s Hg Hc) as (H1 & H2 & H3 & H4). destruct (Hb _ H3 H2) as (H5 & H6 & H7 & H8).
  rewrite narrow_app, display_app. repeat split; try assumption. congruence.
Qed.
Lemma walks_nil W c : c < W -> walks W [] c c.
Proof. intros L s Hg Hc. cbn. subst c. auto. Qed.
Lemma walks_text W t : Forall printable t -> forall c, c + length t < W -> walks W t c (c + length t).
Proof.
  induction 1 as [|x t Hx _ IH]; intros c L; cbn [length] in *.
  - rewrite Nat.add_0_r. apply walks_nil. lia.
  - intros s Hg Hc. apply printable_ground in Hx as (E1 & E2 & E3 & E4).
    assert (E : show_byte x s = put_char x s) by (unfold show_byte; rewrite Hg, E1, E2, E3, E4; reflexivity).
    destruct (IH (S c)) with (s := show_byte x s) as (H1 & H2 & H3 & H4); [lia|rewrite E; reflexivity|rewrite E; cbn; congruence|].
    change (display (x :: t) s) with (display t (show_byte x s)). cbn [narrow]. repeat split; try assumption; try lia.
    rewrite H4, E. reflexivity.
Qed.
Lemma walks_backs W n : forall c, c < W -> walks W (backs n) c (c - n).
Proof.
  induction n as [|n IH]; intros c L; [rewrite Nat.sub_0_r; apply walks_nil; exact L|].
  intros s Hg Hc. change (backs (S n)) with ("008"%char :: backs n).
  assert (E : show_byte "008" s = mkScreen (sc_above s) (sc_row s) (sc_below s) (sc_col s - 1) Ground) by (unfold show_byte; rewrite Hg; reflexivity).
  destruct (IH (c - 1)) with (s := show_byte "008" s) as (H1 & H2 & H3 & H4); [lia|rewrite E; reflexivity|rewrite E; cbn; congruence|].
  change (display ("008"%char :: backs n) s) with (display (backs n) (show_byte "008" s)). cbn [narrow].
  repeat split; try assumption; try lia. rewrite H4, E. reflexivity.
Qed.
Lemma walks_sgr W n c : In n [0; 1; 32; 97]%N -> c < W -> walks W (sgr n) c c.
Proof.
  intros H L s Hg Hc. destruct s as [ab row be col es]. cbn in Hg, Hc. subst es col. rewrite display_sgr by exact H.
  split; [|repeat split; reflexivity].
  repeat (destruct H as [<-|H]; [cbn; repeat (split; [exact L|]); exact Logic.I|]). destruct H.
Qed.
Lemma walks_bi W color c : c < W -> walks W (bi color) c c.
Proof. intros L. destruct color; [apply walks_sgr; [cbn; tauto|exact L]|apply walks_nil; exact L]. Qed.
Lemma walks_ai W tty f c : c < W -> walks W (after_input tty f) c c.
Proof. intros L. unfold after_input. destruct (f || tty); [apply walks_sgr; [cbn; tauto|exact L]|apply walks_nil; exact L]. Qed.
Lemma walks_to W out c c1 c2 : walks W out c c1 -> c1 = c2 -> walks W out c c2.
Proof. intros H <-. exact H. Qed.

Ltac walk :=
  repeat match goal with
  | |- walks _ (_ ++ _) _ _ => eapply walks_app
  | |- walks _ [] _ _ => apply walks_nil; cbn [length] in *; lia
  | |- walks _ (bi _) _ _ => apply walks_bi; cbn [length] in *; lia
  | |- walks _ (after_input _ _) _ _ => apply walks_ai; cbn [length] in *; lia
  | |- walks _ (backs _) _ _ => apply walks_backs; rewrite ?blanks_length; cbn [length] in *; lia
  | |- walks _ (blanks _) _ _ => apply walks_text; [apply printable_blanks|rewrite ?blanks_length; cbn [length] in *; lia]
  | |- walks _ [" "%char] _ _ => apply walks_text; [apply printable_space|cbn [length] in *; lia]
  | |- walks _ [_] _ _ => apply walks_text; [constructor; [assumption|constructor]|cbn [length] in *; lia]
  | |- walks _ _ _ _ => apply walks_text; [assumption|cbn [length] in *; lia]
  end.

Definition ed_len (e : editor) : nat := length (before e) + length (after e).
Lemma ed_len_text e : length (ed_text e) = ed_len e.
Proof. unfold ed_text, ed_len. rewrite app_length, rev_length. reflexivity. Qed.

Lemma walks_key tty color force k e W b : printable_ed e -> printable_op (EKey k) ->
  b + ed_len e < W -> b + ed_len (ed_key k e) < W ->
  walks W (key_out tty color force k e) (b + length (before e)) (b + length (before (ed_key k e))).
Proof.
  intros (Pb & Pa) Pk L1 L2. destruct e as [bf a]. unfold ed_len in *. cbn [before after] in *.
  destruct k as [c| | | | | | | | | | | |]; cbn [ed_key key_out before after printable_op] in *; try (apply walks_nil; lia).
  - destruct (Ascii.eqb_spec c "009") as [->|Hc]; cbn [before after length] in *; [apply walks_nil; lia|].
    destruct Pk as [Pk|Pk]; [contradiction|].
    eapply walks_to; [walk|].
    cbn [length]. lia.
  - destruct bf as [|c bf]; cbn [before after length] in *; [apply walks_nil; lia|]. change ["008"%char] with (backs 1).
    eapply walks_to; [walk|]. lia.
  - destruct a as [|c a]; cbn [before after length] in *; [apply walks_nil; lia|]. inversion_clear Pa.
    eapply walks_to; [walk|]. cbn [length]. lia.
  - destruct bf as [|c bf]; cbn [before after length tl] in *; [apply walks_nil; lia|]. change ["008"%char] with (backs 1).
    eapply walks_to; [walk|]. cbn [length]. lia.
  - destruct a as [|c a]; cbn [before after length tl] in *; [apply walks_nil; lia|]. inversion_clear Pa.
    eapply walks_to; [walk|]. cbn [length]. lia.
  - eapply walks_to; [walk|]. cbn [length]. lia.
  - unfold ed_text in *. cbn [before after] in *. rewrite rev_length, app_length, rev_length in *. eapply walks_to; [walk|]. lia.
  - destruct Pk.
Qed.
Lemma walks_set_line tty color s t e W b : holds t e -> Forall printable s -> b + ed_len e < W -> b + length s < W ->
  walks W (fst (set_line tty color s t)) (b + length (before e)) (b + length s).
Proof.
  intros [HL HP] Ps L1 L2. unfold set_line. rewrite before_input_eq. cbn [fst]. rewrite HL, HP, ed_len_text. unfold ed_len in *.
  destruct (Nat.ltb_spec (length s) (length (before e) + length (after e))) as [L|L].
  - eapply walks_to; [walk|].
    rewrite blanks_length. lia.
  - eapply walks_to; [walk|]. lia.
Qed.
Lemma walks_op tty o t e W b out sy t' : holds t e -> printable_ed e -> printable_op (snd o) ->
  b + ed_len e < W -> b + ed_len (ed_op (snd o) e) < W -> run_op tty o t = Some (out, sy, t') ->
  walks W out (b + length (before e)) (b + length (before (ed_op (snd o) e))) /\ holds t' (ed_op (snd o) e).
Proof.
  intros H Pe Po L1 L2 E. destruct o as [color [k|s]]; unfold run_op in E; cbn [snd fst ed_op] in *.
  - destruct (keypressed_spec tty color k t e H) as (t2 & E2 & Ht & _). rewrite E2 in E. injection E as <- _ <-.
    split; [apply walks_key; assumption|exact Ht].
  - pose proof (set_line_holds tty color s t) as Hh.
    pose proof (walks_set_line tty color s t e W b H Po L1) as Hw. unfold ed_len in L2. cbn [before after length] in *. rewrite rev_length in *.
    destruct (set_line tty color s t) as [o1 t1]. cbn [fst snd] in *. injection E as <- _ <-. split; [apply Hw; lia|exact Hh].
Qed.
Lemma walks_ops tty os : forall t e W b out sys t', holds t e -> printable_ed e -> Forall (fun o => printable_op (snd o)) os ->
  (forall n, b + ed_len (snd (ed_run (firstn n (map snd os)) e)) < W) -> run_ops tty os t = Some (out, sys, t') ->
  walks W out (b + length (before e)) (b + length (before (snd (ed_run (map snd os) e)))).
Proof.
  induction os as [|o os IH]; intros t e W b out sys t' H Pe Po L E.
  - cbn in E. injection E as <- _ _. cbn. apply walks_nil. specialize (L 0). cbn in L. unfold ed_len in L. lia.
  - inversion Po as [|? ? Po1 Po2]; subst. cbn [run_ops] in E. destruct (run_op tty o t) as [[[o1 sy] t1]|] eqn:E1; [|discriminate].
    destruct (run_ops tty os t1) as [[[o2 sys2] t2]|] eqn:E2; [|discriminate]. injection E as <- _ _.
    assert (L0 := L 0). assert (L1 := L 1). cbn [firstn map ed_run snd] in L0, L1.
    destruct (walks_op tty o t e W b o1 sy t1 H Pe Po1 L0 L1 E1) as (W1 & H1).
    eapply walks_app; [exact W1|]. cbn [map ed_run].
    assert (Q : snd (let (sys, e') := ed_run (map snd os) (ed_op (snd o) e) in
        (match snd o with EKey k => key_symbol k (ed_text e) | ESet _ => SyNothing end :: sys, e')) = snd (ed_run (map snd os) (ed_op (snd o) e))).
    { destruct (ed_run (map snd os) (ed_op (snd o) e)). reflexivity. }
    rewrite Q. eapply IH; [exact H1|apply printable_ed_op; assumption|exact Po2| |exact E2].
    intros n. specialize (L (S n)). cbn [firstn map ed_run] in L.
    destruct (ed_run (firstn n (map snd os)) (ed_op (snd o) e)). exact L.
Qed.

(** While everything fits, the screen is the one of the unbounded emulator. *)
Lemma wrap_fits defer W tty os t e base sc : holds t e -> printable_ed e ->
  Forall (fun o => printable_op (snd o)) os -> shows base e sc -> fits W base (map snd os) e ->
  exists out sys t', run_ops tty os t = Some (out, sys, t') /\
    wrap_display defer W out sc = display out sc /\
    shows base (snd (ed_run (map snd os) e)) (wrap_display defer W out sc) /\
    sc_above (wrap_display defer W out sc) = sc_above sc.
Proof.
  intros H Pe Po Hs Hf. destruct (display_refinement tty os t e base sc H Pe Po Hs) as (out & sys & t' & E & Hd).
  exists out, sys, t'. split; [exact E|].
  assert (Hw : walks W out (length base + length (before e)) (length base + length (before (snd (ed_run (map snd os) e))))).
  { eapply walks_ops; try eassumption. intros n. rewrite <- ed_len_text. apply Hf. }
  destruct Hs as (_ & Hc & _ & Hg). destruct (Hw sc Hg Hc) as (Hn & _ & _ & Ha).
  rewrite (wrap_display_narrow defer W out sc Hn). auto.
Qed.

(** ** A full row *)
Lemma run_ops_app tty a : forall b t, run_ops tty (a ++ b) t =
  match run_ops tty a t with
  | Some (o1, s1, t1) => match run_ops tty b t1 with Some (o2, s2, t2) => Some (o1 ++ o2, s1 ++ s2, t2) | None => None end
  | None => None
  end.
Proof.
  induction a as [|o a IH]; intros b t; cbn [app run_ops].
  - destruct (run_ops tty b t) as [[[o2 s2] t2]|]; reflexivity.
  - destruct (run_op tty o t) as [[[o1 s1] t1]|]; [|reflexivity]. rewrite IH. destruct (run_ops tty a t1) as [[[o2 s2] t2]|]; [|reflexivity].
    destruct (run_ops tty b t2) as [[[o3 s3] t3]|]; [|reflexivity]. rewrite app_assoc. reflexivity.
Qed.
Lemma type_ed s : Forall printable s -> forall e, snd (ed_run (map (fun c => EKey (KAscii c)) s) e) = mkEd (rev s ++ before e) (after e).
Proof.
  induction 1 as [|c s Hc _ IH]; intros e; [destruct e; reflexivity|]. cbn [map ed_run]. specialize (IH (ed_op (EKey (KAscii c)) e)).
  destruct (ed_run (map (fun c => EKey (KAscii c)) s) (ed_op (EKey (KAscii c)) e)) as (q, e'). cbn [snd] in *. rewrite IH.
  cbn [ed_op ed_key]. destruct (Ascii.eqb_spec c "009") as [->|_]; [unfold printable in Hc; cbn in Hc; lia|].
  cbn [before after rev]. rewrite <- app_assoc. reflexivity.
Qed.
Lemma ed_run_app a : forall b e, snd (ed_run (a ++ b) e) = snd (ed_run b (snd (ed_run a e))).
Proof.
  induction a as [|o a IH]; intros b e; [reflexivity|]. cbn [app ed_run]. specialize (IH b (ed_op o e)).
  destruct (ed_run (a ++ b) (ed_op o e)), (ed_run a (ed_op o e)). exact IH.
Qed.
(** Colour sequences do not move the cursor, wherever it is. *)
Lemma wrap_sgr defer W n s : In n [0; 1; 32; 97]%N -> sc_esc s = Ground -> wrap_display defer W (sgr n) s = s.
Proof.
  intros H Hg. destruct s as [ab row be col es]. cbn in Hg. subst es.
  repeat (destruct H as [<-|H]; [reflexivity|]). destruct H.
Qed.
Lemma wrap_ai defer W tty f s : sc_esc s = Ground -> wrap_display defer W (after_input tty f) s = s.
Proof. intros H. unfold after_input. destruct (f || tty); [apply wrap_sgr; [cbn; tauto|exact H]|reflexivity]. Qed.
Lemma wrap_bi defer W color s : sc_esc s = Ground -> wrap_display defer W (bi color) s = s.
Proof. intros H. destruct color; [apply wrap_sgr; [cbn; tauto|exact H]|reflexivity]. Qed.

Lemma fill_wrong defer W tty color base above force s : Forall printable s -> s <> [] ->
  length base + length s = W -> 2 <= W ->
  exists out sys t', run_ops tty (fill_and_left color s) (mkTerm [] 0 force) = Some (out, sys, t') /\
    ~ shows base (snd (ed_run (map snd (fill_and_left color s)) (mkEd [] []))) (wrap_display defer W out (mkScreen above base [] (length base) Ground)).
Proof.
  intros Hs Hne Hw H2. destruct (exists_last Hne) as (u & c & ->). apply Forall_app in Hs as (Hu & Hc). inversion_clear Hc as [|? ? Hc' _].
  rewrite app_length in Hw. cbn [length] in Hw.
  set (us := map (fun c => (color, EKey (KAscii c))) u).
  assert (Eus : map snd us = map (fun c => EKey (KAscii c)) u) by (unfold us; rewrite map_map; reflexivity).
  destruct (wrap_fits defer W tty us (mkTerm [] 0 force) (mkEd [] []) base (mkScreen above base [] (length base) Ground)) as (o1 & y1 & t1 & E1 & _ & S1 & _).
  { split; reflexivity. }
  { split; constructor. }
  { apply Forall_forall. intros o Ho. unfold us in Ho. apply in_map_iff in Ho as (x & <- & Hx). right. rewrite Forall_forall in Hu. auto. }
  { apply shows_iff. exists above, 0. cbn. rewrite !app_nil_r. reflexivity. }
  { intros n. rewrite Eus, firstn_map, type_ed by (apply Forall_forall; intros x Hx; rewrite Forall_forall in Hu; apply Hu; rewrite <- (firstn_skipn n u); apply in_or_app; left; exact Hx). unfold ed_text. cbn [before after].
    rewrite !app_nil_r, rev_involutive, firstn_length. lia. }
  rewrite Eus, (type_ed u Hu) in S1. cbn [before after] in S1. rewrite app_nil_r in S1.
  assert (H1 : holds t1 (mkEd (rev u) [])).
  { destruct (editor_refinement tty us (mkTerm [] 0 force) (mkEd [] [])) as (o' & t' & E' & H'); [split; reflexivity|].
    rewrite E1 in E'. injection E' as _ _ <-. rewrite Eus, (type_ed u Hu) in H'. cbn [before after] in H'. rewrite app_nil_r in H'. exact H'. }
  destruct (keypressed_spec tty color (KAscii c) t1 _ H1) as (t2 & E2 & Ht2 & _).
  destruct (keypressed_spec tty color KLeft t2 _ Ht2) as (t3 & E3 & _ & _).
  assert (Hc9 : Ascii.eqb c "009" = false) by (destruct (Ascii.eqb_spec c "009") as [->|_]; [unfold printable in Hc'; cbn in Hc'; lia|reflexivity]).
  set (w1 := wrap_display defer W o1 (mkScreen above base [] (length base) Ground)) in *.
  exists (o1 ++ (key_out tty color (tm_force t1) (KAscii c) (mkEd (rev u) []) ++ key_out tty color (tm_force t2) KLeft (ed_key (KAscii c) (mkEd (rev u) [])) ++ [])).
  eexists _, t3. split.
  { unfold fill_and_left. rewrite map_app, <- app_assoc. fold us. rewrite run_ops_app, E1. cbn [map app run_ops]. unfold run_op. cbn [fst snd].
    rewrite E2, E3. reflexivity. }
  assert (Ee : snd (ed_run (map snd (fill_and_left color (u ++ [c]))) (mkEd [] [])) = mkEd (rev u) [c]).
  { unfold fill_and_left. rewrite map_app, map_map. cbn [snd]. rewrite ed_run_app, type_ed by (apply Forall_app; split; [exact Hu|repeat constructor; apply Hc']).
    rewrite rev_app_distr. cbn [rev app before after map ed_run snd ed_op ed_key]. rewrite app_nil_r. reflexivity. }
  rewrite Ee. rewrite !wrap_display_app. fold w1. cbn [ed_key key_out]. rewrite Hc9. cbn [before after app length].
  apply shows_iff in S1 as (ab & n & S1). cbn [before after app] in S1. rewrite rev_involutive in S1. rewrite S1.
  rewrite !wrap_display_app.
  rewrite wrap_bi by reflexivity. cbn [backs repeat].
  rewrite app_nil_r. change (wrap_display defer W (c :: ?l) ?s) with (wrap_display defer W l (wrap_byte defer W c s)).
  change (wrap_display defer W [] ?s) with s.
  assert (Hwr : forall ab row be col, written c (mkScreen ab row be col Ground) = true).
  { intros. unfold written. cbn [sc_esc]. apply printable_ground in Hc' as (-> & -> & -> & ->). reflexivity. }
  unfold wrap_byte at 1. rewrite Hwr. cbn [sc_col]. rewrite app_length. destruct (Nat.leb_spec W (length base + length u)) as [L|L]; [lia|].
  replace (length base + length u) with (length (base ++ u)) by apply app_length.
  assert (Hput : put_char c (mkScreen ab ((base ++ u) ++ blanks n) [] (length (base ++ u)) Ground) =
    mkScreen ab ((base ++ u) ++ c :: tl (blanks n)) [] (length ((base ++ u) ++ [c])) Ground).
  { rewrite <- display_char by exact Hc'. unfold show_byte. cbn [sc_esc]. apply printable_ground in Hc' as (-> & -> & -> & ->). reflexivity. }
  cbv zeta. rewrite Hput. cbn [sc_col]. rewrite !app_length. cbn [length].
  destruct (Nat.leb_spec W (length base + length u + 1)) as [_|]; [|lia]. destruct defer; cbn [negb andb].
  - rewrite wrap_ai by reflexivity. change (wrap_display true W ["008"%char] ?s) with (wrap_byte true W "008" s).
    unfold wrap_byte. change (written "008" (mkScreen ?a ?b ?c ?d Ground)) with false. change (is_back "008" (mkScreen ?a ?b ?c ?d Ground)) with true.
    cbn [sc_col andb]. destruct (Nat.leb_spec W (length base + length u + 1)) as [_|]; [|lia].
    intros (_ & Hcol & _). cbn [sc_col before] in Hcol. rewrite rev_length in Hcol. lia.
  - unfold next_row at 1. cbn [sc_row sc_above sc_below hd tl sc_esc]. rewrite wrap_ai by reflexivity.
    change (wrap_display false W ["008"%char] ?s) with (wrap_byte false W "008" s).
    unfold wrap_byte. change (written "008" (mkScreen ?a ?b ?c ?d Ground)) with false. change (is_back "008" (mkScreen ?a ?b ?c ?d Ground)) with true.
    cbn [sc_col andb]. destruct (Nat.leb_spec W 0) as [|_]; [lia|]. intros ((k & Hr) & _). cbn in Hr.
    apply (f_equal (@List.length ascii)) in Hr. rewrite !app_length in Hr. unfold ed_text in Hr. cbn [before after] in Hr. rewrite ?app_length in Hr. cbn [length] in Hr. lia.
Qed.
