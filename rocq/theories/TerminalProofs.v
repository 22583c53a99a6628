(** * Proofs about the line editor *)

From Verif Require Import Base TerminalModel TerminalSpec.

Lemma firstn_len {A} (a b : list A) : firstn (length a) (a ++ b) = a.
Proof. rewrite firstn_app, Nat.sub_diag, firstn_all. cbn [firstn]. apply app_nil_r. Qed.
Lemma skipn_len {A} (a b : list A) : skipn (length a) (a ++ b) = b.
Proof. rewrite skipn_app, Nat.sub_diag, skipn_all. reflexivity. Qed.

Lemma tail_from_app a b : tail_from (length a) (a ++ b) = Some b.
Proof.
  unfold tail_from. rewrite app_length. destruct (Nat.leb_spec (length a) (length a + length b)); [|lia].
  rewrite skipn_len. reflexivity.
Qed.
Lemma erase_at_app a c b : erase_at (length a) (a ++ c :: b) = Some (a ++ b).
Proof.
  unfold erase_at. rewrite app_length. cbn [length].
  destruct (Nat.ltb_spec (length a) (length a + S (length b))); [|lia].
  rewrite firstn_len. do 2 f_equal.
  replace (S (length a)) with (length (a ++ [c])) by (rewrite app_length; cbn; lia).
  change (a ++ c :: b) with (a ++ [c] ++ b). rewrite app_assoc. apply skipn_len.
Qed.
Lemma insert_at_app a c b : insert_at (length a) c (a ++ b) = Some (a ++ c :: b).
Proof.
  unfold insert_at. rewrite app_length. destruct (Nat.leb_spec (length a) (length a + length b)); [|lia].
  rewrite firstn_len, skipn_len. reflexivity.
Qed.
Lemma size_sub_app {A} (a b : list A) : size_sub (length (a ++ b)) (length a) = Some (length b).
Proof.
  unfold size_sub. rewrite app_length. destruct (Nat.leb_spec (length a) (length a + length b)); [|lia].
  f_equal. lia.
Qed.

Lemma tail_from_rev b x : tail_from (length b) (rev b ++ x) = Some x.
Proof. rewrite <- rev_length. apply tail_from_app. Qed.
Lemma erase_at_rev b c x : erase_at (length b) (rev b ++ c :: x) = Some (rev b ++ x).
Proof. rewrite <- (rev_length b). apply erase_at_app. Qed.
Lemma size_sub_rev {A} (b x : list A) : size_sub (length (rev b ++ x)) (length b) = Some (length x).
Proof. rewrite <- (rev_length b). apply size_sub_app. Qed.

(** ** What each key does, in terms of the ideal editor *)
Definition bi (color : bool) : str := if color then sgr 97 else [].
Definition fi (color force : bool) : bool := if color then true else force.
Lemma before_input_eq color force : before_input color force = (bi color, fi color force).
Proof. destruct color; reflexivity. Qed.

(** The bytes a key writes. *)
Definition key_out (tty color force : bool) (k : key) (e : editor) : str :=
  let ai := after_input tty (fi color force) in
  match k with
  | KBackspace => match before e with
                  | [] => []
                  | _ => ["008"%char] ++ after e ++ [" "%char] ++ backs (length (after e) + 1)
                  end
  | KLeft => match before e with [] => [] | _ => ["008"%char] end
  | KRight => match after e with [] => [] | c :: _ => bi color ++ [c] ++ ai end
  | KRet => ["013"; "010"]%char
  | KAscii c => if Ascii.eqb c "009" then []
                else bi color ++ [c] ++ after e ++ ai ++ backs (length (after e))
  | KCanc => match after e with [] => [] | _ :: a => a ++ [" "%char] ++ backs (length (after e)) end
  | KEnd => bi color ++ after e ++ ai
  | KHome => backs (length (before e))
  | _ => []
  end.

Definition key_force (color force : bool) (k : key) (e : editor) : bool :=
  match k with
  | KRight => match after e with [] => force | _ => fi color force end
  | KAscii c => if Ascii.eqb c "009" then force else fi color force
  | KEnd => fi color force
  | _ => force
  end.

Lemma keypressed_spec tty color k t e : holds t e ->
  exists t', keypressed tty color k t =
    Some (key_out tty color (tm_force t) k e, key_symbol k (ed_text e), t') /\
    holds t' (ed_key k e) /\ tm_force t' = key_force color (tm_force t) k e.
Proof.
  destruct t as [line pos force], e as [b a]. unfold holds, ed_text.
  cbn [tm_line tm_pos tm_force before after]. intros [-> ->].
  unfold keypressed. cbn [tm_line tm_pos tm_force]. rewrite before_input_eq.
  destruct k as [c| | | | | | | | | | | |]; cbn [key_out key_symbol ed_key key_force before after ed_text].
  - (* ascii *) destruct (Ascii.eqb c "009").
    + eexists. split; [reflexivity|]. repeat split.
    + rewrite <- (rev_length b), tail_from_app. cbn [obind]. rewrite size_sub_app. cbn [obind].
      rewrite insert_at_app. cbn [obind]. eexists. split; [reflexivity|].
      cbn [tm_line tm_pos tm_force before after rev length]. rewrite <- app_assoc, rev_length.
      repeat split. lia.
  - eexists. split; [reflexivity|]. repeat split.
  - eexists. split; [reflexivity|]. repeat split.
  - (* left *) destruct b as [|c b]; cbn [length Nat.ltb Nat.leb].
    + eexists. split; [reflexivity|]. repeat split.
    + eexists. split; [reflexivity|]. cbn [tm_line tm_pos tm_force before after rev length].
      rewrite <- app_assoc. repeat split. lia.
  - (* right *) destruct a as [|c a].
    + rewrite app_nil_r, rev_length. destruct (Nat.ltb_spec (length b) (length b)); [lia|].
      eexists. split; [reflexivity|]. cbn. rewrite ?app_nil_r. repeat split.
    + rewrite app_length, rev_length. cbn [length].
      destruct (Nat.ltb_spec (length b) (length b + S (length a))); [|lia].
      rewrite nth_error_app2 by (rewrite rev_length; lia). rewrite rev_length, Nat.sub_diag. cbn [nth_error obind].
      eexists. split; [reflexivity|]. cbn [tm_line tm_pos tm_force before after rev length].
      rewrite <- app_assoc. repeat split. lia.
  - (* backspace *) destruct b as [|c b]; cbn [length Nat.eqb].
    + eexists. split; [reflexivity|]. repeat split.
    + replace (S (length b) - 1) with (length (rev b)) by (rewrite rev_length; lia).
      cbn [rev]. rewrite <- app_assoc. cbn [app]. rewrite erase_at_app. cbn [obind].
      rewrite tail_from_app. cbn [obind]. rewrite size_sub_app. cbn [obind].
      eexists. split; [reflexivity|]. cbn [tm_line tm_pos tm_force before after tl]. rewrite rev_length.
      repeat split.
  - (* canc *) destruct a as [|c a].
    + rewrite app_nil_r, rev_length, Nat.eqb_refl. eexists. split; [reflexivity|].
      cbn. rewrite ?app_nil_r. repeat split.
    + destruct (Nat.eqb_spec (length b) (length (rev b ++ c :: a))) as [E|_].
      { rewrite app_length, rev_length in E. cbn in E. lia. }
      replace (length b + 1) with (length (rev b ++ [c])) by (rewrite app_length, rev_length; cbn; lia).
      replace (tail_from (length (rev b ++ [c])) (rev b ++ c :: a)) with (Some a).
      2: { change (rev b ++ c :: a) with (rev b ++ [c] ++ a). rewrite app_assoc. symmetry. apply tail_from_app. }
      cbn [obind]. rewrite size_sub_rev. cbn [obind].
      rewrite erase_at_rev. cbn [obind].
      eexists. split; [reflexivity|]. repeat split.
  - (* home *) eexists. split; [reflexivity|]. repeat split.
  - (* end *) rewrite tail_from_rev. cbn [obind].
    eexists. split; [reflexivity|]. cbn [tm_line tm_pos tm_force before after].
    unfold ed_text. cbn [before after]. rewrite rev_length, rev_involutive, app_nil_r. repeat split.
  - eexists. split; [reflexivity|]. repeat split.
  - eexists. split; [reflexivity|]. repeat split.
  - eexists. split; [reflexivity|]. repeat split.
  - eexists. split; [reflexivity|]. repeat split.
Qed.

Lemma set_line_holds tty color s t : holds (snd (set_line tty color s t)) (mkEd (rev s) []).
Proof.
  unfold set_line. rewrite before_input_eq. unfold holds, ed_text. cbn [snd tm_line tm_pos before after].
  rewrite rev_involutive, app_nil_r, rev_length. split; reflexivity.
Qed.

Lemma run_op_spec tty o t e : holds t e ->
  exists out t', run_op tty o t =
    Some (out, match snd o with EKey k => key_symbol k (ed_text e) | ESet _ => SyNothing end, t') /\
    holds t' (ed_op (snd o) e).
Proof.
  intro H. destruct o as [color [k|s]]; unfold run_op; cbn [snd fst ed_op].
  - destruct (keypressed_spec tty color k t e H) as (t' & E & H' & _). eexists _, t'. split; [exact E|exact H'].
  - pose proof (set_line_holds tty color s t) as H'. destruct (set_line tty color s t) as [out t'].
    exists out, t'. split; [reflexivity|exact H'].
Qed.

Lemma editor_refinement tty os : forall t e, holds t e ->
  exists out t', run_ops tty os t = Some (out, fst (ed_run (map snd os) e), t') /\
    holds t' (snd (ed_run (map snd os) e)).
Proof.
  induction os as [|o os IH]; intros t e H; cbn [run_ops map ed_run].
  - exists [], t. split; [reflexivity|exact H].
  - destruct (run_op_spec tty o t e H) as (out & t1 & -> & H1).
    destruct (IH t1 _ H1) as (out2 & t2 & -> & H2).
    destruct (ed_run (map snd os) (ed_op (snd o) e)) as [sys e'].
    exists (out ++ out2), t2. split; [reflexivity|exact H2].
Qed.

Lemma init_holds : holds term_init (mkEd [] []).
Proof. split; reflexivity. Qed.

Lemma editor_from_start tty os :
  exists out t', run_ops tty os term_init = Some (out, fst (ed_run (map snd os) (mkEd [] [])), t') /\
    holds t' (snd (ed_run (map snd os) (mkEd [] []))).
Proof. apply editor_refinement, init_holds. Qed.

Lemma editor_safe tty os : exists out sys t',
  run_ops tty os term_init = Some (out, sys, t') /\ tm_pos t' <= length (tm_line t').
Proof.
  destruct (editor_from_start tty os) as (out & t' & E & [L P]). exists out. eexists. exists t'.
  split; [exact E|]. rewrite L, P. unfold ed_text. rewrite app_length, rev_length. lia.
Qed.

(** ** The display *)
Lemma display_app a b s : display (a ++ b) s = display b (display a s).
Proof. apply fold_left_app. Qed.
Lemma display_nil s : display [] s = s.
Proof. reflexivity. Qed.

Lemma printable_ground c : printable c ->
  Ascii.eqb c "027" = false /\ Ascii.eqb c "008" = false /\ Ascii.eqb c "013" = false /\ Ascii.eqb c "010" = false.
Proof.
  unfold printable. intro H.
  repeat split; (match goal with |- Ascii.eqb c ?d = _ => destruct (Ascii.eqb_spec c d) as [->|]; [|reflexivity] end);
    cbn in H; lia.
Qed.

Lemma display_char ab r1 r2 be c : printable c ->
  show_byte c (mkScreen ab (r1 ++ r2) be (length r1) Ground) =
  mkScreen ab (r1 ++ c :: tl r2) be (length (r1 ++ [c])) Ground.
Proof.
  intro H. apply printable_ground in H as (H1 & H2 & H3 & H4).
  unfold show_byte. cbn [sc_esc]. rewrite H1, H2, H3, H4. unfold put_char. cbn [sc_row sc_col sc_above sc_below].
  rewrite app_length. replace (length r1 - (length r1 + length r2)) with 0 by lia. cbn [blanks repeat].
  rewrite app_nil_r, firstn_len. f_equal.
  - f_equal. f_equal. replace (S (length r1)) with (length r1 + 1) by lia. rewrite <- skipn_skipn', skipn_len.
    destruct r2; reflexivity.
  - rewrite app_length. cbn. lia.
Qed.

(** Writing a printable string over the rest [r2] of the row. *)
Lemma display_text s : Forall printable s -> forall ab r1 r2 be,
  display s (mkScreen ab (r1 ++ r2) be (length r1) Ground) =
  mkScreen ab (r1 ++ s ++ skipn (length s) r2) be (length (r1 ++ s)) Ground.
Proof.
  induction 1 as [|c s Hc _ IH]; intros ab r1 r2 be.
  - cbn [app length skipn]. rewrite app_nil_r. reflexivity.
  - unfold display. cbn [fold_left]. fold (display s). rewrite display_char by exact Hc.
    change (r1 ++ c :: tl r2) with (r1 ++ [c] ++ tl r2). rewrite app_assoc.
    change (fold_left (fun s c => show_byte c s) s) with (display s). rewrite IH.
    rewrite <- !app_assoc. cbn [app length]. f_equal. f_equal. f_equal. f_equal.
    destruct r2; cbn [tl skipn]; [apply skipn_nil|reflexivity].
Qed.

Lemma display_backs n : forall ab row be col,
  display (backs n) (mkScreen ab row be col Ground) = mkScreen ab row be (col - n) Ground.
Proof.
  induction n as [|n IH]; intros ab row be col.
  - cbn. f_equal. lia.
  - unfold backs. cbn [repeat]. change (?x :: ?l) with ([x] ++ l). rewrite display_app.
    change (repeat "008"%char n) with (backs n).
    change (display ["008"%char] (mkScreen ab row be col Ground)) with (mkScreen ab row be (col - 1) Ground).
    rewrite IH. f_equal. lia.
Qed.

Lemma display_sgr n : In n [0; 1; 32; 97]%N -> forall ab row be col,
  display (sgr n) (mkScreen ab row be col Ground) = mkScreen ab row be col Ground.
Proof. intros H ab row be col. repeat (destruct H as [<-|H]; [reflexivity|]). destruct H. Qed.

Lemma display_bi color ab row be col :
  display (bi color) (mkScreen ab row be col Ground) = mkScreen ab row be col Ground.
Proof. destruct color; [apply display_sgr; cbn; tauto|reflexivity]. Qed.
Lemma display_ai tty f ab row be col :
  display (after_input tty f) (mkScreen ab row be col Ground) = mkScreen ab row be col Ground.
Proof. unfold after_input. destruct (f || tty); [apply display_sgr; cbn; tauto|reflexivity]. Qed.

Lemma printable_blanks n : Forall printable (blanks n).
Proof. induction n; constructor; [unfold printable; cbn; lia|assumption]. Qed.
Lemma printable_space : Forall printable [" "%char].
Proof. exact (printable_blanks 1). Qed.

Lemma blanks_app n m : blanks n ++ blanks m = blanks (n + m).
Proof. unfold blanks. symmetry. apply repeat_app. Qed.
Lemma skipn_blanks k n : skipn k (blanks n) = blanks (n - k).
Proof.
  revert k. induction n as [|n IH]; intros [|k]; cbn [blanks repeat skipn Nat.sub]; try reflexivity.
  apply IH.
Qed.
Lemma blanks_length n : length (blanks n) = n.
Proof. apply repeat_length. Qed.


Lemma shows_iff base e s : shows base e s <->
  exists ab n, s = mkScreen ab ((base ++ rev (before e)) ++ after e ++ blanks n) [] (length (base ++ rev (before e))) Ground.
Proof.
  unfold shows, ed_text. destruct s as [ab row be col es]. cbn. rewrite app_length, rev_length. split.
  - intros ((n & ->) & -> & -> & ->). exists ab, n. rewrite <- !app_assoc. reflexivity.
  - intros (ab' & n & E). injection E as -> -> -> -> ->. rewrite <- !app_assoc.
    split; [exists n; rewrite <- app_assoc; reflexivity|]. repeat split.
Qed.

Lemma display_key tty color force k e base s : printable_ed e -> printable_op (EKey k) ->
  shows base e s -> shows base (ed_key k e) (display (key_out tty color force k e) s) .
Proof.
  intros [Pb Pa] Pk H. apply shows_iff in H as (ab & n & ->). apply shows_iff.
  destruct e as [b a]. cbn [before after] in *.
  destruct k as [c| | | | | | | | | | | |]; cbn [ed_key key_out before after printable_op] in *;
    try (exists ab, n; reflexivity).
  - (* ascii *) destruct (Ascii.eqb_spec c "009") as [->|Hc].
    + exists ab, n. reflexivity.
    + destruct Pk as [Pk|Pk]; [contradiction|]. rewrite !display_app, display_bi.
      rewrite display_text by (constructor; [exact Pk|constructor]).
      change (a ++ blanks n) with (a ++ blanks n) in *. cbn [length].
      rewrite app_assoc. rewrite display_text by exact Pa. rewrite display_ai, display_backs.
      exists ab. rewrite skipn_skipn'. cbn [plus]. cbn [before after rev].
      exists (n - 1).
      assert (E : skipn (S (length a)) (a ++ blanks n) = blanks (n - 1)).
      { replace (S (length a)) with (length a + 1) by lia. rewrite <- skipn_skipn', skipn_len. apply skipn_blanks. }
      rewrite E. f_equal.
      * rewrite <- !app_assoc. reflexivity.
      * rewrite !app_length. cbn [length]. lia.
  - (* left *) destruct b as [|c b].
    + exists ab, n. reflexivity.
    + change (display ["008"%char] ?s) with (display (backs 1) s). rewrite display_backs.
      exists ab, n. cbn [before after rev]. f_equal.
      * rewrite <- !app_assoc. reflexivity.
      * rewrite !app_length. cbn. rewrite ?app_length, ?rev_length. cbn. lia.
  - (* right *) destruct a as [|c a].
    + exists ab, n. reflexivity.
    + inversion_clear Pa as [|? ? Hc Ha]. rewrite !display_app, display_bi.
      rewrite display_text by (constructor; [exact Hc|constructor]). rewrite display_ai.
      exists ab, n. cbn [before after rev length app skipn]. f_equal; rewrite <- !app_assoc; reflexivity.
  - (* backspace *) destruct b as [|c b].
    + exists ab, n. reflexivity.
    + rewrite !display_app. change (display ["008"%char] ?s) with (display (backs 1) s).
      rewrite display_backs. cbn [before after rev tl].
      replace (length (base ++ rev b ++ [c]) - 1) with (length (base ++ rev b))
        by (rewrite !app_length; cbn; lia).
      rewrite (app_assoc base (rev b) [c]), <- (app_assoc (base ++ rev b) [c]).
      rewrite display_text by exact Pa.
      replace (skipn (length a) ([c] ++ a ++ blanks n)) with (match rev (c :: a) with [] => " "%char | x :: _ => x end :: blanks n).
      2: { destruct (rev (c :: a)) as [|x r] eqn:E.
           { apply (f_equal (@length ascii)) in E. rewrite rev_length in E. discriminate. }
           assert (E' : c :: a = rev r ++ [x]).
           { rewrite <- (rev_involutive (c :: a)), E. reflexivity. }
           change ([c] ++ a ++ blanks n) with ((c :: a) ++ blanks n). rewrite E'.
           assert (length a = length (rev r)) as ->.
           { apply (f_equal (@length ascii)) in E'. rewrite app_length in E'. cbn in E'. lia. }
           rewrite <- app_assoc, skipn_len. reflexivity. }
      rewrite app_assoc. rewrite display_text by exact printable_space. cbn [length skipn].
      rewrite display_backs. exists ab, (S n). f_equal.
      * rewrite <- !app_assoc. reflexivity.
      * rewrite !app_length. cbn [length]. lia.
  - (* canc *) destruct a as [|c a].
    + exists ab, n. reflexivity.
    + inversion_clear Pa as [|? ? Hc Ha]. rewrite !display_app.
      rewrite display_text by exact Ha.
      replace (skipn (length a) ((c :: a) ++ blanks n)) with (match rev (c :: a) with [] => " "%char | x :: _ => x end :: blanks n).
      2: { destruct (rev (c :: a)) as [|x r] eqn:E.
           { apply (f_equal (@length ascii)) in E. rewrite rev_length in E. discriminate. }
           assert (E' : c :: a = rev r ++ [x]).
           { rewrite <- (rev_involutive (c :: a)), E. reflexivity. }
           rewrite E'. assert (length a = length (rev r)) as ->.
           { apply (f_equal (@length ascii)) in E'. rewrite app_length in E'. cbn in E'. lia. }
           rewrite <- app_assoc, skipn_len. reflexivity. }
      rewrite app_assoc. rewrite display_text by exact printable_space. cbn [length skipn].
      rewrite display_backs. exists ab, (S n). cbn [tl before after]. f_equal.
      * rewrite <- !app_assoc. reflexivity.
      * rewrite !app_length. cbn [length]. lia.
  - (* home *) rewrite display_backs. exists ab, n. unfold ed_text. cbn [before after rev]. f_equal.
    + rewrite app_nil_r, <- !app_assoc. reflexivity.
    + rewrite !app_length, rev_length. cbn. lia.
  - (* end *) rewrite !display_app, display_bi, display_text by exact Pa. rewrite display_ai, skipn_len.
    exists ab, n. unfold ed_text. cbn [before after]. rewrite rev_involutive. cbn [app].
    f_equal; rewrite <- !app_assoc; reflexivity.
  - (* ret *) destruct Pk.
Qed.

Lemma display_set_line tty color s t e base sc : holds t e -> Forall printable s -> shows base e sc ->
  shows base (mkEd (rev s) []) (display (fst (set_line tty color s t)) sc).
Proof.
  intros [HL HP] Ps H. apply shows_iff in H as (ab & n & ->). apply shows_iff.
  destruct e as [b a]. unfold ed_text in HL. cbn [before after] in *.
  unfold set_line. rewrite before_input_eq. cbn [fst]. rewrite HL, HP.
  assert (E : display (bi color ++ backs (length b) ++ s ++ after_input tty (fi color (tm_force t)))
     (mkScreen ab ((base ++ rev b) ++ a ++ blanks n) [] (length (base ++ rev b)) Ground) =
     mkScreen ab (base ++ s ++ skipn (length s) ((rev b ++ a) ++ blanks n)) [] (length (base ++ s)) Ground).
  { rewrite !display_app, display_bi, display_backs.
    replace (length (base ++ rev b) - length b) with (length base) by (rewrite app_length, rev_length; lia).
    rewrite <- app_assoc, (app_assoc (rev b)). rewrite display_text by exact Ps. apply display_ai. }
  destruct (Nat.ltb_spec (length s) (length (rev b ++ a))) as [L|L].
  - rewrite display_app, E. rewrite display_app.
    set (k := length (rev b ++ a) - length s).
    rewrite skipn_app. replace (length s - length (rev b ++ a)) with 0 by lia. cbn [skipn].
    rewrite app_assoc. rewrite display_text by apply printable_blanks.
    rewrite display_backs, blanks_length.
    rewrite skipn_app. rewrite skipn_length. fold k.
    replace (k - k) with 0 by lia. cbn [skipn].
    rewrite (skipn_all2 (skipn (length s) (rev b ++ a))) by (rewrite skipn_length; unfold k; lia).
    cbn [app]. rewrite blanks_app. exists ab, (k + n). cbn [before after]. rewrite rev_involutive. cbn [app]. f_equal.
    rewrite (app_length (base ++ s)), blanks_length. lia.
  - rewrite E. rewrite skipn_app. rewrite (skipn_all2 (rev b ++ a)) by exact L. cbn [app].
    rewrite skipn_blanks. exists ab. eexists. cbn [before after]. rewrite rev_involutive. cbn [app].
    rewrite <- app_assoc. reflexivity.
Qed.

Lemma printable_tl s : Forall printable s -> Forall printable (tl s).
Proof. destruct 1; [constructor|assumption]. Qed.
Lemma printable_ed_op o e : printable_op o -> printable_ed e -> printable_ed (ed_op o e).
Proof.
  intros Po [Pb Pa]. destruct e as [b a]. cbn [before after] in *. unfold printable_ed.
  assert (P : Forall printable (rev b ++ a)) by (apply Forall_app; split; [apply Forall_rev; exact Pb|exact Pa]).
  destruct o as [[c| | | | | | | | | | | |]|s]; cbn [ed_op ed_key before after printable_op ed_text] in *; try tauto.
  - destruct (Ascii.eqb_spec c "009") as [->|Hc]; cbn [before after]; [tauto|]. split; [|exact Pa].
    constructor; [destruct Po; [contradiction|assumption]|exact Pb].
  - destruct b as [|c b]; cbn [before after]; [tauto|]. inversion_clear Pb. split; [assumption|constructor; assumption].
  - destruct a as [|c a]; cbn [before after]; [tauto|]. inversion_clear Pa. split; [constructor; assumption|assumption].
  - split; [apply printable_tl; exact Pb|exact Pa].
  - split; [exact Pb|apply printable_tl; exact Pa].
  - unfold ed_text. cbn [before after]. split; [constructor|exact P].
  - unfold ed_text. cbn [before after]. split; [apply Forall_rev; exact P|constructor].
  - split; [apply Forall_rev; exact Po|constructor].
Qed.

Lemma display_op tty o t e base sc out sy t' : holds t e -> printable_ed e -> printable_op (snd o) ->
  shows base e sc -> run_op tty o t = Some (out, sy, t') -> shows base (ed_op (snd o) e) (display out sc).
Proof.
  intros H Pe Po Hs E. destruct o as [color [k|s]]; unfold run_op in E; cbn [snd fst ed_op] in *.
  - destruct (keypressed_spec tty color k t e H) as (t2 & E2 & _). rewrite E2 in E. injection E as <- _ _.
    apply display_key; assumption.
  - pose proof (display_set_line tty color s t e base sc H Po Hs) as Q.
    destruct (set_line tty color s t) as [o2 t2]. injection E as <- _ _. exact Q.
Qed.

Lemma display_refinement tty os : forall t e base sc, holds t e -> printable_ed e ->
  Forall (fun o => printable_op (snd o)) os -> shows base e sc ->
  exists out sys t', run_ops tty os t = Some (out, sys, t') /\
    shows base (snd (ed_run (map snd os) e)) (display out sc).
Proof.
  induction os as [|o os IH]; intros t e base sc H Pe Po Hs; cbn [run_ops map ed_run].
  - exists [], [], t. split; [reflexivity|exact Hs].
  - inversion_clear Po as [|? ? P1 P2].
    destruct (run_op_spec tty o t e H) as (out & t1 & E1 & H1). rewrite E1.
    pose proof (display_op tty o t e base sc _ _ _ H Pe P1 Hs E1) as Hs1.
    destruct (IH t1 _ base (display out sc) H1 (printable_ed_op _ _ P1 Pe) P2 Hs1) as (out2 & sys2 & t2 & -> & H2).
    destruct (ed_run (map snd os) (ed_op (snd o) e)) as [sys e'].
    eexists _, _, t2. split; [reflexivity|]. rewrite display_app. exact H2.
Qed.

(** The statement for the key sequence typed after a prompt [base] was written. *)
Lemma display_from_prompt tty os base above force :
  Forall (fun o => printable_op (snd o)) os ->
  exists out sys t', run_ops tty os (mkTerm [] 0 force) = Some (out, sys, t') /\
    shows base (snd (ed_run (map snd os) (mkEd [] []))) (display out (mkScreen above base [] (length base) Ground)).
Proof.
  intro P. apply display_refinement.
  - split; reflexivity.
  - split; constructor.
  - exact P.
  - apply shows_iff. exists above, 0. cbn. rewrite !app_nil_r. reflexivity.
Qed.

(** Return moves to a fresh line. *)
Lemma display_return tty color t e base sc : holds t e -> shows base e sc ->
  exists t' rows row, keypressed tty color KRet t = Some (["013"; "010"]%char, SyCommand (ed_text e), t') /\
    holds t' (mkEd [] []) /\ display ["013"; "010"]%char sc = mkScreen (row :: rows) [] [] 0 Ground.
Proof.
  intros H Hs. destruct (keypressed_spec tty color KRet t e H) as (t' & E & H' & _).
  apply shows_iff in Hs as (ab & n & ->). eexists t', _, _. split; [exact E|]. split; [exact H'|]. reflexivity.
Qed.

(** Clearing the screen, writing the prompt and restoring the line. *)
Lemma display_clear sc : sc_esc sc = Ground ->
  display clear_screen sc = mkScreen [] [] [] 0 Ground.
Proof.
  destruct sc as [ab row be col es]. cbn [sc_esc]. intros ->. unfold clear_screen, display.
  cbn [fold_left]. unfold show_byte at 6. cbn [sc_esc].
  change (Ascii.eqb "027" "027") with true. cbv iota. cbn [sc_esc sc_above sc_row sc_below sc_col].
  unfold show_byte at 5. cbn [sc_esc sc_above sc_row sc_below sc_col].
  change (Ascii.eqb "[" "[") with true. cbv iota.
  unfold show_byte at 4. cbn [sc_esc sc_above sc_row sc_below sc_col].
  change (is_param "H") with false. change (Ascii.eqb "H" "H") with true. cbv iota.
  destruct (rev ab ++ [row]) as [|r rs] eqn:E.
  - destruct (rev ab); discriminate.
  - reflexivity.
Qed.
