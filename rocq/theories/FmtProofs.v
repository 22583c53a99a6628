(** * Proofs about formatted output *)

From Coq Require Import DecimalString DecimalN.
From Verif Require Import Base FromStringModel FromStringSpec FromStringProofs HistoryModel HistorySpec HistoryProofs MenuModel TerminalModel SessionModel RangModel RangSpec FmtModel FmtSpec.
Open Scope nat_scope.
Open Scope list_scope.

(** ** Numbers *)
Lemma value_app b l d : value b (l ++ [d]) = (value b l * b + d)%N.
Proof. unfold value. rewrite fold_left_app. reflexivity. Qed.

Lemma digits_value k b n : (2 <= b)%N -> (n < 2 ^ N.of_nat k)%N ->
  value b (rev (digits_of k b n)) = n /\ Forall (fun d => (d < b)%N) (digits_of k b n) /\ (n <> 0%N -> exists d l, rev (digits_of k b n) = d :: l /\ d <> 0%N).
Proof.
  intro Hb. revert n. induction k as [|k IH]; intros n Hn.
  - cbn in Hn. assert (n = 0%N) by lia. subst n. split; [reflexivity|]. split; [constructor|]. intro H. contradiction.
  - cbn [digits_of]. destruct (N.eqb_spec n 0) as [->|N0].
    + split; [reflexivity|]. split; [constructor|]. intro H. contradiction.
    + assert (Hd : (n / b < 2 ^ N.of_nat k)%N).
      { apply N.div_lt_upper_bound; [lia|]. rewrite Nat2N.inj_succ, N.pow_succ_r' in Hn. nia. }
      destruct (IH _ Hd) as (V & F & L). cbn [rev]. split; [|split].
      * rewrite value_app, V. rewrite N.mul_comm. symmetry. apply N.div_mod. lia.
      * constructor; [apply N.mod_lt; lia|exact F].
      * intros _. destruct (N.eq_dec (n / b) 0) as [Z|Z].
        -- rewrite Z. replace (digits_of k b 0) with (@nil N) by (destruct k; reflexivity). cbn [rev app].
           exists (n mod b)%N, []. split; [reflexivity|]. pose proof (N.div_mod n b ltac:(lia)). rewrite Z in H. lia.
        -- destruct (L Z) as (d & l & E & D). exists d, (l ++ [n mod b])%N. rewrite E. split; [reflexivity|exact D].
Qed.
Lemma size_bound n : (n < 2 ^ N.of_nat (N.to_nat (N.size n)))%N.
Proof. rewrite N2Nat.id. apply N.size_gt. Qed.

Lemma digit_char_table u d : (d < 16)%N -> Some (digit_char u d) = nth_error (hexdigits u) (N.to_nat d).
Proof.
  intro H. rewrite <- (N2Nat.id d). assert (D : N.to_nat d < 16) by lia. revert D. generalize (N.to_nat d). clear. intros d D. rewrite Nat2N.id.
  do 16 (destruct d as [|d]; [destruct u; reflexivity|]). lia.
Qed.
Lemma in_base_numeral b u n : (2 <= b <= 16)%N -> numeral b u n (in_base b u n).
Proof.
  intros Hb. unfold in_base. destruct (digits_value _ b n ltac:(lia) (size_bound n)) as (V & F & L).
  apply Forall_rev in F. destruct (N.eq_dec n 0) as [->|N0].
  - exists [0%N]. split; [reflexivity|]. split; [constructor; [lia|constructor]|]. split; [discriminate|]. split; [reflexivity|]. destruct u; reflexivity.
  - destruct (L N0) as (d & l & E & D). rewrite E in *. exists (d :: l). split; [exact V|]. split; [exact F|]. split; [discriminate|]. split.
    + cbn. intro. contradiction.
    + rewrite map_map. apply map_ext_in. intros x Hx. apply digit_char_table. rewrite Forall_forall in F. apply F in Hx. lia.
Qed.

Lemma decimal_list s v : FromStringSpec.digits s v -> exists l, Forall (fun d => (d < 10)%N) l /\
  (forall a, fold_left (fun a d => (a * 10 + d)%N) l a = (a * 10 ^ N.of_nat (length s) + Z.to_N v)%N) /\ (0 <= v)%Z /\
  map Some s = map (fun d => nth_error (lit "0123456789") (N.to_nat d)) l.
Proof.
  induction 1 as [|c d s v (Hd0 & Hd) _ IH].
  - exists []. split; [constructor|]. split; [intro a; cbn; lia|]. split; [lia|reflexivity].
  - destruct IH as (l & F & V & P & M). assert (Hlt : (d < 10)%Z).
    { assert (Z.to_nat d < length digit_chars) by (apply nth_error_Some; rewrite Hd; discriminate). change (length digit_chars) with 10 in H. lia. }
    exists (Z.to_N d :: l). split; [constructor; [lia|exact F]|]. split; [|split].
    + intro a. cbn [fold_left length]. rewrite V. rewrite Nat2N.inj_succ, N.pow_succ_r'.
      rewrite Z2N.inj_add by nia. rewrite Z2N.inj_mul by nia. replace (Z.to_N (10 ^ Z.of_nat (length s))) with (10 ^ N.of_nat (length s))%N; [lia|].
      apply N2Z.inj. rewrite N2Z.inj_pow, Z2N.id by (apply Z.pow_nonneg; lia). rewrite nat_N_Z. reflexivity.
    + assert (0 <= 10 ^ Z.of_nat (length s))%Z by (apply Z.pow_nonneg; lia). nia.
    + cbn [map]. rewrite M. f_equal. rewrite <- Z_N_nat in Hd. symmetry. exact Hd.
Qed.
Lemma print_N_lead n : exists c s, print_N n = c :: s /\ (c = "0"%char -> s = []).
Proof.
  unfold print_N.
  pose proof (Unsigned.to_of (N.to_uint n)) as U. rewrite Unsigned.of_to in U.
  unfold NilZero.string_of_uint. destruct (N.to_uint n) as [|u|u|u|u|u|u|u|u|u|u]; cbn [NilEmpty.string_of_uint];
    try (do 2 eexists; split; [reflexivity|discriminate]).
  assert (G : u = Decimal.Nil).
    { symmetry in U. cbn in U. clear -U. assert (W : forall v, Decimal.unorm v = Decimal.D0 u -> u = Decimal.Nil).
      { induction v; cbn; intro Q; try discriminate; auto; injection Q as <-; reflexivity. }
      exact (W _ U). }
  subst u. exists "0"%char, []. split; [reflexivity|auto].
Qed.
Lemma print_N_numeral u n : numeral 10 u n (print_N n).
Proof.
  destruct (print_N_decimal n) as (Ne & D). destruct (decimal_list _ _ D) as (l & F & V & _ & M). exists l.
  split; [unfold value; rewrite V; rewrite N2Z.id; lia|]. split; [exact F|].
  assert (Ll : length l = length (print_N n)) by (rewrite <- (map_length Some (print_N n)), M, map_length; reflexivity).
  split; [|split].
  - intros ->. destruct (print_N n); [contradiction|discriminate].
  - destruct (print_N_lead n) as (c & s & E & H). rewrite E in *. destruct l as [|d l]; [discriminate|]. cbn [hd map] in *. intros ->.
    injection M as M0 M. cbn in M0. rewrite (H M0) in M. destruct l; [reflexivity|discriminate].
  - rewrite M. apply map_ext_in. intros d Hd. rewrite Forall_forall in F. apply F in Hd. assert (Q : N.to_nat d < 10) by lia. revert Q. generalize (N.to_nat d). clear.
    intros d Q. do 10 (destruct d as [|d]; [destruct u; reflexivity|]). lia.
Qed.

(** ** Insertions *)
Lemma put_int_text f n : number_text f true n (put_int f n).
Proof.
  unfold number_text, put_int, number_parts, prefix_of, padding. destruct f as [r sb sp up w fi ad]. cbn [f_base f_showbase f_showpos f_upper f_width f_fill f_adjust base_of].
  destruct r.
  - exists (print_N n). eexists. split; [apply print_N_numeral|]. rewrite andb_true_r. split; [reflexivity|]. destruct ad; reflexivity.
  - exists (in_base 8 up n). eexists. split; [apply in_base_numeral; lia|]. split; [reflexivity|]. destruct ad; reflexivity.
  - exists (in_base 16 up n). eexists. split; [apply in_base_numeral; lia|].
    replace (lit (if up then "0X"%string else "0x"%string)) with (if up then lit "0X" else lit "0x") by (destruct up; reflexivity).
    split; [reflexivity|]. destruct ad; reflexivity.
Qed.
Lemma put_size_text f n : number_text f false n (put_int (no_sign f) n).
Proof.
  destruct (put_int_text (no_sign f) n) as (ds & k & H). exists ds, k. unfold prefix_of in *. destruct f as [[] sb sp up w fi ad]; cbn in *; rewrite ?andb_false_r; exact H.
Qed.
Lemma put_str_text f s : string_text f s (put_str f s).
Proof. unfold string_text, put_str, padding. destruct (f_adjust f); reflexivity. Qed.
Lemma put_str_nowidth f s : f_width f = 0 -> put_str f s = s.
Proof. intro H. unfold put_str, padding. rewrite H. destruct (f_adjust f); cbn; [apply app_nil_r|reflexivity|reflexivity]. Qed.
Lemma no_width_width f : f_width (no_width f) = 0.
Proof. reflexivity. Qed.
Lemma no_width_id f : f_width f = 0 -> no_width f = f.
Proof. destruct f; cbn. intros ->. reflexivity. Qed.

Lemma put_all_app f a b : put_all f (a ++ b) = (fst (put_all f a) ++ fst (put_all (snd (put_all f a)) b), snd (put_all (snd (put_all f a)) b)).
Proof.
  revert f. induction a as [|p a IH]; intro f; cbn [app put_all fst snd].
  - destruct (put_all f b); reflexivity.
  - destruct (put_piece f p) as (x, f1). specialize (IH f1). destruct (put_all f1 a) as (y, f2). cbn [fst snd] in *. rewrite IH. cbn [fst snd]. rewrite app_assoc. reflexivity.
Qed.
Lemma put_texts f l : f_width f = 0 -> texts l -> put_all f l = (flat_map text_of l, f).
Proof.
  intros W T. induction T as [|p l Hp Hl IH]; [reflexivity|]. cbn [put_all flat_map]. destruct p; try destruct Hp; cbn [put_piece text_of].
  - rewrite !(no_width_id f W). rewrite put_str_nowidth by exact W. rewrite IH. reflexivity.
  - rewrite IH. reflexivity.
Qed.
Lemma put_texts_first f s l : texts l -> put_all f (InsStr s :: l) = (put_str f s ++ flat_map text_of l, no_width f).
Proof. intro T. cbn [put_all put_piece]. rewrite put_texts by (reflexivity || exact T). reflexivity. Qed.
Lemma flat_text_map {A} (g : A -> list piece) (t : A -> str) l : (forall x, flat_map text_of (g x) = t x) -> flat_map text_of (flat_map g l) = flat_map t l.
Proof. intro H. induction l as [|x l IH]; [reflexivity|]. cbn [flat_map]. rewrite flat_map_app, IH, H. reflexivity. Qed.
Lemma texts_app a b : texts a -> texts b -> texts (a ++ b).
Proof. intros. apply Forall_app. auto. Qed.
Lemma texts_flat {A} (g : A -> list piece) l : (forall x, texts (g x)) -> texts (flat_map g l).
Proof. intro H. induction l as [|x l IH]; [constructor|]. apply texts_app; auto. Qed.
Lemma texts_pdesc l : texts (pdesc_pieces l).
Proof. apply texts_flat. intro. repeat (apply Forall_cons; [exact Logic.I|]). constructor. Qed.
Lemma pdesc_text l : flat_map text_of (pdesc_pieces l) = print_pdesc l.
Proof. apply flat_text_map. intro x. reflexivity. Qed.

Ltac tx := repeat (apply Forall_cons; [exact Logic.I|]); try apply Forall_nil.
Lemma help_texts c : texts (help_pieces c).
Proof.
  unfold help_pieces. destruct (negb (cmd_en c)); [constructor|]. destruct c; [| |tx].
  - apply texts_app; [tx|]. apply texts_app; [|apply texts_app; [apply texts_pdesc|tx]]. destruct pdesc; [|constructor]. apply texts_flat. intro. tx.
  - apply texts_app; [tx|]. apply texts_app; [|apply texts_app; [apply texts_pdesc|tx]]. destruct pdesc; tx.
Qed.
Lemma help_text_of c : flat_map text_of (help_pieces c) = help_line c.
Proof.
  unfold help_pieces, help_line. destruct (negb (cmd_en c)); [reflexivity|]. destruct c.
  - rewrite !flat_map_app, pdesc_text. replace (flat_map text_of match pdesc with [] => _ | _ :: _ => [] end) with (match pdesc with [] => print_desc pars | _ => [] end).
    + cbn. rewrite <- ?app_assoc. cbn. rewrite ?app_nil_r. reflexivity.
    + destruct pdesc; [|reflexivity]. symmetry. apply flat_text_map. intro. cbn. rewrite ?app_nil_r. reflexivity.
  - rewrite !flat_map_app, pdesc_text. destruct pdesc; cbn; rewrite <- ?app_assoc; cbn; rewrite ?app_nil_r; reflexivity.
  - cbn. rewrite <- ?app_assoc. cbn. rewrite ?app_nil_r. reflexivity.
Qed.
Lemma main_help_texts ctx : texts (main_help_pieces ctx).
Proof.
  destruct ctx as [|m anc]; [constructor|]. unfold main_help_pieces. destruct (negb _); [constructor|]. apply texts_app.
  - apply texts_flat. apply help_texts.
  - destruct anc; [constructor|apply help_texts].
Qed.
Lemma main_help_text_of ctx : flat_map text_of (main_help_pieces ctx) = main_help ctx.
Proof.
  destruct ctx as [|m anc]; [reflexivity|]. unfold main_help_pieces, main_help. destruct (negb _); [reflexivity|].
  rewrite flat_map_app. f_equal.
  - apply flat_text_map. apply help_text_of.
  - destruct anc; [reflexivity|apply help_text_of].
Qed.
Lemma help_all_right w : match help_all w, help_text w with
  | Some l, Some s => texts l /\ flat_map text_of l = s
  | None, None => True
  | _, _ => False
  end.
Proof.
  unfold help_all, help_text. destruct (locate _ _ _) as [ctx|]; [|exact Logic.I]. split.
  - apply Forall_cons; [exact Logic.I|]. apply texts_app; apply main_help_texts.
  - cbn [flat_map text_of]. rewrite flat_map_app, !main_help_text_of. rewrite <- app_assoc. reflexivity.
Qed.

(** ** The listing of the history *)
Definition entry_pieces (e : entry) : list piece := [InsSize (Z.to_N (fst e)); InsStr tab; InsStr (snd e); InsStr nl].
Lemma show_lines_spec h : (0 <= h_oldest h)%Z -> forall n, n <= length (h_buf h) ->
  show_lines h n = Some (flat_map entry_pieces (number (next_id h - Z.of_nat n) (rev (firstn n (h_buf h))))).
Proof.
  intros H0. induction n as [|n IH]; intro Hn; [reflexivity|].
  cbn [show_lines]. unfold index_to_id. rewrite usub_ge by (unfold h_size; lia).
  destruct (Z.ltb_spec (h_oldest h + h_size h - 1) (Z.of_nat n)) as [L|L]; [unfold h_size in L; lia|].
  destruct (nth_error (h_buf h) n) as [s|] eqn:E; [|apply nth_error_None in E; lia].
  rewrite IH by lia. f_equal.
  assert (F : firstn (S n) (h_buf h) = firstn n (h_buf h) ++ [s]).
  { clear - E. revert n E. induction (h_buf h) as [|x b IH]; intros [|n] E; cbn in *; try discriminate.
    - injection E as ->. reflexivity.
    - rewrite (IH n E). reflexivity. }
  rewrite F, rev_app_distr. cbn [app rev]. cbn [number flat_map]. rewrite usub_ge by (unfold h_size in *; lia).
  unfold entry_pieces at 2. cbn [fst snd app].
  replace (next_id h - Z.of_nat (S n) + 1)%Z with (next_id h - Z.of_nat n)%Z by lia.
  replace (next_id h - Z.of_nat (S n))%Z with (h_oldest h + h_size h - 1 - Z.of_nat n)%Z
    by (unfold next_id, h_size; lia).
  reflexivity.
Qed.
Lemma show_pieces_spec h : (0 <= h_oldest h)%Z -> show_pieces h = Some (InsStr nl :: flat_map entry_pieces (view h) ++ [InsStr nl; InsFlush]).
Proof.
  intro H0. unfold show_pieces. rewrite (show_lines_spec h H0 _ (le_n _)). unfold view. rewrite firstn_all.
  replace (next_id h - Z.of_nat (length (h_buf h)))%Z with (h_oldest h) by (unfold next_id; lia). reflexivity.
Qed.
Lemma entries_text f l : f_width f = 0 -> exists ts, Forall2 (line_text f) l ts /\ put_all f (flat_map entry_pieces l) = (concat ts, f).
Proof.
  intro W. induction l as [|e l (ts & H & E)]; [exists []; split; [constructor|reflexivity]|].
  exists ((put_int (no_sign f) (Z.to_N (fst e)) ++ tab ++ snd e ++ nl) :: ts). split.
  - constructor; [|exact H]. exists (put_int (no_sign f) (Z.to_N (fst e))). split; [apply put_size_text|reflexivity].
  - assert (X : put_all f (entry_pieces e) = (put_int (no_sign f) (Z.to_N (fst e)) ++ tab ++ snd e ++ nl, f)).
    { unfold entry_pieces. cbn [put_all put_piece fst snd]. rewrite !(no_width_id f W). rewrite !put_str_nowidth by exact W. rewrite ?app_nil_r. reflexivity. }
    cbn [flat_map]. rewrite put_all_app, X. cbn [fst snd]. rewrite E. reflexivity.
Qed.
Lemma show_any h f : (0 <= h_oldest h)%Z -> exists l first ts, show_pieces h = Some l /\ string_text f nl first /\
  Forall2 (line_text (no_width f)) (view h) ts /\ put_all f l = (first ++ concat ts ++ nl, no_width f).
Proof.
  intro H0. rewrite (show_pieces_spec h H0). destruct (entries_text (no_width f) (view h) eq_refl) as (ts & H & E).
  eexists. exists (put_str f nl), ts. split; [reflexivity|]. split; [apply put_str_text|]. split; [exact H|].
  cbn [put_all put_piece]. rewrite put_all_app, E. cbn [put_all put_piece fst snd]. rewrite (put_str_nowidth (no_width f)) by reflexivity. reflexivity.
Qed.
Lemma show_loop_lines h n : match show_lines h n, show_loop h n with
  | Some l, Some s => forall f, f_base f = Dec -> f_width f = 0 -> put_all f l = (s, f)
  | None, None => True
  | _, _ => False
  end.
Proof.
  induction n as [|j IH]; cbn [show_lines show_loop]; [reflexivity|].
  destruct (index_to_id h (Z.of_nat j)) as [id|]; [|exact Logic.I]. destruct (nth_error (h_buf h) j) as [s|]; [|exact Logic.I].
  destruct (show_lines h j) as [l|], (show_loop h j) as [t|]; try contradiction; [|exact Logic.I].
  intros f B W. cbn [put_all put_piece]. rewrite !(no_width_id f W). rewrite !put_str_nowidth by exact W. rewrite (IH f B W).
  f_equal. replace (put_int (no_sign f) (Z.to_N id)) with (print_N (Z.to_N id)); [reflexivity|].
  unfold put_int, number_parts, padding. cbn [no_sign f_base f_width f_showpos f_adjust]. rewrite B, W. cbn [app]. destruct (f_adjust f); cbn; rewrite ?app_nil_r; reflexivity.
Qed.
Lemma show_plain h f : f_base f = Dec -> f_width f = 0 ->
  match show_pieces h, show h with Some l, Some s => put_all f l = (s, f) | None, None => True | _, _ => False end.
Proof.
  intros B W. unfold show_pieces, show. pose proof (show_loop_lines h (length (h_buf h))) as H.
  destruct (show_lines _ _) as [l|], (show_loop _ _) as [s|]; try contradiction; [|exact Logic.I].
  cbn [put_all put_piece]. rewrite !(no_width_id f W). rewrite put_str_nowidth by exact W. rewrite put_all_app, (H f B W). cbn [fst snd].
  cbn [put_all put_piece]. rewrite !(no_width_id f W). rewrite put_str_nowidth by exact W. cbn [app]. reflexivity.
Qed.

(** A number in base 10 is read back by [!]. *)
Lemma list_decimal u s l : Forall (fun d => (d < 10)%N) l -> map Some s = map (fun d => nth_error (hexdigits u) (N.to_nat d)) l ->
  exists v, FromStringSpec.digits s v /\ (0 <= v)%Z /\
    forall a, fold_left (fun a d => (a * 10 + d)%N) l a = (a * 10 ^ N.of_nat (length s) + Z.to_N v)%N.
Proof.
  intro F. revert s. induction F as [|d l Hd F IH]; intros s M; destruct s as [|c s]; try discriminate.
  - exists 0%Z. split; [constructor|]. split; [lia|]. intro a. cbn. lia.
  - cbn [map] in M. injection M as M0 M. destruct (IH s M) as (v & D & P & V).
    exists (Z.of_N d * 10 ^ Z.of_nat (length s) + v)%Z. assert (Q : (0 <= 10 ^ Z.of_nat (length s))%Z) by (apply Z.pow_nonneg; lia). split; [|split].
    + constructor; [|exact D]. split; [lia|]. rewrite M0. assert (X : N.to_nat d < 10) by lia. rewrite <- N_nat_Z, Nat2Z.id. revert X. generalize (N.to_nat d). clear.
      intros d X. do 10 (destruct d as [|d]; [destruct u; reflexivity|]). lia.
    + nia.
    + intro a. cbn [fold_left length]. rewrite V. rewrite Nat2N.inj_succ, N.pow_succ_r'.
      rewrite Z2N.inj_add by nia. rewrite Z2N.inj_mul by nia. rewrite N2Z.id. replace (Z.to_N (10 ^ Z.of_nat (length s))) with (10 ^ N.of_nat (length s))%N; [lia|].
      apply N2Z.inj. rewrite N2Z.inj_pow, Z2N.id by (apply Z.pow_nonneg; lia). rewrite nat_N_Z. reflexivity.
Qed.
Lemma numeral_decimal u n s : numeral 10 u n s -> decimal s (Z.of_N n).
Proof.
  intros (l & V & F & Ne & _ & M). destruct (list_decimal u s l F M) as (v & D & P & Q). split.
  - intros ->. destruct l; [contradiction|discriminate].
  - replace (Z.of_N n) with v; [exact D|]. unfold value in V. rewrite Q in V. lia.
Qed.
Lemma line_usable f e t w : f_base f = Dec -> f_width f = 0 -> (0 <= fst e < 2 ^ w)%Z -> line_text f e t ->
  exists num, t = num ++ tab ++ snd e ++ nl /\ unsigned_text w num (fst e).
Proof.
  intros B W R (num & (ds & k & N & K & E) & ->). exists num. split; [reflexivity|]. unfold prefix_of in *. rewrite B in *. rewrite andb_false_r in *. cbn [base_of] in N.
  rewrite W in K. cbn in K. subst k. assert (num = ds) by (destruct (f_adjust f); cbn in E; rewrite ?app_nil_r in E; exact E). clear E. subst num.
  split; [|lia]. left. apply numeral_decimal in N. rewrite Z2N.id in N by lia. exact N.
Qed.

(** ** The prompt *)
Lemma color_plain f n : f_base f = Dec -> f_showpos f = false -> f_width f = 0 -> put_all f (color_pieces n) = (sgr n, f).
Proof.
  intros B P W. unfold color_pieces, sgr. cbn [put_all put_piece]. rewrite !(no_width_id f W). rewrite !put_str_nowidth by exact W.
  unfold put_int, number_parts, padding. rewrite B, P, W. cbn [app]. destruct (f_adjust f); cbn; rewrite ?app_nil_r; reflexivity.
Qed.
Lemma prompt_plain tty color force w f : f_base f = Dec -> f_showpos f = false -> f_width f = 0 ->
  match prompt_pieces tty color force w, prompt tty color force w with
  | Some l, Some (s, force') => put_all f l = (s, f)
  | None, None => True
  | _, _ => False
  end.
Proof.
  intros B P W. unfold prompt_pieces, prompt. destruct (w_exit w); [reflexivity|]. destruct (prompt_text w) as [p|]; [|exact Logic.I].
  assert (Z : forall s, put_all f [InsStr s] = (s, f)).
  { intro s. cbn [put_all put_piece]. rewrite (no_width_id f W), put_str_nowidth by exact W. rewrite app_nil_r. reflexivity. }
  assert (Y : put_all f [InsStr (lit "> "); InsFlush] = (lit "> ", f)).
  { cbn [put_all put_piece]. rewrite (no_width_id f W), put_str_nowidth by exact W. reflexivity. }
  assert (X : forall a b s t, put_all f a = (s, f) -> put_all f b = (t, f) -> put_all f (a ++ b) = (s ++ t, f)).
  { intros a b s t Ha Hb. rewrite put_all_app, Ha. cbn [fst snd]. rewrite Hb. reflexivity. }
  assert (V : put_all f [] = ([], f)) by reflexivity.
  assert (C : forall n, put_all f (color_pieces n) = (sgr n, f)) by (intro; apply color_plain; assumption).
  unfold before_prompt, after_prompt. destruct color; cbn [orb].
  - apply X; [apply X; apply C|]. apply X; [apply Z|]. apply X; [apply C|exact Y].
  - apply (X [] _ []); [exact V|]. apply X; [apply Z|]. apply X; [|exact Y]. destruct (force || tty); [apply C|exact V].
Qed.

(** ** For the properties *)
Lemma texts_right w line what l f :
  (help_all w = None <-> help_text w = None) /\
  (forall ps s, help_all w = Some ps -> help_text w = Some s ->
     let first := lit "Commands available:" ++ nl in
     exists rest, s = first ++ rest /\ put_all f ps = (put_str f first ++ rest, no_width f)) /\
  put_all f (wrong_pieces line) = (put_str f (lit "wrong command: ") ++ line ++ nl, no_width f) /\
  put_all f (except_pieces what) = (put_str f what ++ nl, no_width f) /\
  put_all f (unknown_pieces line) =
    (put_str f (lit "Cli. Unknown exception caught handling command line """) ++ line ++ lit """" ++ nl, no_width f) /\
  put_all f (items_pieces l) = (put_str f nl ++ concat (map (fun c => tab ++ c) l) ++ nl, no_width f).
Proof.
  pose proof (help_all_right w) as H.
  split; [destruct (help_all w), (help_text w); split; intro; try discriminate; try contradiction; reflexivity|].
  split; [|split; [|split; [|split]]].
  - intros ps s E1 E2. rewrite E1, E2 in H. destruct H as (T & <-). unfold help_all in E1. destruct (locate _ _ _) as [ctx|]; [|discriminate].
    injection E1 as <-. eexists. split; [reflexivity|]. apply put_texts_first. apply (Forall_inv_tail T).
  - unfold wrong_pieces. rewrite put_texts_first by tx. cbn. rewrite ?app_nil_r. reflexivity.
  - unfold except_pieces. rewrite put_texts_first by tx. cbn. rewrite ?app_nil_r. reflexivity.
  - unfold unknown_pieces. rewrite put_texts_first by tx. cbn. rewrite ?app_nil_r. reflexivity.
  - unfold items_pieces. rewrite put_texts_first by tx. cbn [flat_map text_of]. rewrite ?app_nil_r, <- flat_map_concat_map. reflexivity.
Qed.
Lemma color_any f n : set_color f n = fst (put_all f (color_pieces n)) /\
  exists a num, set_color f n = a ++ num ++ lit "m" /\ string_text f ["027"; "["]%char a /\ number_text (no_width f) true n num.
Proof.
  split.
  - unfold set_color, color_pieces. cbn [put_all put_piece fst]. rewrite app_nil_r. reflexivity.
  - exists (put_str f ["027"; "["]%char), (put_int (no_width f) n). split; [|split; [apply put_str_text|apply put_int_text]].
    unfold set_color. rewrite (put_str_nowidth (no_width f)) by reflexivity. reflexivity.
Qed.
