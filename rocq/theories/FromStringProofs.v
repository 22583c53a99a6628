(** * Proofs about parameter conversion *)

From Verif Require Import Base FromStringModel FromStringSpec.
From Coq Require Import DecimalString DecimalN DecimalPos.
Open Scope Z_scope.

Lemma code_range c : 0 <= code c < 256.
Proof.
  unfold code. pose proof (N_ascii_bounded c). lia.
Qed.

Lemma code_inj a b : code a = code b -> a = b.
Proof.
  unfold code. intro H. apply N2Z.inj in H.
  rewrite <- (ascii_N_embedding a), <- (ascii_N_embedding b), H. reflexivity.
Qed.

Lemma is_digit_code c d : is_digit c d <-> code c = 48 + d /\ 0 <= d <= 9.
Proof.
  unfold is_digit. split.
  - intros [H0 H].
    assert (L : (Z.to_nat d < 10)%nat).
    { change 10%nat with (length digit_chars). apply nth_error_Some. congruence. }
    split; [|lia].
    assert (E : d = Z.of_nat (Z.to_nat d)) by lia.
    revert H. rewrite E at 2. generalize (Z.to_nat d) L. clear. intros n L H.
    do 10 (destruct n as [|n]; [cbn in H; injection H as <-; reflexivity|]). lia.
  - intros [H1 H2]. split; [lia|].
    assert (E : d = 0 \/ d = 1 \/ d = 2 \/ d = 3 \/ d = 4 \/ d = 5 \/ d = 6 \/ d = 7 \/ d = 8 \/ d = 9) by lia.
    destruct E as [->|[->|[->|[->|[->|[->|[->|[->|[->| ->]]]]]]]]];
      match goal with |- _ = Some ?x => transitivity (Some (ascii_of_N (Z.to_N (code x)))) end;
      solve [rewrite H1; reflexivity
            |f_equal; unfold code; rewrite N2Z.id; apply ascii_N_embedding].
Qed.

Lemma pow2_ge w : 8 <= w -> 256 <= 2 ^ w.
Proof. intro H. change 256 with (2 ^ 8). apply Z.pow_le_mono_r; lia. Qed.
Lemma pow2_half w : 8 <= w -> 2 ^ w = 2 * 2 ^ (w - 1).
Proof. intro H. rewrite <- Z.pow_succ_r by lia. f_equal. lia. Qed.

Lemma digit_step_spec w r d : 8 <= w -> 0 <= r < 2 ^ w -> 0 <= d <= 9 ->
  digit_step w r d = if r * 10 + d <? 2 ^ w then Some (r * 10 + d) else None.
Proof.
  intros Hw Hr Hd. unfold digit_step, wrapU.
  pose proof (pow2_ge w Hw) as HM. set (M := 2 ^ w) in *. clearbody M.
  destruct (Z.ltb_spec (r * 10 + d) M) as [L|L].
  - rewrite (Z.mod_small (r * 10 + d) M) by lia.
    replace (r * 10 + d - d) with (r * 10) by lia.
    assert (E1 : (if narrow w then Z.quot (r * 10) 10 else r * 10 mod M / 10) = r).
    { destruct (narrow w); [apply Z.quot_mul; lia|].
      rewrite Z.mod_small by lia. apply Z.div_mul. lia. }
    rewrite E1, Z.eqb_refl. cbn [negb orb].
    destruct (Z.ltb_spec (r * 10 + d) r); [lia|reflexivity].
  - pose proof (Z.div_mod (r * 10 + d) M ltac:(lia)) as E.
    pose proof (Z.mod_pos_bound (r * 10 + d) M ltac:(lia)) as B.
    assert (K : M <= M * ((r * 10 + d) / M)).
    { assert (1 <= (r * 10 + d) / M) by (apply Z.div_le_lower_bound; lia). nia. }
    set (K0 := M * ((r * 10 + d) / M)) in *. set (tmp := (r * 10 + d) mod M) in *.
    clearbody K0 tmp.
    assert (Bk : negb (r =? (if narrow w then Z.quot (tmp - d) 10 else (tmp - d) mod M / 10)) || (tmp <? r) = true).
    { apply orb_true_iff.
      destruct (Z.ltb_spec tmp r) as [Lt|Ge]; [right; reflexivity|left].
      apply negb_true_iff, Z.eqb_neq. intro C. destruct (narrow w).
      - pose proof (Z.quot_rem' (tmp - d) 10) as Q.
        assert (R : -10 < Z.rem (tmp - d) 10 < 10).
        { pose proof (Z.rem_bound_abs (tmp - d) 10 ltac:(lia)). lia. }
        lia.
      - assert (T : 0 <= tmp - d) by lia.
        rewrite Z.mod_small in C by lia.
        pose proof (Z.div_mod (tmp - d) 10 ltac:(lia)).
        pose proof (Z.mod_pos_bound (tmp - d) 10 ltac:(lia)). lia. }
    rewrite Bk. reflexivity.
Qed.

(** ** Digit sequences *)
Lemma digits_nonneg s v : digits s v -> 0 <= v < 10 ^ Z.of_nat (length s).
Proof.
  induction 1 as [|c d s v Hc Hs IH]; [cbn; lia|].
  apply is_digit_code in Hc as [_ Hd]. cbn [length]. rewrite Nat2Z.inj_succ, Z.pow_succ_r by lia.
  set (P := 10 ^ Z.of_nat (length s)) in *. nia.
Qed.

Lemma digits_fun s v1 : digits s v1 -> forall v2, digits s v2 -> v1 = v2.
Proof.
  induction 1 as [|c d s v Hc Hs IH]; intros v2 H2; inversion H2 as [|c' d' s' v' Hc' Hs']; subst; [reflexivity|].
  apply is_digit_code in Hc, Hc'. rewrite (IH _ Hs'). f_equal. f_equal. lia.
Qed.

Lemma digit_dec c : (exists d, is_digit c d) \/ (forall d, ~ is_digit c d).
Proof.
  destruct (Z_le_dec 48 (code c)) as [A|A]; [destruct (Z_le_dec (code c) 57) as [B|B]|].
  - left. exists (code c - 48). apply is_digit_code. lia.
  - right. intros d H. apply is_digit_code in H. lia.
  - right. intros d H. apply is_digit_code in H. lia.
Qed.

Lemma isdigit_true p c d : is_digit c d -> c_isdigit p c = Some true /\ code c - 48 = d.
Proof.
  intro H. apply is_digit_code in H as [H1 H2]. unfold c_isdigit, ctype_ok. split; [|lia].
  destruct (Z.ltb_spec (code c) 128) as [_|G]; [|lia].
  rewrite orb_true_r. cbn [orb].
  destruct (Z.leb_spec 48 (code c)); [|lia]. destruct (Z.leb_spec (code c) 57); [|lia]. reflexivity.
Qed.
Lemma isdigit_not_true p c : (forall d, ~ is_digit c d) ->
  c_isdigit p c = if ctype_ok p c then Some false else None.
Proof.
  intro H. unfold c_isdigit. destruct (ctype_ok p c); [|reflexivity].
  destruct (Z.leb_spec 48 (code c)) as [A|A]; [|reflexivity].
  destruct (Z.leb_spec (code c) 57) as [B|B]; [|reflexivity].
  exfalso. apply (H (code c - 48)). apply is_digit_code. lia.
Qed.

(** Exact behaviour of the digit loop: the longest prefix of digits decides. *)
Lemma digits_loop_ok p w : 8 <= w -> forall s v r, 0 <= r < 2 ^ w -> digits s v ->
  digits_loop p w r s =
  if r * 10 ^ Z.of_nat (length s) + v <? 2 ^ w
  then COk (r * 10 ^ Z.of_nat (length s) + v) else CBad.
Proof.
  intros Hw s v r Hr H. revert r Hr.
  induction H as [|c d s v Hc Hs IH]; intros r Hr.
  - cbn [digits_loop length]. change (10 ^ Z.of_nat 0) with 1. rewrite Z.mul_1_r, Z.add_0_r.
    destruct (Z.ltb_spec r (2 ^ w)); [reflexivity|lia].
  - cbn [digits_loop]. destruct (isdigit_true p c d Hc) as [E1 E2]. rewrite E1, E2.
    apply is_digit_code in Hc as [_ Hd].
    pose proof (pow2_ge w Hw) as HM.
    unfold wrapU at 1. rewrite (Z.mod_small d) by lia.
    rewrite digit_step_spec by assumption.
    cbn [length]. rewrite Nat2Z.inj_succ, Z.pow_succ_r by lia.
    pose proof (digits_nonneg s v Hs) as Hv.
    set (P := 10 ^ Z.of_nat (length s)) in *.
    assert (HP : 1 <= P) by (subst P; assert (0 < 10 ^ Z.of_nat (length s)) by (apply Z.pow_pos_nonneg; lia); lia).
    destruct (Z.ltb_spec (r * 10 + d) (2 ^ w)) as [L|L].
    + rewrite IH by lia. fold P.
      replace (r * (10 * P) + (d * P + v)) with ((r * 10 + d) * P + v) by ring. reflexivity.
    + destruct (Z.ltb_spec (r * (10 * P) + (d * P + v)) (2 ^ w)) as [L2|L2]; [|reflexivity].
      exfalso. nia.
Qed.

(** ... and when the text is not all digits. *)
Inductive bad_digit (p : platform) : str -> Prop :=
| bad_digit_here c s : (forall d, ~ is_digit c d) -> ctype_ok p c = true -> bad_digit p (c :: s)
| bad_digit_later c d s : is_digit c d -> bad_digit p s -> bad_digit p (c :: s).

Lemma digits_loop_bad p w : 8 <= w -> forall s, bad_digit p s -> forall r, 0 <= r < 2 ^ w ->
  digits_loop p w r s = CBad.
Proof.
  intros Hw s H. induction H as [c s Hc Hok|c d s Hc Hs IH]; intros r Hr; cbn [digits_loop].
  - rewrite isdigit_not_true, Hok by assumption. reflexivity.
  - destruct (isdigit_true p c d Hc) as [E1 E2]. rewrite E1, E2.
    apply is_digit_code in Hc as [_ Hd].
    pose proof (pow2_ge w Hw) as HM.
    unfold wrapU at 1. rewrite (Z.mod_small d) by lia.
    rewrite digit_step_spec by assumption.
    destruct (Z.ltb_spec (r * 10 + d) (2 ^ w)); [|reflexivity]. apply IH. lia.
Qed.

(** Texts on which the ctype functions are defined. *)
Definition safe_text (p : platform) (s : str) : Prop := Forall (fun c => ctype_ok p c = true) s.

Lemma plain_safe p s : plain s -> safe_text p s.
Proof.
  unfold plain, safe_text. intro H. eapply Forall_impl; [|exact H]. intros c Hc. cbv beta in Hc.
  unfold ctype_ok. destruct (Z.ltb_spec (code c) 128) as [_|G]; [rewrite orb_true_r; reflexivity|].
  unfold code in G. lia.
Qed.
Lemma unsigned_char_safe p s : char_signed p = false -> safe_text p s.
Proof.
  intro H. apply Forall_forall. intros c _. unfold ctype_ok. rewrite H. reflexivity.
Qed.

Lemma digits_or_bad p s : safe_text p s -> (exists v, digits s v) \/ bad_digit p s.
Proof.
  induction 1 as [|c s Hc _ IH]; [left; exists 0; constructor|].
  destruct (digit_dec c) as [[d Hd]|Hn]; [|right; apply bad_digit_here; assumption].
  destruct IH as [[v Hv]|Hb]; [left|right; apply (bad_digit_later p c d); assumption].
  eexists. constructor; eassumption.
Qed.
Lemma bad_not_digits p s : bad_digit p s -> forall v, ~ digits s v.
Proof.
  induction 1 as [c s Hc _|c d s Hc _ IH]; intros v Hv; inversion Hv; subst;
    [eapply Hc; eassumption|eapply IH; eassumption].
Qed.

Lemma unsigned_digits_spec p w s : 8 <= w -> safe_text p s ->
  (exists v, decimal s v /\ unsigned_digits p w s = if v <? 2 ^ w then COk v else CBad) \/
  ((forall v, ~ decimal s v) /\ unsigned_digits p w s = CBad).
Proof.
  intros Hw Hs. destruct s as [|c s].
  - right. split; [intros v [H _]; congruence|reflexivity].
  - cbn [unsigned_digits]. pose proof (pow2_ge w Hw).
    destruct (digits_or_bad p (c :: s) Hs) as [[v Hv]|Hb].
    + left. exists v. split; [split; [discriminate|exact Hv]|].
      rewrite (digits_loop_ok p w Hw (c :: s) v 0) by (try lia; assumption). reflexivity.
    + right. split; [intros v [_ Hv]; exact (bad_not_digits p _ Hb v Hv)|].
      apply digits_loop_bad; [exact Hw|exact Hb|lia].
Qed.

Lemma decimal_fun s v1 v2 : decimal s v1 -> decimal s v2 -> v1 = v2.
Proof. intros [_ H1] [_ H2]. eapply digits_fun; eassumption. Qed.

Lemma decimal_head c s v : decimal (c :: s) v -> exists d, is_digit c d.
Proof. intros [_ H]. inversion H; subst. eauto. Qed.
Lemma decimal_nonneg s v : decimal s v -> 0 <= v.
Proof. intros [_ H]. apply digits_nonneg in H. lia. Qed.
Lemma plus_not_digit d : ~ is_digit "+" d.
Proof. rewrite is_digit_code. change (code "+") with 43. lia. Qed.
Lemma minus_not_digit d : ~ is_digit "-" d.
Proof. rewrite is_digit_code. change (code "-") with 45. lia. Qed.

(** ** Unsigned types *)
Lemma unsigned_exact p w s : 8 <= w -> safe_text p s ->
  (forall v, unsigned_from_string p w s = COk v <-> unsigned_text w s v) /\
  unsigned_from_string p w s <> CUB.
Proof.
  intros Hw Hs. destruct s as [|c s].
  { cbn [unsigned_from_string]. split; [|discriminate]. intro v. split; [discriminate|].
    intros [[[H _]|(r & H & _)] _]; congruence. }
  cbn [unsigned_from_string]. destruct (Ascii.eqb_spec c "+") as [->|Hc].
  - assert (Hs' : safe_text p s) by (inversion Hs; assumption).
    destruct (unsigned_digits_spec p w s Hw Hs') as [(v0 & Hv0 & ->)|[Hn ->]].
    + split; [|destruct (v0 <? 2 ^ w); discriminate]. intro v. unfold unsigned_text.
      destruct (Z.ltb_spec v0 (2 ^ w)) as [L|L]; (split; [intro E|intros [[H|(r & H & H')] B]]).
      * injection E as <-. split; [right; eauto|exact L].
      * apply decimal_head in H as [d H]. exfalso; exact (plus_not_digit d H).
      * injection H as <-. rewrite (decimal_fun _ _ _ Hv0 H'). reflexivity.
      * discriminate.
      * apply decimal_head in H as [d H]. exfalso; exact (plus_not_digit d H).
      * injection H as <-. rewrite (decimal_fun _ _ _ Hv0 H') in L. lia.
    + split; [|discriminate]. intro v. split; [discriminate|].
      intros [[H|(r & H & H')] B].
      * apply decimal_head in H as [d H]. exfalso; exact (plus_not_digit d H).
      * injection H as <-. exfalso; exact (Hn v H').
  - destruct (unsigned_digits_spec p w (c :: s) Hw Hs) as [(v0 & Hv0 & ->)|[Hn ->]].
    + split; [|destruct (v0 <? 2 ^ w); discriminate]. intro v. unfold unsigned_text.
      destruct (Z.ltb_spec v0 (2 ^ w)) as [L|L]; (split; [intro E|intros [[H|(r & H & H')] B]]).
      * injection E as <-. split; [left; assumption|exact L].
      * rewrite (decimal_fun _ _ _ Hv0 H). reflexivity.
      * congruence.
      * discriminate.
      * rewrite (decimal_fun _ _ _ Hv0 H) in L. lia.
      * congruence.
    + split; [|discriminate]. intro v. split; [discriminate|].
      intros [[H|(r & H & H')] B]; [exfalso; exact (Hn v H)|congruence].
Qed.

(** With signed [char], a byte in 128..254 met while scanning is undefined
    behaviour. *)
Lemma unsigned_ub p w ds v c rest : 8 <= w -> char_signed p = true ->
  128 <= code c <= 254 -> digits ds v -> v < 2 ^ w ->
  unsigned_digits p w (ds ++ c :: rest) = CUB.
Proof.
  intros Hw Hp Hc Hds Hv.
  assert (G : forall r, 0 <= r -> r * 10 ^ Z.of_nat (length ds) + v < 2 ^ w ->
              digits_loop p w r (ds ++ c :: rest) = CUB).
  { clear Hv. induction Hds as [|c' d s v Hc' Hs IH]; intros r Hr Hb.
    - cbn [app digits_loop]. unfold c_isdigit, ctype_ok. rewrite Hp. cbn [negb orb].
      destruct (Z.ltb_spec (code c) 128); [lia|]. destruct (Z.eqb_spec (code c) 255); [lia|]. reflexivity.
    - cbn [app digits_loop]. destruct (isdigit_true p c' d Hc') as [E1 E2]. rewrite E1, E2.
      apply is_digit_code in Hc' as [_ Hd]. pose proof (pow2_ge w Hw).
      unfold wrapU at 1. rewrite (Z.mod_small d) by lia.
      cbn [length] in Hb. rewrite Nat2Z.inj_succ, Z.pow_succ_r in Hb by lia.
      pose proof (digits_nonneg s v Hs) as Hv.
      set (P := 10 ^ Z.of_nat (length s)) in *.
      assert (HP : 1 <= P) by (subst P; assert (0 < 10 ^ Z.of_nat (length s)) by (apply Z.pow_pos_nonneg; lia); lia).
      assert (r * 10 + d < 2 ^ w) by nia.
      rewrite digit_step_spec by (try assumption; nia).
      destruct (Z.ltb_spec (r * 10 + d) (2 ^ w)); [|lia].
      apply IH; [lia|]. nia. }
  unfold unsigned_digits. destruct (ds ++ c :: rest) eqn:E; [destruct ds; discriminate|].
  apply G; lia.
Qed.

(** ** Signed types *)
Lemma wrapU_small w x : 0 <= x < 2 ^ w -> wrapU w x = x.
Proof. apply Z.mod_small. Qed.
Lemma wrapS_small w x : 8 <= w -> - 2 ^ (w - 1) <= x < 2 ^ (w - 1) -> wrapS w x = x.
Proof.
  intros Hw Hx. unfold wrapS. pose proof (pow2_half w Hw) as E. pose proof (pow2_ge w Hw).
  destruct (Z_lt_dec x 0) as [L|L].
  - replace (x mod 2 ^ w) with (x + 2 ^ w).
    2: { rewrite <- (Z.mod_small (x + 2 ^ w) (2 ^ w)) at 1 by lia.
         rewrite <- Z.add_mod_idemp_r, Z.mod_same, Z.add_0_r by lia. reflexivity. }
    cbv zeta. destruct (Z.ltb_spec (x + 2 ^ w) (2 ^ (w - 1))); lia.
  - rewrite Z.mod_small by lia. cbv zeta.
    destruct (Z.ltb_spec x (2 ^ (w - 1))); lia.
Qed.
Lemma wrapS_half w : 8 <= w -> wrapS w (2 ^ (w - 1)) = - 2 ^ (w - 1).
Proof.
  intro Hw. unfold wrapS. pose proof (pow2_half w Hw) as E. pose proof (pow2_ge w Hw).
  rewrite Z.mod_small by lia. cbv zeta. rewrite Z.ltb_irrefl. lia.
Qed.
Lemma wrapU_min w : 8 <= w -> wrapU w (- 2 ^ (w - 1)) = 2 ^ (w - 1).
Proof.
  intro Hw. unfold wrapU. pose proof (pow2_half w Hw) as E. pose proof (pow2_ge w Hw).
  rewrite <- (Z.mod_small (2 ^ (w - 1)) (2 ^ w)) at 2 by lia.
  replace (2 ^ (w - 1)) with (- 2 ^ (w - 1) + 2 ^ w) at 2 by lia.
  rewrite <- Z.add_mod_idemp_r, Z.mod_same, Z.add_0_r by lia. reflexivity.
Qed.

(** Reading a negative number on a machine where overflow wraps, or for a type
    narrower than [int]. *)
Definition no_overflow_trap (p : platform) (w : Z) : Prop := strict p = false \/ w < 32.

Lemma neg_min p w : 8 <= w -> no_overflow_trap p w ->
  exists n, neg p w (- 2 ^ (w - 1)) = COk n /\ wrapU w n = 2 ^ (w - 1).
Proof.
  intros Hw Hn. pose proof (pow2_half w Hw) as E. pose proof (pow2_ge w Hw).
  unfold neg, narrow. destruct (Z.ltb_spec w 32) as [L|L].
  - eexists. split; [reflexivity|]. rewrite Z.opp_involutive. apply wrapU_small. lia.
  - rewrite Z.eqb_refl. destruct Hn as [->|Hn]; [|lia].
    eexists. split; [reflexivity|]. apply wrapU_min. exact Hw.
Qed.
Lemma neg_val p w v : 8 <= w -> no_overflow_trap p w -> 0 <= v <= 2 ^ (w - 1) ->
  cbind (neg p w (wrapS w v)) (fun x => COk (wrapS w x)) = COk (- v).
Proof.
  intros Hw Hn Hv. pose proof (pow2_half w Hw) as E. pose proof (pow2_ge w Hw).
  destruct (Z.eq_dec v (2 ^ (w - 1))) as [->|Hne].
  - rewrite wrapS_half by exact Hw. unfold neg, narrow. destruct (Z.ltb_spec w 32) as [L|L].
    + cbn [cbind]. rewrite Z.opp_involutive, wrapS_half by exact Hw. reflexivity.
    + rewrite Z.eqb_refl. destruct Hn as [->|Hn]; [|lia]. cbn [cbind].
      rewrite wrapS_small by lia. reflexivity.
  - rewrite wrapS_small by lia. unfold neg. destruct (narrow w); cbn [cbind].
    + rewrite wrapS_small by lia. reflexivity.
    + destruct (Z.eqb_spec v (- 2 ^ (w - 1))); [lia|]. cbn [cbind].
      rewrite wrapS_small by lia. reflexivity.
Qed.

Lemma integer_text_minus s v : integer_text ("-"%char :: s) v <-> decimal s (- v).
Proof.
  unfold integer_text. split.
  - intros [H|[(r & H & _)|(r & H & H')]].
    + apply decimal_head in H as [d H]. exfalso; exact (minus_not_digit d H).
    + discriminate.
    + injection H as <-. exact H'.
  - intro H. right. right. eauto.
Qed.
Lemma integer_text_plus s v : integer_text ("+"%char :: s) v <-> decimal s v.
Proof.
  unfold integer_text. split.
  - intros [H|[(r & H & H')|(r & H & H')]].
    + apply decimal_head in H as [d H]. exfalso; exact (plus_not_digit d H).
    + injection H as <-. exact H'.
    + discriminate.
  - intro H. right. left. eauto.
Qed.
Lemma integer_text_bare c s v : c <> "+"%char -> c <> "-"%char ->
  integer_text (c :: s) v <-> decimal (c :: s) v.
Proof.
  intros H1 H2. unfold integer_text. split; [|tauto].
  intros [H|[(r & H & H')|(r & H & H')]]; [exact H|congruence|congruence].
Qed.

Lemma signed_exact p w s : 8 <= w -> no_overflow_trap p w -> safe_text p s ->
  (forall v, signed_from_string p w s = COk v <-> signed_text w s v) /\
  signed_from_string p w s <> CUB.
Proof.
  intros Hw Hn Hs. pose proof (pow2_half w Hw) as E2. pose proof (pow2_ge w Hw) as G2.
  destruct s as [|c s].
  { cbn [signed_from_string]. split; [|discriminate]. intro v. split; [discriminate|].
    intros [[[H _]|[(r & H & _)|(r & H & _)]] _]; congruence. }
  assert (Hs' : safe_text p s) by (inversion Hs; assumption).
  cbn [signed_from_string]. unfold signed_text. destruct (Ascii.eqb_spec c "-") as [->|Hc].
  - setoid_rewrite integer_text_minus.
    destruct (unsigned_digits_spec p w s Hw Hs') as [(v0 & Hv0 & ->)|[Hno ->]].
    + pose proof (decimal_nonneg _ _ Hv0) as P0.
      destruct (Z.ltb_spec v0 (2 ^ w)) as [L|L]; cbn [cbind].
      * destruct (neg_min p w Hw Hn) as (n & -> & En). cbn [cbind]. rewrite En.
        destruct (Z.ltb_spec (2 ^ (w - 1)) v0) as [L2|L2].
        -- split; [|discriminate]. intro v. split; [discriminate|]. intros [H B].
           pose proof (decimal_fun _ _ _ Hv0 H). lia.
        -- rewrite neg_val by (try assumption; lia). split; [|discriminate].
           intro v. split.
           ++ intro E. injection E as <-. rewrite Z.opp_involutive. split; [exact Hv0|lia].
           ++ intros [H B]. pose proof (decimal_fun _ _ _ Hv0 H). f_equal. lia.
      * split; [|discriminate]. intro v. split; [discriminate|]. intros [H B].
        pose proof (decimal_fun _ _ _ Hv0 H). lia.
    + cbn [cbind]. split; [|discriminate]. intro v. split; [discriminate|]. intros [H B].
      exfalso; exact (Hno _ H).
  - assert (G : forall body, safe_text p body ->
      (forall v, cbind (unsigned_digits p w body)
         (fun val => if wrapU w (2 ^ (w - 1) - 1) <? val then CBad else COk (wrapS w val)) = COk v <->
         decimal body v /\ - 2 ^ (w - 1) <= v < 2 ^ (w - 1)) /\
      cbind (unsigned_digits p w body)
         (fun val => if wrapU w (2 ^ (w - 1) - 1) <? val then CBad else COk (wrapS w val)) <> CUB).
    { intros body Hb. rewrite wrapU_small by lia.
      destruct (unsigned_digits_spec p w body Hw Hb) as [(v0 & Hv0 & ->)|[Hno ->]].
      - pose proof (decimal_nonneg _ _ Hv0) as P0.
        destruct (Z.ltb_spec v0 (2 ^ w)) as [L|L]; cbn [cbind].
        + destruct (Z.ltb_spec (2 ^ (w - 1) - 1) v0) as [L2|L2].
          * split; [|discriminate]. intro v. split; [discriminate|]. intros [H B].
            pose proof (decimal_fun _ _ _ Hv0 H). lia.
          * rewrite wrapS_small by lia. split; [|discriminate]. intro v. split.
            -- intro E. injection E as <-. split; [exact Hv0|lia].
            -- intros [H B]. f_equal. exact (decimal_fun _ _ _ Hv0 H).
        + split; [|discriminate]. intro v. split; [discriminate|]. intros [H B].
          pose proof (decimal_fun _ _ _ Hv0 H). lia.
      - cbn [cbind]. split; [|discriminate]. intro v. split; [discriminate|]. intros [H B].
        exfalso; exact (Hno _ H). }
    destruct (Ascii.eqb_spec c "+") as [->|Hp].
    + setoid_rewrite integer_text_plus. exact (G s Hs').
    + setoid_rewrite (integer_text_bare c s); [exact (G (c :: s) Hs)|exact Hp|exact Hc].
Qed.

(** Under the strict C++ rules every negative number given to a type at least as
    wide as [int] is undefined behaviour: the code negates the minimum. *)
Lemma signed_strict_ub p w s v : 32 <= w -> strict p = true -> safe_text p s ->
  decimal s v -> v < 2 ^ w ->
  signed_from_string p w ("-"%char :: s) = CUB.
Proof.
  intros Hw Hp Hs Hv Hb. cbn [signed_from_string].
  change (Ascii.eqb "-" "-") with true. cbv iota.
  destruct (unsigned_digits_spec p w s ltac:(lia) Hs) as [(v0 & Hv0 & ->)|[Hno _]].
  - rewrite (decimal_fun _ _ _ Hv0 Hv). destruct (Z.ltb_spec v (2 ^ w)); [|lia]. cbn [cbind].
    unfold neg, narrow. destruct (Z.ltb_spec w 32); [lia|]. rewrite Z.eqb_refl, Hp. reflexivity.
  - exfalso. exact (Hno _ Hv).
Qed.

(** ** bool, char *)
Lemma signed_text_64_small s v : (v = 0 \/ v = 1) -> signed_text 64 s v <-> integer_text s v.
Proof.
  intro H. unfold signed_text. change (2 ^ (64 - 1)) with 9223372036854775808.
  split; [tauto|]. intro T. split; [exact T|]. lia.
Qed.

Lemma integer_text_word s v : integer_text s v -> s <> lit "true" /\ s <> lit "false".
Proof.
  assert (T : forall d, ~ is_digit "t" d) by (intro d; rewrite is_digit_code; change (code "t") with 116; lia).
  assert (F : forall d, ~ is_digit "f" d) by (intro d; rewrite is_digit_code; change (code "f") with 102; lia).
  intros [H|[(r & -> & _)|(r & -> & _)]]; (split; [|]); try discriminate.
  - intros ->. apply decimal_head in H as [d H]. exact (T d H).
  - intros ->. apply decimal_head in H as [d H]. exact (F d H).
Qed.

Lemma bool_exact p s : strict p = false -> safe_text p s ->
  (forall b, bool_from_string p s = COk b <->
     (b = true /\ (s = lit "true" \/ integer_text s 1)) \/
     (b = false /\ (s = lit "false" \/ integer_text s 0))) /\
  bool_from_string p s <> CUB.
Proof.
  intros Hp Hs.
  destruct (signed_exact p 64 s ltac:(lia) (or_introl Hp) Hs) as [X1 X2].
  unfold bool_from_string.
  destruct (str_eqb_spec s (lit "true")) as [->|N1].
  { split; [|discriminate]. intro b. split.
    - intro E. injection E as <-. tauto.
    - intros [[-> _]|[-> [H|H]]]; [reflexivity|discriminate H|].
      apply integer_text_word in H as [H _]. congruence. }
  destruct (str_eqb_spec s (lit "false")) as [->|N2].
  { split; [|discriminate]. intro b. split.
    - intro E. injection E as <-. tauto.
    - intros [[-> [H|H]]|[-> _]]; [discriminate H| |reflexivity].
      apply integer_text_word in H as [_ H]. congruence. }
  destruct (signed_from_string p 64 s) as [v| |] eqn:E; cbn [cbind].
  - pose proof (proj1 (X1 v) eq_refl) as Hv.
    assert (U : forall u, u = 0 \/ u = 1 -> integer_text s u -> u = v).
    { intros u Hu Ht. apply (signed_text_64_small s u Hu) in Ht. apply X1 in Ht. congruence. }
    destruct (Z.eqb_spec v 1) as [->|V1]; [|destruct (Z.eqb_spec v 0) as [->|V0]].
    + split; [|discriminate]. intro b. split.
      * intro E'. injection E' as <-. left. split; [reflexivity|]. right. apply Hv.
      * intros [[-> _]|[-> [H|H]]]; [reflexivity|contradiction|]. specialize (U 0 (or_introl eq_refl) H). lia.
    + split; [|discriminate]. intro b. split.
      * intro E'. injection E' as <-. right. split; [reflexivity|]. right. apply Hv.
      * intros [[-> [H|H]]|[-> _]]; [contradiction| |reflexivity]. specialize (U 1 (or_intror eq_refl) H). lia.
    + split; [|discriminate]. intro b. split; [discriminate|].
      intros [[-> [H|H]]|[-> [H|H]]]; try contradiction.
      * specialize (U 1 (or_intror eq_refl) H). lia.
      * specialize (U 0 (or_introl eq_refl) H). lia.
  - split; [|discriminate]. intro b. split; [discriminate|].
    intros [[-> [H|H]]|[-> [H|H]]]; try contradiction.
    + apply (signed_text_64_small s 1 (or_intror eq_refl)) in H. apply X1 in H. discriminate.
    + apply (signed_text_64_small s 0 (or_introl eq_refl)) in H. apply X1 in H. discriminate.
  - exfalso. apply X2. reflexivity.
Qed.

Lemma char_exact s c : char_from_string s = COk c <-> s = [c].
Proof.
  split; [|intros ->; reflexivity].
  destruct s as [|x [|y s]]; cbn; try discriminate. intro E. injection E as <-. reflexivity.
Qed.

(** ** Floating point and custom types *)
Lemma space_code_white c : space_code c = true <-> white c.
Proof.
  unfold space_code, white. split.
  - intro H. apply orb_true_iff in H.
    assert (K : code c = 9 \/ code c = 10 \/ code c = 11 \/ code c = 12 \/ code c = 13 \/ code c = 32).
    { destruct H as [H|H].
      - apply andb_true_iff in H as [A B]. apply Z.leb_le in A. apply Z.leb_le in B. lia.
      - apply Z.eqb_eq in H. lia. }
    destruct K as [K|[K|[K|[K|[K|K]]]]];
      match type of K with code c = ?n =>
        assert (c = ascii_of_N (Z.to_N n)) as -> by (apply code_inj; rewrite K; reflexivity)
      end; cbn; tauto.
  - intro H. cbn in H. repeat (destruct H as [<-|H]; [reflexivity|]). contradiction.
Qed.

Lemma any_space_spec p s : safe_text p s ->
  any_space p s = Some (existsb space_code s).
Proof.
  induction 1 as [|c s Hc _ IH]; [reflexivity|]. cbn [any_space existsb].
  unfold c_isspace. rewrite Hc. destruct (space_code c); [reflexivity|exact IH].
Qed.

Lemma float_exact F (sto : str -> option (F * nat)) p s : safe_text p s ->
  (forall r, float_from_string p sto s = COk r <->
     Forall (fun c => ~ white c) s /\ sto s = Some (r, length s)) /\
  float_from_string p sto s <> CUB.
Proof.
  intro Hs. unfold float_from_string. rewrite (any_space_spec p s Hs).
  destruct (existsb space_code s) eqn:E.
  - split; [|discriminate]. intro r. split; [discriminate|]. intros [H _].
    apply existsb_exists in E as (c & Hin & Hc). apply space_code_white in Hc.
    rewrite Forall_forall in H. exfalso. exact (H c Hin Hc).
  - assert (Hw : Forall (fun c => ~ white c) s).
    { apply Forall_forall. intros c Hin Hc. apply space_code_white in Hc.
      assert (existsb space_code s = true) by (apply existsb_exists; eauto). congruence. }
    destruct (sto s) as [[r0 sz]|]; [|split; [intro r; split; [discriminate|intros [_ H]; discriminate]|discriminate]].
    destruct (Nat.eqb_spec sz (length s)) as [->|Hne].
    + split; [|discriminate]. intro r. split; [intro E'; injection E' as <-; tauto|].
      intros [_ H]. injection H as <-. reflexivity.
    + split; [|discriminate]. intro r. split; [discriminate|]. intros [_ H]. injection H as _ H. contradiction.
Qed.

Lemma custom_exact T (ext : str -> option (T * str)) s v :
  custom_from_string ext s = COk v <->
  exists rest, ext s = Some (v, rest) /\ Forall white rest.
Proof.
  unfold custom_from_string, ws_eof. split.
  - destruct (ext s) as [[v0 rest]|]; [|discriminate].
    destruct (forallb space_code rest) eqn:E; [|discriminate]. intro H. injection H as <-.
    exists rest. split; [reflexivity|]. apply Forall_forall. intros c Hin.
    rewrite forallb_forall in E. apply space_code_white, E, Hin.
  - intros (rest & -> & H). replace (forallb space_code rest) with true; [reflexivity|].
    symmetry. apply forallb_forall. intros c Hin. apply space_code_white.
    rewrite Forall_forall in H. exact (H c Hin).
Qed.
Lemma custom_no_ub T (ext : str -> option (T * str)) s : custom_from_string ext s <> CUB.
Proof. unfold custom_from_string. destruct (ext s) as [[v r]|]; [destruct (ws_eof r)|]; discriminate. Qed.

(** ** Round trip with the standard decimal printer *)
Lemma uint_digits (u : Decimal.uint) :
  exists v, digits (lit (NilEmpty.string_of_uint u)) v /\
    (forall acc, Zpos (Pos.of_uint_acc u acc) =
       Zpos acc * 10 ^ Z.of_nat (length (lit (NilEmpty.string_of_uint u))) + v) /\
    Z.of_N (Pos.of_uint u) = v.
Proof.
  assert (G : forall (u : Decimal.uint) c d (D : Decimal.uint -> Decimal.uint),
    is_digit c d ->
    (forall acc, Zpos (Pos.of_uint_acc (D u) acc) = Zpos (Pos.of_uint_acc u (Z.to_pos (Zpos acc * 10 + d)))) ->
    NilEmpty.string_of_uint (D u) = String c (NilEmpty.string_of_uint u) ->
    (d = 0 -> Pos.of_uint (D u) = Pos.of_uint u) ->
    (d <> 0 -> Pos.of_uint (D u) = Npos (Pos.of_uint_acc u (Z.to_pos d))) ->
    (exists v, digits (lit (NilEmpty.string_of_uint u)) v /\
      (forall acc, Zpos (Pos.of_uint_acc u acc) =
         Zpos acc * 10 ^ Z.of_nat (length (lit (NilEmpty.string_of_uint u))) + v) /\
      Z.of_N (Pos.of_uint u) = v) ->
    exists v, digits (lit (NilEmpty.string_of_uint (D u))) v /\
      (forall acc, Zpos (Pos.of_uint_acc (D u) acc) =
         Zpos acc * 10 ^ Z.of_nat (length (lit (NilEmpty.string_of_uint (D u)))) + v) /\
      Z.of_N (Pos.of_uint (D u)) = v).
  { clear u. intros u c d D Hd H1 H2 H3 H4 (v & V1 & V2 & V3).
    pose proof Hd as Hd'. apply is_digit_code in Hd' as [_ B].
    exists (d * 10 ^ Z.of_nat (length (lit (NilEmpty.string_of_uint u))) + v).
    rewrite H2. change (lit (String c (NilEmpty.string_of_uint u))) with (c :: lit (NilEmpty.string_of_uint u)).
    split; [constructor; assumption|]. split.
    - intro acc. rewrite H1, V2, Z2Pos.id by lia. cbn [length]. rewrite Nat2Z.inj_succ, Z.pow_succ_r by lia. ring.
    - destruct (Z.eq_dec d 0) as [->|Hne].
      + rewrite H3 by reflexivity. rewrite V3. lia.
      + rewrite H4 by exact Hne. cbn [Z.of_N]. rewrite V2, Z2Pos.id by lia. reflexivity. }
  assert (DG : forall n c, nth_error digit_chars n = Some c -> is_digit c (Z.of_nat n)).
  { intros n c H. split; [lia|]. rewrite Nat2Z.id. exact H. }
  induction u as [|u IH|u IH|u IH|u IH|u IH|u IH|u IH|u IH|u IH|u IH].
  - exists 0. split; [constructor|]. split; [|reflexivity]. intro acc. cbn [lit list_ascii_of_string length NilEmpty.string_of_uint Pos.of_uint_acc].
    change (10 ^ Z.of_nat 0) with 1. lia.
  - eapply (G u "0"%char 0 Decimal.D0); [apply (DG 0%nat); reflexivity| |reflexivity|reflexivity|lia|exact IH].
    intro acc. cbn [Pos.of_uint_acc]. f_equal. f_equal. lia.
  - eapply (G u "1"%char 1 Decimal.D1); [apply (DG 1%nat); reflexivity| |reflexivity|lia|reflexivity|exact IH].
    intro acc. cbn [Pos.of_uint_acc]. f_equal. f_equal. lia.
  - eapply (G u "2"%char 2 Decimal.D2); [apply (DG 2%nat); reflexivity| |reflexivity|lia|reflexivity|exact IH].
    intro acc. cbn [Pos.of_uint_acc]. f_equal. f_equal. lia.
  - eapply (G u "3"%char 3 Decimal.D3); [apply (DG 3%nat); reflexivity| |reflexivity|lia|reflexivity|exact IH].
    intro acc. cbn [Pos.of_uint_acc]. f_equal. f_equal. lia.
  - eapply (G u "4"%char 4 Decimal.D4); [apply (DG 4%nat); reflexivity| |reflexivity|lia|reflexivity|exact IH].
    intro acc. cbn [Pos.of_uint_acc]. f_equal. f_equal. lia.
  - eapply (G u "5"%char 5 Decimal.D5); [apply (DG 5%nat); reflexivity| |reflexivity|lia|reflexivity|exact IH].
    intro acc. cbn [Pos.of_uint_acc]. f_equal. f_equal. lia.
  - eapply (G u "6"%char 6 Decimal.D6); [apply (DG 6%nat); reflexivity| |reflexivity|lia|reflexivity|exact IH].
    intro acc. cbn [Pos.of_uint_acc]. f_equal. f_equal. lia.
  - eapply (G u "7"%char 7 Decimal.D7); [apply (DG 7%nat); reflexivity| |reflexivity|lia|reflexivity|exact IH].
    intro acc. cbn [Pos.of_uint_acc]. f_equal. f_equal. lia.
  - eapply (G u "8"%char 8 Decimal.D8); [apply (DG 8%nat); reflexivity| |reflexivity|lia|reflexivity|exact IH].
    intro acc. cbn [Pos.of_uint_acc]. f_equal. f_equal. lia.
  - eapply (G u "9"%char 9 Decimal.D9); [apply (DG 9%nat); reflexivity| |reflexivity|lia|reflexivity|exact IH].
    intro acc. cbn [Pos.of_uint_acc]. f_equal. f_equal. lia.
Qed.

Lemma print_N_decimal n : decimal (print_N n) (Z.of_N n).
Proof.
  unfold print_N, decimal.
  destruct (uint_digits (N.to_uint n)) as (v & V1 & _ & V3).
  change (Pos.of_uint (N.to_uint n)) with (N.of_uint (N.to_uint n)) in V3.
  rewrite DecimalN.Unsigned.of_to in V3. subst v.
  unfold NilZero.string_of_uint. destruct (N.to_uint n) as [|u|u|u|u|u|u|u|u|u|u] eqn:E;
    try (split; [discriminate|exact V1]).
  exfalso. assert (H : N.of_uint (N.to_uint n) = N.of_uint Decimal.Nil) by (rewrite E; reflexivity).
  rewrite DecimalN.Unsigned.of_to in H. cbn in H. subst n. cbn in E. discriminate E.
Qed.

Lemma print_N_plain n : plain (print_N n).
Proof.
  destruct (print_N_decimal n) as [_ H]. unfold plain. revert H. generalize (print_N n), (Z.of_N n).
  induction 1 as [|c d s v Hc _ IH]; constructor; [|exact IH].
  apply is_digit_code in Hc. unfold code in Hc. lia.
Qed.
Lemma print_Z_plain z : plain (print_Z z).
Proof.
  unfold print_Z. destruct (z <? 0); [constructor; [cbn; lia|]|]; apply print_N_plain.
Qed.
Lemma print_Z_text z : integer_text (print_Z z) z.
Proof.
  unfold print_Z. destruct (Z.ltb_spec z 0) as [L|L].
  - right; right. exists (print_N (Z.to_N (- z))). split; [reflexivity|].
    pose proof (print_N_decimal (Z.to_N (- z))) as H. rewrite Z2N.id in H by lia. exact H.
  - left. pose proof (print_N_decimal (Z.to_N z)) as H. rewrite Z2N.id in H by lia. exact H.
Qed.

Lemma unsigned_round_trip p w v : 8 <= w -> 0 <= v < 2 ^ w ->
  unsigned_from_string p w (print_Z v) = COk v.
Proof.
  intros Hw Hv. apply unsigned_exact; [exact Hw|apply plain_safe, print_Z_plain|].
  split; [left|lia]. unfold print_Z. destruct (Z.ltb_spec v 0); [lia|].
  pose proof (print_N_decimal (Z.to_N v)) as H'. rewrite Z2N.id in H' by lia. exact H'.
Qed.
Lemma signed_round_trip p w v : 8 <= w -> no_overflow_trap p w ->
  - 2 ^ (w - 1) <= v < 2 ^ (w - 1) ->
  signed_from_string p w (print_Z v) = COk v.
Proof.
  intros Hw Hn Hv. apply signed_exact; [exact Hw|exact Hn|apply plain_safe, print_Z_plain|].
  split; [apply print_Z_text|exact Hv].
Qed.

(** Texts without non-ASCII bytes, or any text where [char] is unsigned. *)
Definition readable (p : platform) (s : str) : Prop := char_signed p = false \/ plain s.
Lemma readable_safe p s : readable p s -> safe_text p s.
Proof. intros [H|H]; [apply unsigned_char_safe|apply plain_safe]; exact H. Qed.

Lemma conv_iff {A} (x : conv A) (P : A -> Prop) :
  (forall v, x = COk v <-> P v) -> x <> CUB -> (x = CBad <-> forall v, ~ P v).
Proof.
  intros H1 H2. destruct x as [a| |]; split; intro H; try congruence.
  - exfalso. apply (H a). apply H1. reflexivity.
  - intros v Hv. apply H1 in Hv. discriminate.
Qed.

Lemma int_exact p t s : readable p s -> strict p = false \/ int_width t < 32 \/ int_signed t = false ->
  (forall v, int_from_string p t s = COk v <->
     (if int_signed t then signed_text (int_width t) s v else unsigned_text (int_width t) s v)) /\
  int_from_string p t s <> CUB.
Proof.
  intros Hr Hs. apply readable_safe in Hr. unfold int_from_string.
  assert (W : 8 <= int_width t) by (destruct t; cbn; lia).
  destruct (int_signed t) eqn:E.
  - apply signed_exact; [exact W| |exact Hr]. unfold no_overflow_trap. destruct Hs as [H|[H|H]]; [tauto|tauto|discriminate].
  - apply unsigned_exact; assumption.
Qed.

Lemma int_types p t s : readable p s -> strict p = false \/ ~ wide_signed t ->
  (forall v, int_from_string p t s = COk v <-> int_text t s v) /\ int_from_string p t s <> CUB.
Proof.
  intros Hr Hs.
  destruct (int_exact p t s Hr) as [E N].
  { destruct Hs as [H|H]; [left; exact H|].
    destruct t; cbn; try (right; left; lia); try (right; right; reflexivity);
    exfalso; apply H; unfold wide_signed; cbn; tauto. }
  split; [|exact N]. intro v. rewrite E. unfold int_text, signed_text, unsigned_text, integer_text.
  pose proof (decimal_nonneg s v) as P1.
  assert (P2 : forall r, decimal r v -> 0 <= v) by (intros r Hd; exact (decimal_nonneg r v Hd)).
  destruct t; cbn [int_signed int_width int_range fst snd In];
  repeat match goal with |- context [2 ^ ?k] => let x := eval vm_compute in (2 ^ k) in change (2 ^ k) with x end;
  split.
  all: try (intros [[H|[H|H]] R]; (split; [tauto|lia])).
  all: try (intros [[H|H] R]; (split; [tauto|]);
     (assert (0 <= v) by (destruct H as [? [_ H]] || idtac; first [exact (P1 H)|exact (P2 _ H)|destruct H as (r & _ & H); exact (P2 _ H)])); lia).
  all: intros [[H|[H|[H _]]] R]; [split; [tauto|lia]|split; [tauto|lia]|
    exfalso; repeat (destruct H as [H|H]; [discriminate|]); exact H].
Qed.
