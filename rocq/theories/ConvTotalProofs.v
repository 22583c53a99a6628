(** * Proofs: parameter conversion for every text and every platform *)

From Verif Require Import Base FromStringModel FromStringSpec FromStringProofs ConvTotalSpec.
Open Scope Z_scope.

Lemma negative_code c : negative_byte c <-> 128 <= code c <= 254.
Proof. unfold negative_byte, code. lia. Qed.
Lemma ctype_not p c : ctype_ok p c = false <-> char_signed p = true /\ negative_byte c.
Proof.
  rewrite negative_code. unfold ctype_ok.
  assert (B : 0 <= code c <= 255). { pose proof (N_ascii_bounded c). unfold code. lia. }
  destruct (char_signed p); cbn [negb orb].
  - destruct (Z.ltb_spec (code c) 128) as [L|L]; cbn [orb].
    + split; [discriminate|]. intros [_ H]. lia.
    + destruct (Z.eqb_spec (code c) 255) as [E|E].
      * split; [discriminate|]. intros [_ H]. lia.
      * split; [|reflexivity]. intros _. split; [reflexivity|lia].
  - split; [discriminate|]. intros [H _]. discriminate.
Qed.
Lemma negative_not_digit c : negative_byte c -> forall d, ~ is_digit c d.
Proof. intros H d Hd. apply negative_code in H. apply is_digit_code in Hd. lia. Qed.

(** The first character that is not a digit. *)
Lemma split_digits s : (exists v, digits s v) \/
  exists ds v c rest, s = ds ++ c :: rest /\ digits ds v /\ forall d, ~ is_digit c d.
Proof.
  induction s as [|c s IH]; [left; exists 0; constructor|].
  destruct (digit_dec c) as [[d Hd]|Hn].
  - destruct IH as [[v Hv]|(ds & v & c' & rest & -> & Hv & Hn)].
    + left. eexists. constructor; eassumption.
    + right. exists (c :: ds). eexists. exists c', rest. split; [reflexivity|].
      split; [constructor; eassumption|exact Hn].
  - right. exists [], 0, c, s. split; [reflexivity|]. split; [constructor|exact Hn].
Qed.
Lemma split_unique ds : forall v c rest ds' v' c' rest', digits ds v -> digits ds' v' ->
  (forall d, ~ is_digit c d) -> (forall d, ~ is_digit c' d) ->
  ds ++ c :: rest = ds' ++ c' :: rest' -> ds = ds' /\ c = c'.
Proof.
  induction ds as [|x ds IH]; intros v c rest ds' v' c' rest' H H' Hc Hc' E; destruct ds' as [|y ds'].
  - injection E as E _. split; [reflexivity|exact E].
  - injection E as E _. inversion H'; subst. exfalso. eapply Hc; eassumption.
  - injection E as E _. inversion H; subst. exfalso. eapply Hc'; eassumption.
  - injection E as <- E. inversion H as [|? ? ? ? _ H1]; inversion H' as [|? ? ? ? _ H1']; subst.
    destruct (IH _ _ _ _ _ _ _ H1 H1' Hc Hc' E) as [-> ->]. split; reflexivity.
Qed.
Lemma digits_no_split s v ds c rest : digits s v -> (forall d, ~ is_digit c d) -> s <> ds ++ c :: rest.
Proof.
  intros H Hc ->. revert v H. induction ds as [|x ds IH]; intros v H; inversion H; subst.
  - eapply Hc; eassumption.
  - eapply IH; eassumption.
Qed.

(** The loop over digits followed by something else. *)
Lemma loop_stops p w : 8 <= w -> forall ds v c rest, digits ds v -> (forall d, ~ is_digit c d) ->
  forall r, 0 <= r < 2 ^ w ->
  digits_loop p w r (ds ++ c :: rest) =
  if r * 10 ^ Z.of_nat (length ds) + v <? 2 ^ w then (if ctype_ok p c then CBad else CUB) else CBad.
Proof.
  intros Hw ds v c rest H Hc. induction H as [|c' d s v Hc' Hs IH]; intros r Hr.
  - cbn [app digits_loop length]. change (10 ^ Z.of_nat 0) with 1. rewrite Z.mul_1_r, Z.add_0_r.
    destruct (Z.ltb_spec r (2 ^ w)); [|lia]. rewrite isdigit_not_true by exact Hc.
    destruct (ctype_ok p c); reflexivity.
  - cbn [app digits_loop]. destruct (isdigit_true p c' d Hc') as [E1 E2]. rewrite E1, E2.
    apply is_digit_code in Hc' as [_ Hd]. pose proof (pow2_ge w Hw) as HM.
    unfold wrapU at 1. rewrite (Z.mod_small d) by lia. rewrite digit_step_spec by assumption.
    cbn [length]. rewrite Nat2Z.inj_succ, Z.pow_succ_r by lia.
    pose proof (digits_nonneg s v Hs) as Hv. set (P := 10 ^ Z.of_nat (length s)) in *.
    assert (HP : 1 <= P) by (subst P; assert (0 < 10 ^ Z.of_nat (length s)) by (apply Z.pow_pos_nonneg; lia); lia).
    destruct (Z.ltb_spec (r * 10 + d) (2 ^ w)) as [L|L].
    + rewrite IH by lia. fold P.
      replace (r * (10 * P) + (d * P + v)) with ((r * 10 + d) * P + v) by ring. reflexivity.
    + destruct (Z.ltb_spec (r * (10 * P) + (d * P + v)) (2 ^ w)) as [L2|L2]; [|reflexivity].
      exfalso. nia.
Qed.

Lemma decimal_steady p w s v : decimal s v -> ~ stumbles p w s.
Proof.
  intros [_ H] (_ & ds & v' & c & rest & E & _ & _ & Hc).
  exact (digits_no_split s v ds c rest H (negative_not_digit c Hc) E).
Qed.
Lemma unsigned_digits_total p w s : 8 <= w ->
  (exists v, decimal s v /\ unsigned_digits p w s = if v <? 2 ^ w then COk v else CBad) \/
  ((forall v, ~ decimal s v) /\ ~ stumbles p w s /\ unsigned_digits p w s = CBad) \/
  ((forall v, ~ decimal s v) /\ stumbles p w s /\ unsigned_digits p w s = CUB).
Proof.
  intro Hw. pose proof (pow2_ge w Hw) as HM. destruct (split_digits s) as [[v Hv]|(ds & v & c & rest & -> & Hv & Hc)].
  - destruct s as [|c s].
    + right. left. split; [intros x [H _]; congruence|]. split; [|reflexivity].
      intros (_ & ds & v' & c & rest & E & _). destruct ds; discriminate E.
    + left. exists v. split; [split; [discriminate|exact Hv]|]. cbn [unsigned_digits].
      rewrite (digits_loop_ok p w Hw (c :: s) v 0) by (try lia; assumption). reflexivity.
  - right. assert (Hnd : forall x, ~ decimal (ds ++ c :: rest) x).
    { intros x [_ H]. exact (digits_no_split _ x ds c rest H Hc eq_refl). }
    assert (E : unsigned_digits p w (ds ++ c :: rest) = if v <? 2 ^ w then (if ctype_ok p c then CBad else CUB) else CBad).
    { unfold unsigned_digits. destruct (ds ++ c :: rest) as [|x y] eqn:E; [destruct ds; discriminate|].
      rewrite <- E, (loop_stops p w Hw ds v c rest Hv Hc 0) by lia. reflexivity. }
    rewrite E. destruct (Z.ltb_spec v (2 ^ w)) as [L|L].
    + destruct (ctype_ok p c) eqn:Hok.
      * left. split; [exact Hnd|]. split; [|reflexivity]. intros (Hp & ds' & v' & c' & rest' & E' & Hv' & _ & Hc').
        destruct (split_unique _ _ _ _ _ _ _ _ Hv Hv' Hc (negative_not_digit c' Hc') E') as [_ ->].
        rewrite (proj2 (ctype_not p c') (conj Hp Hc')) in Hok. discriminate.
      * right. split; [exact Hnd|]. split; [|reflexivity]. apply ctype_not in Hok as [Hp Hn].
        split; [exact Hp|]. exists ds, v, c, rest. split; [reflexivity|]. split; [exact Hv|]. split; [exact L|exact Hn].
    + left. split; [exact Hnd|]. split; [|reflexivity]. intros (Hp & ds' & v' & c' & rest' & E' & Hv' & L' & Hc').
      destruct (split_unique _ _ _ _ _ _ _ _ Hv Hv' Hc (negative_not_digit c' Hc') E') as [<- _].
      pose proof (digits_fun _ _ Hv _ Hv'). lia.
Qed.

(** ** Unsigned types *)
Lemma stumbles_head p w c s : stumbles p w (c :: s) -> negative_byte c \/ exists d, is_digit c d.
Proof.
  intros (_ & ds & v & x & rest & E & Hv & _ & Hx). destruct ds as [|y ds]; injection E as -> _; [left; exact Hx|].
  right. inversion Hv; subst. eexists; eassumption.
Qed.
Lemma no_plus p w s : ~ stumbles p w ("+"%char :: s).
Proof.
  intro H. destruct (stumbles_head _ _ _ _ H) as [K|[d K]]; [|exact (plus_not_digit d K)].
  apply negative_code in K. change (code "+") with 43 in K. lia.
Qed.
Lemma no_minus p w s : ~ stumbles p w ("-"%char :: s).
Proof.
  intro H. destruct (stumbles_head _ _ _ _ H) as [K|[d K]]; [|exact (minus_not_digit d K)].
  apply negative_code in K. change (code "-") with 45 in K. lia.
Qed.
Lemma undefined_plus p w s : unsigned_undefined p w ("+"%char :: s) <-> stumbles p w s.
Proof.
  split; [|intro H; right; exists s; split; [reflexivity|exact H]].
  intros [H|(r & E & H)]; [destruct (no_plus _ _ _ H)|]. injection E as <-. exact H.
Qed.
Lemma undefined_bare p w c s : c <> "+"%char -> unsigned_undefined p w (c :: s) <-> stumbles p w (c :: s).
Proof. intro Hc. split; [|intro H; left; exact H]. intros [H|(r & E & H)]; [exact H|congruence]. Qed.
Lemma undefined_nil p w : ~ unsigned_undefined p w [].
Proof. intros [(_ & ds & v & c & r & E & _)|(r & E & _)]; [destruct ds; discriminate|discriminate]. Qed.

Lemma unsigned_total p w s : 8 <= w ->
  (forall v, unsigned_from_string p w s = COk v <-> unsigned_text w s v) /\
  (unsigned_from_string p w s = CUB <-> unsigned_undefined p w s).
Proof.
  intro Hw. destruct s as [|c s].
  { cbn [unsigned_from_string]. split.
    - intro v. split; [discriminate|]. intros [[[H _]|(r & H & _)] _]; congruence.
    - split; [discriminate|]. intro H. destruct (undefined_nil _ _ H). }
  assert (G : forall body, (forall v, unsigned_digits p w body = COk v <-> decimal body v /\ v < 2 ^ w) /\
                           (unsigned_digits p w body = CUB <-> stumbles p w body)).
  { intro body. destruct (unsigned_digits_total p w body Hw) as [(v0 & Hv0 & ->)|[(Hn & Hs & ->)|(Hn & Hs & ->)]].
    - split.
      + intro v. destruct (Z.ltb_spec v0 (2 ^ w)) as [L|L]; split.
        * intro E. injection E as <-. split; [exact Hv0|exact L].
        * intros [H _]. rewrite (decimal_fun _ _ _ Hv0 H). reflexivity.
        * discriminate.
        * intros [H B]. rewrite (decimal_fun _ _ _ Hv0 H) in L. lia.
      + split; [destruct (v0 <? 2 ^ w); discriminate|]. intro H. destruct (decimal_steady _ _ _ _ Hv0 H).
    - split.
      + intro v. split; [discriminate|]. intros [H _]. destruct (Hn v H).
      + split; [discriminate|]. intro H. destruct (Hs H).
    - split.
      + intro v. split; [discriminate|]. intros [H _]. destruct (Hn v H).
      + split; [intros _; exact Hs|reflexivity]. }
  cbn [unsigned_from_string]. destruct (Ascii.eqb_spec c "+") as [->|Hc].
  - rewrite undefined_plus. destruct (G s) as [G1 G2]. split; [|exact G2]. intro v. rewrite G1. unfold unsigned_text. split.
    + intros [H B]. split; [right; exists s; split; [reflexivity|exact H]|exact B].
    + intros [[H|(r & E & H)] B].
      * apply decimal_head in H as [d H]. destruct (plus_not_digit d H).
      * injection E as <-. split; [exact H|exact B].
  - rewrite undefined_bare by exact Hc. destruct (G (c :: s)) as [G1 G2]. split; [|exact G2]. intro v. rewrite G1. unfold unsigned_text. split.
    + intros [H B]. split; [left; exact H|exact B].
    + intros [[H|(r & E & H)] B]; [|congruence]. split; [exact H|exact B].
Qed.

(** ** Signed types *)
Definition minus_undefined (p : platform) (w : Z) (r : str) : Prop :=
  stumbles p w r \/ (strict p = true /\ 32 <= w /\ exists v, decimal r v /\ v < 2 ^ w).
Lemma signed_minus p w s : signed_undefined p w ("-"%char :: s) <-> minus_undefined p w s.
Proof.
  split; [|intro H; right; exists s; split; [reflexivity|exact H]].
  intros [[H|(r & E & H)]|(r & E & H)].
  - destruct (no_minus _ _ _ H).
  - discriminate.
  - injection E as <-. exact H.
Qed.
Lemma signed_bare p w c s : c <> "-"%char -> signed_undefined p w (c :: s) <-> unsigned_undefined p w (c :: s).
Proof. intro Hc. split; [|intro H; left; exact H]. intros [H|(r & E & H)]; [exact H|congruence]. Qed.
Lemma trap_dec p w : no_overflow_trap p w \/ (strict p = true /\ 32 <= w).
Proof.
  unfold no_overflow_trap. destruct (strict p); [|left; left; reflexivity].
  destruct (Z_lt_dec w 32); [left; right; assumption|]. right. split; [reflexivity|lia].
Qed.

Lemma signed_total p w s : 8 <= w ->
  (forall v, signed_from_string p w s = COk v <-> signed_text w s v /\ ~ signed_undefined p w s) /\
  (signed_from_string p w s = CUB <-> signed_undefined p w s).
Proof.
  intro Hw. pose proof (pow2_half w Hw) as E2. pose proof (pow2_ge w Hw) as G2. destruct s as [|c s].
  { cbn [signed_from_string]. split.
    - intro v. split; [discriminate|]. intros [[[[H _]|[(r & H & _)|(r & H & _)]] _] _]; congruence.
    - split; [discriminate|]. intros [H|(r & H & _)]; [destruct (undefined_nil _ _ H)|discriminate]. }
  cbn [signed_from_string]. unfold signed_text. destruct (Ascii.eqb_spec c "-") as [->|Hc].
  - setoid_rewrite integer_text_minus. setoid_rewrite signed_minus.
    destruct (unsigned_digits_total p w s Hw) as [(v0 & Hv0 & ->)|[(Hn & Hs & ->)|(Hn & Hs & ->)]].
    + pose proof (decimal_nonneg _ _ Hv0) as P0. destruct (Z.ltb_spec v0 (2 ^ w)) as [L|L]; cbn [cbind].
      * destruct (trap_dec p w) as [Ht|(Hst & Hwd)].
        -- assert (Hnu : ~ minus_undefined p w s).
           { intros [H|(A & B & _)]; [exact (decimal_steady _ _ _ _ Hv0 H)|]. destruct Ht as [Ht|Ht]; [congruence|lia]. }
           destruct (neg_min p w Hw Ht) as (n & -> & En). cbn [cbind]. rewrite En.
           destruct (Z.ltb_spec (2 ^ (w - 1)) v0) as [L2|L2].
           ++ split; [|split; [discriminate|intro H; destruct (Hnu H)]]. intro v. split; [discriminate|]. intros [[H B] _].
              pose proof (decimal_fun _ _ _ Hv0 H). lia.
           ++ rewrite neg_val by (try assumption; lia). split; [|split; [discriminate|intro H; destruct (Hnu H)]]. intro v. split.
              ** intro E. injection E as <-. rewrite Z.opp_involutive. split; [split; [exact Hv0|lia]|exact Hnu].
              ** intros [[H B] _]. pose proof (decimal_fun _ _ _ Hv0 H). f_equal. lia.
        -- assert (Hu : minus_undefined p w s).
           { right. split; [exact Hst|]. split; [exact Hwd|]. exists v0. split; [exact Hv0|exact L]. }
           unfold neg, narrow. destruct (Z.ltb_spec w 32); [lia|]. rewrite Z.eqb_refl, Hst. cbn [cbind].
           split; [|split; [intros _; exact Hu|reflexivity]]. intro v. split; [discriminate|]. intros [_ K]. destruct (K Hu).
      * assert (Hnu : ~ minus_undefined p w s).
        { intros [H|(_ & _ & v & Hv & B)]; [exact (decimal_steady _ _ _ _ Hv0 H)|]. pose proof (decimal_fun _ _ _ Hv0 Hv). lia. }
        split; [|split; [discriminate|intro H; destruct (Hnu H)]]. intro v. split; [discriminate|]. intros [[H B] _].
        pose proof (decimal_fun _ _ _ Hv0 H). lia.
    + cbn [cbind]. split.
      * intro v. split; [discriminate|]. intros [[H _] _]. destruct (Hn _ H).
      * split; [discriminate|]. intros [H|(_ & _ & v & Hv & _)]; [destruct (Hs H)|destruct (Hn _ Hv)].
    + cbn [cbind]. split.
      * intro v. split; [discriminate|]. intros [[H _] _]. destruct (Hn _ H).
      * split; [intros _; left; exact Hs|reflexivity].
  - assert (G : forall body,
      (forall v, cbind (unsigned_digits p w body)
         (fun val => if wrapU w (2 ^ (w - 1) - 1) <? val then CBad else COk (wrapS w val)) = COk v <->
         (decimal body v /\ - 2 ^ (w - 1) <= v < 2 ^ (w - 1)) /\ ~ stumbles p w body) /\
      (cbind (unsigned_digits p w body)
         (fun val => if wrapU w (2 ^ (w - 1) - 1) <? val then CBad else COk (wrapS w val)) = CUB <-> stumbles p w body)).
    { intro body. rewrite wrapU_small by lia.
      destruct (unsigned_digits_total p w body Hw) as [(v0 & Hv0 & ->)|[(Hn & Hs & ->)|(Hn & Hs & ->)]].
      - pose proof (decimal_nonneg _ _ Hv0) as P0. pose proof (decimal_steady p w _ _ Hv0) as Hnu.
        destruct (Z.ltb_spec v0 (2 ^ w)) as [L|L]; cbn [cbind].
        + destruct (Z.ltb_spec (2 ^ (w - 1) - 1) v0) as [L2|L2].
          * split; [|split; [discriminate|intro H; destruct (Hnu H)]]. intro v. split; [discriminate|]. intros [[H B] _].
            pose proof (decimal_fun _ _ _ Hv0 H). lia.
          * rewrite wrapS_small by lia. split; [|split; [discriminate|intro H; destruct (Hnu H)]]. intro v. split.
            -- intro E. injection E as <-. split; [split; [exact Hv0|lia]|exact Hnu].
            -- intros [[H B] _]. f_equal. exact (decimal_fun _ _ _ Hv0 H).
        + split; [|split; [discriminate|intro H; destruct (Hnu H)]]. intro v. split; [discriminate|]. intros [[H B] _].
          pose proof (decimal_fun _ _ _ Hv0 H). lia.
      - cbn [cbind]. split; [|split; [discriminate|intro H; destruct (Hs H)]]. intro v. split; [discriminate|]. intros [[H _] _].
        destruct (Hn _ H).
      - cbn [cbind]. split; [|split; [intros _; exact Hs|reflexivity]]. intro v. split; [discriminate|]. intros [_ H]. destruct (H Hs). }
    setoid_rewrite (signed_bare p w c s Hc). destruct (Ascii.eqb_spec c "+") as [->|Hp].
    + setoid_rewrite integer_text_plus. setoid_rewrite undefined_plus. exact (G s).
    + setoid_rewrite (undefined_bare p w c s Hp). setoid_rewrite (integer_text_bare c s); [exact (G (c :: s))|exact Hp|exact Hc].
Qed.

(** ** The ten integer types, bool *)
Lemma int_total p t s :
  (forall v, int_from_string p t s = COk v <-> int_text t s v /\ ~ int_undefined p t s) /\
  (int_from_string p t s = CUB <-> int_undefined p t s).
Proof.
  assert (S : forall w lo hi, 8 <= w -> lo = - 2 ^ (w - 1) -> hi = 2 ^ (w - 1) - 1 ->
    (forall v, signed_from_string p w s = COk v <->
      ((decimal s v \/ (exists r, s = "+"%char :: r /\ decimal r v) \/
        (True /\ exists r, s = "-"%char :: r /\ decimal r (- v))) /\ lo <= v <= hi) /\ ~ signed_undefined p w s)).
  { intros w lo hi Hw -> -> v. rewrite (proj1 (signed_total p w s Hw) v). unfold signed_text, integer_text.
    split; intros [[A B] C]; (split; [split; [tauto|lia]|exact C]). }
  assert (U : forall w hi, 8 <= w -> hi = 2 ^ w - 1 ->
    (forall v, unsigned_from_string p w s = COk v <->
      ((decimal s v \/ (exists r, s = "+"%char :: r /\ decimal r v) \/
        (False /\ exists r, s = "-"%char :: r /\ decimal r (- v))) /\ 0 <= v <= hi) /\ ~ unsigned_undefined p w s)).
  { intros w hi Hw -> v. destruct (unsigned_total p w s Hw) as [A B]. split.
    - intro E. split; [|intro H; apply B in H; congruence]. apply A in E as [[E|(r & -> & E)] L].
      + split; [left; exact E|]. pose proof (decimal_nonneg _ _ E). lia.
      + split; [right; left; exists r; split; [reflexivity|exact E]|]. pose proof (decimal_nonneg _ _ E). lia.
    - intros [[[E|[E|[[] _]]] L] _]; apply A; (split; [|lia]); [left|right]; exact E. }
  assert (X : forall A B : Prop, (A -> False) -> (A \/ B <-> B)) by tauto.
  unfold int_from_string, int_undefined, int_text. destruct t; cbn [int_signed int_width int_bits int_range fst snd In];
    match goal with
    | |- context [signed_from_string _ ?w _] =>
        pose proof (proj2 (signed_total p w s ltac:(lia))) as K;
        split; [intro v; rewrite (S w _ _ ltac:(lia) eq_refl eq_refl v); clear; intuition (auto; try discriminate)|
                rewrite K; clear; intuition (auto; try discriminate)]
    | |- context [unsigned_from_string _ ?w _] =>
        pose proof (proj2 (unsigned_total p w s ltac:(lia))) as K;
        split; [intro v; rewrite (U w _ ltac:(lia) eq_refl v); clear; intuition (auto; try discriminate)|
                rewrite K; clear; intuition (auto; try discriminate)]
    end.
Qed.

Lemma bool_total p s :
  (forall b, bool_from_string p s = COk b <->
     (b = true /\ (s = lit "true" \/ integer_text s 1) \/ b = false /\ (s = lit "false" \/ integer_text s 0)) /\
     ~ signed_undefined p 64 s) /\
  (bool_from_string p s = CUB <-> signed_undefined p 64 s).
Proof.
  destruct (signed_total p 64 s ltac:(lia)) as [A B].
  assert (W : forall t, ~ signed_undefined p 64 (lit t) -> forall c r, lit t = c :: r -> (forall d, ~ is_digit c d) -> c <> "+"%char -> c <> "-"%char -> forall v, ~ integer_text (lit t) v).
  { intros t _ c r -> Hc H1 H2 v H. apply integer_text_bare in H; [|assumption..]. apply decimal_head in H as [d H]. exact (Hc d H). }
  assert (D : forall c n, code c = n -> 57 < n < 128 -> (forall d, ~ is_digit c d) /\ ~ negative_byte c).
  { intros c n E L. split; [intros d H; apply is_digit_code in H; lia|]. rewrite negative_code. lia. }
  assert (V : forall c r, (forall d, ~ is_digit c d) /\ ~ negative_byte c -> c <> "+"%char -> c <> "-"%char -> ~ signed_undefined p 64 (c :: r)).
  { intros c r [H1 H2] Hp Hm H. apply (signed_bare p 64 c r Hm), (undefined_bare p 64 c r Hp), stumbles_head in H as [H|[d H]]; [exact (H2 H)|exact (H1 d H)]. }
  unfold bool_from_string. destruct (str_eqb_spec s (lit "true")) as [->|N1].
  { assert (Hd := D "t"%char 116 eq_refl ltac:(lia)).
    assert (Hu : ~ signed_undefined p 64 (lit "true")) by (apply (V "t"%char (lit "rue") Hd); discriminate).
    split; [|split; [discriminate|intro H; destruct (Hu H)]]. intro b. split.
    - intro E. injection E as <-. split; [left; split; [reflexivity|left; reflexivity]|exact Hu].
    - intros [[[-> _]|[_ [E|E]]] _]; [reflexivity|discriminate|].
      exfalso. refine (W "true"%string Hu "t"%char (lit "rue") eq_refl (proj1 Hd) _ _ 0 E); discriminate. }
  destruct (str_eqb_spec s (lit "false")) as [->|N2].
  { assert (Hd := D "f"%char 102 eq_refl ltac:(lia)).
    assert (Hu : ~ signed_undefined p 64 (lit "false")) by (apply (V "f"%char (lit "alse") Hd); discriminate).
    split; [|split; [discriminate|intro H; destruct (Hu H)]]. intro b. split.
    - intro E. injection E as <-. split; [right; split; [reflexivity|left; reflexivity]|exact Hu].
    - intros [[[_ [E|E]]|[-> _]] _]; [discriminate| |reflexivity].
      exfalso. refine (W "false"%string Hu "f"%char (lit "alse") eq_refl (proj1 Hd) _ _ 1 E); discriminate. }
  destruct (signed_from_string p 64 s) as [v| |]; cbn [cbind].
  - destruct (proj1 (A v) eq_refl) as [Hv Hu]. split.
    + intro b. destruct (Z.eqb_spec v 1) as [->|H1]; [|destruct (Z.eqb_spec v 0) as [->|H0]].
      * split; [intro E; injection E as <-; split; [left; split; [reflexivity|right; exact (proj1 Hv)]|exact Hu]|].
        intros [[[-> _]|[-> [E|E]]] _]; [reflexivity|congruence|].
        assert (K : signed_text 64 s 0) by (apply signed_text_64_small; [left; reflexivity|exact E]).
        pose proof (proj2 (A 0) (conj K Hu)) as K'. congruence.
      * split; [intro E; injection E as <-; split; [right; split; [reflexivity|right; exact (proj1 Hv)]|exact Hu]|].
        intros [[[-> [E|E]]|[-> _]] _]; [congruence| |reflexivity].
        assert (K : signed_text 64 s 1) by (apply signed_text_64_small; [right; reflexivity|exact E]).
        pose proof (proj2 (A 1) (conj K Hu)) as K'. congruence.
      * split; [discriminate|]. intros [[[-> [E|E]]|[-> [E|E]]] _]; try congruence.
        -- pose proof (proj2 (A 1) (conj (proj2 (signed_text_64_small s 1 (or_intror eq_refl)) E) Hu)) as K'. congruence.
        -- pose proof (proj2 (A 0) (conj (proj2 (signed_text_64_small s 0 (or_introl eq_refl)) E) Hu)) as K'. congruence.
    + split; [destruct (v =? 1), (v =? 0); discriminate|]. intro H. destruct (Hu H).
  - assert (Hu : ~ signed_undefined p 64 s) by (intro H; apply B in H; discriminate).
    split; [|split; [discriminate|intro H; destruct (Hu H)]]. intro b. split; [discriminate|].
    intros [[[-> [E|E]]|[-> [E|E]]] _]; try congruence.
    + pose proof (proj2 (A 1) (conj (proj2 (signed_text_64_small s 1 (or_intror eq_refl)) E) Hu)). discriminate.
    + pose proof (proj2 (A 0) (conj (proj2 (signed_text_64_small s 0 (or_introl eq_refl)) E) Hu)). discriminate.
  - assert (Hu : signed_undefined p 64 s) by (apply B; reflexivity).
    split; [|split; [intros _; exact Hu|reflexivity]]. intro b. split; [discriminate|]. intros [_ H]. destruct (H Hu).
Qed.

(** ** Floating point *)
Lemma space_total p s :
  (any_space p s = None /\ float_undefined p s) \/
  (~ float_undefined p s /\
   (any_space p s = Some true /\ ~ Forall (fun c => ~ white c) s \/ any_space p s = Some false /\ Forall (fun c => ~ white c) s)).
Proof.
  assert (U : forall c s, float_undefined p (c :: s) <-> (char_signed p = true /\ negative_byte c) \/ (~ white c /\ float_undefined p s)).
  { clear. intros c s. split.
    - intros (Hp & pre & x & rest & E & F & Hx). destruct pre as [|y pre]; injection E as -> E; [left; split; assumption|].
      right. inversion F as [|? ? F1 F2]; subst. split; [exact F1|]. split; [exact Hp|]. exists pre, x, rest. split; [reflexivity|]. split; assumption.
    - intros [[Hp Hc]|[Hw (Hp & pre & x & rest & -> & F & Hx)]]; (split; [exact Hp|]).
      + exists [], c, s. split; [reflexivity|]. split; [constructor|exact Hc].
      + exists (c :: pre), x, rest. split; [reflexivity|]. split; [constructor; assumption|exact Hx]. }
  induction s as [|c s IH].
  - right. split; [intros (_ & pre & c & r & E & _); destruct pre; discriminate|]. right. split; [reflexivity|constructor].
  - cbn [any_space]. unfold c_isspace. rewrite (U c s). destruct (ctype_ok p c) eqn:Hok.
    + assert (Hn : ~ (char_signed p = true /\ negative_byte c)) by (intro H; apply ctype_not in H; congruence).
      destruct (space_code c) eqn:Hs.
      * apply space_code_white in Hs. right. split; [tauto|]. left. split; [reflexivity|]. intro F. inversion F; subst; tauto.
      * assert (Hw : ~ white c) by (intro H; apply space_code_white in H; congruence).
        destruct IH as [[E H]|[H [[E F]|[E F]]]]; rewrite E.
        -- left. split; [reflexivity|]. right. split; assumption.
        -- right. split; [tauto|]. left. split; [reflexivity|]. intro G. inversion G; subst; tauto.
        -- right. split; [tauto|]. right. split; [reflexivity|]. constructor; assumption.
    + left. apply ctype_not in Hok. split; [reflexivity|left; exact Hok].
Qed.
Lemma float_total F (sto : str -> option (F * nat)) p s :
  (forall r, float_from_string p sto s = COk r <->
     (Forall (fun c => ~ white c) s /\ sto s = Some (r, length s)) /\ ~ float_undefined p s) /\
  (float_from_string p sto s = CUB <-> float_undefined p s).
Proof.
  unfold float_from_string. destruct (space_total p s) as [[-> H]|[Hn [[-> Hw]|[-> Hw]]]].
  - split; [|split; [intros _; exact H|reflexivity]]. intro r. split; [discriminate|]. intros [_ K]. destruct (K H).
  - split; [|split; [discriminate|intro H; destruct (Hn H)]]. intro r. split; [discriminate|]. intros [[K _] _]. destruct (Hw K).
  - destruct (sto s) as [[r sz]|].
    + destruct (Nat.eqb_spec sz (length s)) as [->|Hsz].
      * split; [|split; [discriminate|intro H; destruct (Hn H)]]. intro r'. split.
        -- intro E. injection E as <-. split; [split; [exact Hw|reflexivity]|exact Hn].
        -- intros [[_ E] _]. injection E as <-. reflexivity.
      * split; [|split; [discriminate|intro H; destruct (Hn H)]]. intro r'. split; [discriminate|]. intros [[_ E] _]. congruence.
    + split; [|split; [discriminate|intro H; destruct (Hn H)]]. intro r'. split; [discriminate|]. intros [[_ E] _]. discriminate.
Qed.

Lemma never_undefined p t s : char_signed p = false -> strict p = false -> ~ int_undefined p t s.
Proof.
  intros Hc Hs.
  assert (A : forall w r, ~ stumbles p w r) by (intros w r [H _]; congruence).
  assert (B : forall w r, ~ unsigned_undefined p w r) by (intros w r [H|(r' & _ & H)]; exact (A _ _ H)).
  intros [[_ [H|(r & _ & [H|[H _]])]]|[_ H]]; [exact (B _ _ H)|exact (A _ _ H)|congruence|exact (B _ _ H)].
Qed.
