(** * Proofs about floating point parameters *)

From Coq Require Import QArith Qabs Qpower.
From Verif Require Import Base FromStringModel FromStringSpec FloatModel FloatSpec.
Open Scope Z_scope.
Open Scope list_scope.

(** ** Digits *)
Lemma code_inj c d : code c = code d -> c = d.
Proof. unfold code. intros H. apply N2Z.inj in H. rewrite <- (ascii_N_embedding c), <- (ascii_N_embedding d), H. reflexivity. Qed.
Lemma code_range c : 0 <= code c < 256.
Proof. unfold code. pose proof (N_ascii_bounded c). lia. Qed.

Ltac all_codes :=
  intros c; destruct c as [[] [] [] [] [] [] [] []]; vm_compute.

Lemma dec_dig_spec c d : dec_dig c = Some d <-> is_digit c d.
Proof.
  unfold dec_dig, is_digit, digit_chars. split.
  - destruct ((48 <=? code c) && (code c <=? 57)) eqn:E; [|discriminate]. intros H. injection H as <-. apply andb_prop in E. split; [lia|].
    revert E. destruct c as [[] [] [] [] [] [] [] []]; vm_compute; intros (? & ?); congruence.
  - intros (Hd & H). assert (Hl : (Z.to_nat d < 10)%nat) by (apply (nth_error_Some (lit "0123456789") (Z.to_nat d)); congruence).
    assert (Hx : d = 0 \/ d = 1 \/ d = 2 \/ d = 3 \/ d = 4 \/ d = 5 \/ d = 6 \/ d = 7 \/ d = 8 \/ d = 9) by lia.
    repeat destruct Hx as [->|Hx]; try subst d; vm_compute in H; injection H as <-; reflexivity.
Qed.
Lemma hex_dig_spec c d : hex_dig c = Some d <-> is_hex c d.
Proof.
  unfold hex_dig, is_hex. split.
  - intros H. destruct c as [[] [] [] [] [] [] [] []]; vm_compute in H; try discriminate; injection H as <-; (split; [lia|]); vm_compute; auto.
  - intros (Hd & H). assert (Hl : (Z.to_nat d < 16)%nat).
    { destruct H as [H|H]; [apply (nth_error_Some (lit "0123456789abcdef") (Z.to_nat d))|apply (nth_error_Some (lit "0123456789ABCDEF") (Z.to_nat d))]; congruence. }
    assert (Hx : d = 0 \/ d = 1 \/ d = 2 \/ d = 3 \/ d = 4 \/ d = 5 \/ d = 6 \/ d = 7 \/ d = 8 \/ d = 9 \/ d = 10 \/ d = 11 \/ d = 12 \/ d = 13 \/ d = 14 \/ d = 15) by lia.
    repeat destruct Hx as [->|Hx]; try subst d; vm_compute in H; destruct H as [H|H]; injection H as <-; reflexivity.
Qed.

(** Digits and the function reading them agree; the base is at least two. *)
Section Scan.
  Context (dig : ascii -> option Z) (isd : ascii -> Z -> Prop) (b : Z).
  Hypothesis dig_spec : forall c d, dig c = Some d <-> isd c d.

  Lemma num_acc ds : forall a, fold_left (fun a d => a * b + d) ds a = a * b ^ Z.of_nat (length ds) + num b ds.
  Proof.
    unfold num. induction ds as [|d ds IH]; intros a; cbn [fold_left length]; [rewrite Z.pow_0_r; lia|].
    rewrite IH, (IH (0 * b + d)). rewrite Nat2Z.inj_succ, Z.pow_succ_r by lia. ring.
  Qed.
  Lemma num_cons d ds : num b (d :: ds) = d * b ^ Z.of_nat (length ds) + num b ds.
  Proof. unfold num at 1. cbn [fold_left]. rewrite num_acc. ring. Qed.
  (** what was scanned *)
  Inductive digs : str -> list Z -> Prop :=
  | digs_nil : digs [] []
  | digs_cons c d s ds : isd c d -> digs s ds -> digs (c :: s) (d :: ds).
  Lemma digs_length s ds : digs s ds -> length s = length ds.
  Proof. induction 1; cbn; congruence. Qed.
  Lemma digs_numeral s ds : digs s ds -> numeral isd b s (num b ds).
  Proof.
    induction 1 as [|c d s ds Hd H IH]; [constructor|]. rewrite num_cons, <- (digs_length _ _ H). constructor; assumption.
  Qed.
  Lemma numeral_digs s v : numeral isd b s v -> exists ds, digs s ds /\ v = num b ds.
  Proof.
    induction 1 as [|c d s v Hd H (ds & IH & ->)]; [exists []; split; [constructor|reflexivity]|]. exists (d :: ds). split; [constructor; assumption|].
    rewrite num_cons, <- (digs_length _ _ IH). reflexivity.
  Qed.
  Lemma digs_app s ds t dt : digs s ds -> digs t dt -> digs (s ++ t) (ds ++ dt).
  Proof. induction 1; intros Ht; cbn; [exact Ht|]. constructor; auto. Qed.
  Lemma digs_split s : forall t ds, digs (s ++ t) ds -> exists d1 d2, ds = d1 ++ d2 /\ digs s d1 /\ digs t d2.
  Proof.
    induction s as [|c s IH]; intros t ds H; [exists [], ds; split; [reflexivity|split; [constructor|exact H]]|].
    cbn in H. inversion H as [|c' d s' ds' Hd Hs]; subst. destruct (IH _ _ Hs) as (d1 & d2 & -> & H1 & H2).
    exists (d :: d1), d2. split; [reflexivity|]. split; [constructor; assumption|assumption].
  Qed.
  Definition stops (r : str) : Prop := match r with [] => True | c :: _ => dig c = None end.
  Lemma scan_inv s : forall ds r, scan dig s = (ds, r) -> exists t, s = t ++ r /\ digs t ds /\ stops r.
  Proof.
    induction s as [|c s IH]; intros ds r H; cbn in H; [injection H as <- <-; exists []; split; [reflexivity|split; [constructor|exact Logic.I]]|].
    destruct (dig c) as [d|] eqn:E.
    - destruct (scan dig s) as [ds' r'] eqn:E'. injection H as <- <-. destruct (IH _ _ eq_refl) as (t & -> & Ht & Hr).
      exists (c :: t). split; [reflexivity|]. split; [constructor; [apply dig_spec, E|exact Ht]|exact Hr].
    - injection H as <- <-. exists []. split; [reflexivity|]. split; [constructor|exact E].
  Qed.
  Lemma scan_app t ds r : digs t ds -> stops r -> scan dig (t ++ r) = (ds, r).
  Proof.
    intros H Hr. induction H as [|c d s ds Hd H IH]; cbn.
    - destruct r as [|c r]; [reflexivity|]. cbn in Hr |- *. rewrite Hr. reflexivity.
    - apply dig_spec in Hd. rewrite Hd, IH. reflexivity.
  Qed.

  Hypothesis no_point : dig "."%char = None.
  (** rest behind a mantissa: where it ends *)
  Lemma mantissa_inv s ds n r : mantissa dig s = Some (ds, n, r) -> exists t, s = t ++ r /\ pointed isd b t (num b ds) n.
  Proof.
    unfold mantissa. intros H. destruct (scan dig s) as [ip r1] eqn:E1. destruct (scan_inv _ _ _ E1) as (t1 & -> & H1 & S1).
    destruct r1 as [|c r1].
    - destruct (ip ++ []) as [|d0 dd] eqn:Ed; [discriminate|]. injection H as <- <- <-. rewrite app_nil_r in Ed. exists t1. split; [reflexivity|].
      rewrite <- Ed. apply po_none; [|apply digs_numeral, H1]. intros ->. inversion H1; subst; discriminate.
    - destruct (Ascii.eqb_spec c ".") as [->|Hc].
      + destruct (scan dig r1) as [fp r2] eqn:E2. destruct (scan_inv _ _ _ E2) as (t2 & -> & H2 & S2).
        destruct (ip ++ fp) as [|d0 dd] eqn:Ed; [discriminate|]. injection H as <- <- <-. exists (t1 ++ "."%char :: t2). split; [rewrite <- app_assoc; reflexivity|].
        rewrite <- (digs_length _ _ H2), <- Ed. pose proof (digs_app _ _ _ _ H1 H2) as H3. apply po_some; [|apply digs_numeral, H3].
        intros E. rewrite E in H3. inversion H3 as [E'|]; congruence.
      + destruct (ip ++ []) as [|d0 dd] eqn:Ed; [discriminate|]. injection H as <- <- <-. rewrite app_nil_r in Ed. exists t1. split; [reflexivity|].
        rewrite <- Ed. apply po_none; [|apply digs_numeral, H1]. intros ->. inversion H1; subst; discriminate.
  Qed.
  Definition ends (r : str) : Prop := match r with [] => True | c :: _ => dig c = None /\ c <> "."%char end.
  Lemma ends_stops r : ends r -> stops r.
  Proof. destruct r; [auto|]. intros (H & _). exact H. Qed.
  Lemma mantissa_app t v n r : pointed isd b t v n -> ends r -> exists ds, v = num b ds /\ mantissa dig (t ++ r) = Some (ds, n, r).
  Proof.
    intros H Hr. unfold mantissa. destruct H as [s v Hn H|s t v Hn H].
    - destruct (numeral_digs _ _ H) as (ds & Hd & ->). exists ds. split; [reflexivity|]. rewrite (scan_app _ _ _ Hd (ends_stops _ Hr)).
      destruct r as [|c r].
      + rewrite app_nil_r. destruct ds; [inversion Hd; congruence|reflexivity].
      + destruct Hr as (_ & Hc). destruct (Ascii.eqb_spec c "."); [congruence|]. rewrite app_nil_r. destruct ds; [inversion Hd; congruence|reflexivity].
    - destruct (numeral_digs _ _ H) as (ds & Hd & ->). exists ds. split; [reflexivity|]. destruct (digs_split _ _ _ Hd) as (d1 & d2 & -> & H1 & H2).
      rewrite <- app_assoc. cbn [app]. rewrite (scan_app s d1 ("."%char :: t ++ r) H1 no_point). rewrite Ascii.eqb_refl. rewrite (scan_app _ _ _ H2 (ends_stops _ Hr)).
      rewrite (digs_length _ _ H2). destruct (d1 ++ d2) eqn:E; [|reflexivity]. inversion Hd as [E'|]; congruence.
  Qed.
End Scan.

(** ** Signs and exponents *)
Lemma scan_sign_inv s neg r : scan_sign s = (neg, r) -> exists sg, s = sg ++ r /\ sign_text sg neg.
Proof.
  destruct s as [|c s]; cbn; [intros H; injection H as <- <-; exists []; split; [reflexivity|constructor]|].
  destruct (Ascii.eqb_spec c "-") as [->|_]; [intros H; injection H as <- <-; exists ["-"%char]; split; [reflexivity|constructor]|].
  destruct (Ascii.eqb_spec c "+") as [->|_]; intros H; injection H as <- <-; [exists ["+"%char]; split; [reflexivity|constructor]|exists []; split; [reflexivity|constructor]].
Qed.
Definition no_sign (s : str) : Prop := match s with [] => True | c :: _ => c <> "+"%char /\ c <> "-"%char end.
Lemma scan_sign_app sg neg r : sign_text sg neg -> no_sign r -> scan_sign (sg ++ r) = (neg, r).
Proof.
  intros H Hr. destruct H; [|reflexivity..]. cbn [app]. destruct r as [|c r]; [reflexivity|]. destruct Hr as (H1 & H2). cbn.
  destruct (Ascii.eqb_spec c "-"); [congruence|]. destruct (Ascii.eqb_spec c "+"); [congruence|]. reflexivity.
Qed.
Lemma digit_no_sign s v : numeral is_digit 10 s v -> no_sign s.
Proof.
  intros H. destruct H as [|c d s v H _]; [exact Logic.I|]. apply dec_dig_spec in H. cbn. split; intros ->; discriminate.
Qed.
Lemma exponent_inv lo up s e r : exponent lo up s = (e, r) -> exists t, s = t ++ r /\ exp_text [lo; up] t e.
Proof.
  assert (H0 : exists t, s = t ++ s /\ exp_text [lo; up] t 0) by (exists []; split; [reflexivity|constructor]).
  destruct s as [|c s]; cbn [exponent]; [intros H; injection H as <- <-; exact H0|].
  destruct (Ascii.eqb c lo || Ascii.eqb c up) eqn:Ec; [|intros H; injection H as <- <-; exact H0].
  destruct (scan_sign s) as [neg r1] eqn:Es. destruct (scan dec_dig r1) as [ds r2] eqn:E2. destruct ds as [|d ds]; [intros H; injection H as <- <-; exact H0|].
  intros H. injection H as <- <-. destruct (scan_sign_inv _ _ _ Es) as (sg & -> & Hsg). destruct (scan_inv _ _ dec_dig_spec _ _ _ E2) as (t & -> & Ht & _).
  exists (c :: sg ++ t). split; [cbn; rewrite <- app_assoc; reflexivity|]. apply ex_some; [|exact Hsg| |apply digs_numeral; exact Ht].
  - apply Bool.orb_prop in Ec. destruct Ec as [Ec|Ec]; apply Ascii.eqb_eq in Ec; subst; cbn; auto.
  - intros ->. inversion Ht.
Qed.
Lemma exponent_whole lo up t e : exp_text [lo; up] t e -> exponent lo up t = (e, []).
Proof.
  intros H. destruct H as [|c sg neg s v Hc Hsg Hn H]; [reflexivity|]. cbn [exponent].
  assert (Ec : (Ascii.eqb c lo || Ascii.eqb c up)%bool = true).
  { cbn in Hc. destruct Hc as [<-|[<-|[]]]; rewrite Ascii.eqb_refl; [reflexivity|apply Bool.orb_true_r]. }
  rewrite Ec. rewrite (scan_sign_app _ _ _ Hsg (digit_no_sign _ _ H)). destruct (numeral_digs _ _ _ _ H) as (ds & Hd & ->).
  rewrite <- (app_nil_r s), (scan_app _ _ dec_dig_spec s ds [] Hd Logic.I). destruct ds; [inversion Hd; congruence|reflexivity].
Qed.

(** ** Words *)
Definition low (x : ascii) : Prop := 97 <= code x <= 122.
Lemma lower_spec x c : low x -> lower c = x <-> (c = x \/ (code x = code c + 32 /\ 65 <= code c <= 90)).
Proof.
  intros Hx. unfold low in Hx. unfold lower. destruct ((65 <=? code c) && (code c <=? 90)) eqn:E.
  - assert (Hc : 65 <= code c <= 90) by (apply andb_prop in E; lia). assert (Hl : code (ascii_of_N (N_of_ascii c + 32)) = code c + 32).
    { unfold code in *. rewrite N_ascii_embedding by lia. lia. }
    split; [intros <-; right; lia|]. intros [->|(H & _)]; [lia|]. apply code_inj. lia.
  - split; [auto|]. intros [H|(H & Hc)]; [exact H|]. rewrite (proj2 (andb_true_iff _ _)) in E; [discriminate|lia].
Qed.
Lemma word_inv w : Forall low w -> forall s r, word w s = Some r -> exists t, s = t ++ r /\ any_case w t.
Proof.
  induction 1 as [|x w Hx Hw IH]; intros s r H; cbn in H; [injection H as <-; exists []; split; [reflexivity|constructor]|].
  destruct s as [|c s]; [discriminate|]. destruct (Ascii.eqb_spec (lower c) x) as [E|]; [|discriminate]. destruct (IH _ _ H) as (t & -> & Ht).
  exists (c :: t). split; [reflexivity|]. constructor; [apply lower_spec; assumption|exact Ht].
Qed.
Lemma word_app w t r : Forall low w -> any_case w t -> word w (t ++ r) = Some r.
Proof.
  intros Hw H. revert Hw. induction H as [|x c w t Hc H IH]; intros Hw; [reflexivity|]. inversion Hw as [|x' w' Hx Hw']; subst.
  cbn. rewrite (proj2 (lower_spec x c Hx) Hc), Ascii.eqb_refl. apply IH, Hw'.
Qed.
Lemma word_length w : forall s r, word w s = Some r -> (length w <= length s)%nat.
Proof.
  induction w as [|x w IH]; intros s r H; cbn in *; [lia|]. destruct s as [|c s]; [discriminate|]. destruct (Ascii.eqb (lower c) x); [|discriminate].
  apply IH in H. cbn. lia.
Qed.
Lemma any_case_length w s : any_case w s -> length w = length s.
Proof. induction 1; cbn; congruence. Qed.
Lemma word_head x w c s : lower c <> x -> word (x :: w) (c :: s) = None.
Proof. intros H. cbn. destruct (Ascii.eqb_spec (lower c) x); [congruence|reflexivity]. Qed.
Lemma low_words : Forall low (lit "infinity") /\ Forall low (lit "inf") /\ Forall low (lit "nan").
Proof. unfold low. repeat split; repeat (constructor; [vm_compute; split; discriminate|]); constructor. Qed.

Lemma n_char_spec c : n_char c = true <-> word_char c.
Proof.
  unfold n_char, word_char, lower. destruct (Ascii.eqb_spec c "_") as [->|Hc]; [split; intros _; [auto|reflexivity]|].
  rewrite Bool.orb_false_r. destruct ((65 <=? code c) && (code c <=? 90)) eqn:E.
  - assert (Hr : 65 <= code c <= 90) by (apply andb_prop in E; lia). assert (Hl : code (ascii_of_N (N_of_ascii c + 32)) = code c + 32).
    { unfold code in *. rewrite N_ascii_embedding by lia. lia. }
    rewrite Hl. split; [intros _; auto|intros _]. apply Bool.orb_true_intro. right. apply andb_true_intro. lia.
  - assert (Hr : ~ (65 <= code c <= 90)) by (intros Hr; rewrite (proj2 (andb_true_iff _ _)) in E; [discriminate|lia]).
    rewrite Bool.orb_true_iff, !Bool.andb_true_iff. split; [|intros [H|[H|[H|H]]]; [lia|lia|lia|congruence]]. intros [H|H]; lia.
Qed.
Lemma skip_inv s : exists t, s = t ++ skip_n_chars s /\ Forall word_char t.
Proof.
  induction s as [|c s (t & E & Ht)]; cbn; [exists []; auto|]. destruct (n_char c) eqn:Ec; [|exists []; auto].
  exists (c :: t). cbn. rewrite <- E. split; [reflexivity|]. constructor; [apply n_char_spec, Ec|exact Ht].
Qed.
Lemma skip_app t r : Forall word_char t -> skip_n_chars (t ++ ")"%char :: r) = ")"%char :: r.
Proof. induction 1 as [|c t Hc Ht IH]; [reflexivity|]. cbn. rewrite (proj2 (n_char_spec c) Hc). exact IH. Qed.

(** ** Whole texts *)
Lemma hexadecimal_inv s g r : hexadecimal s = Some (g, r) -> exists t, s = t ++ r /\ unsigned_real t g.
Proof.
  unfold hexadecimal. destruct s as [|z [|x s]]; try discriminate. destruct (Ascii.eqb_spec z "0") as [->|]; [|discriminate]. cbn [andb].
  destruct (Ascii.eqb_spec (lower x) "x") as [Hx|]; [|discriminate]. destruct (mantissa hex_dig s) as [[[ds n] r1]|] eqn:Em; [|discriminate].
  destruct (exponent "p" "P" r1) as [e r2] eqn:Ee. intros H. injection H as <- <-.
  destruct (mantissa_inv _ _ 16 hex_dig_spec _ _ _ _ Em) as (t & -> & Ht). destruct (exponent_inv _ _ _ _ _ Ee) as (u & -> & Hu).
  exists ("0"%char :: x :: t ++ u). split; [cbn; rewrite <- app_assoc; reflexivity|]. apply ur_hex; [|exact Ht|exact Hu].
  assert (Hl : low "x") by (vm_compute; split; discriminate). apply (lower_spec _ _ Hl) in Hx. destruct Hx as [->|(Hx & _)]; [left; reflexivity|right; left].
  apply code_inj. change (code "x") with 120 in Hx. change (code "X") with 88. lia.
Qed.
Lemma magnitude_inv s g : magnitude_of s = Some (g, []) -> unsigned_real s g.
Proof.
  destruct low_words as (Hw1 & Hw2 & Hw3). unfold magnitude_of. intros H.
  destruct (word (lit "infinity") s) as [r|] eqn:E1.
  { injection H as <- ->. destruct (word_inv _ Hw1 _ _ E1) as (t & -> & Ht). rewrite app_nil_r. apply ur_inf. right. exact Ht. }
  destruct (word (lit "inf") s) as [r|] eqn:E2.
  { injection H as <- ->. destruct (word_inv _ Hw2 _ _ E2) as (t & -> & Ht). rewrite app_nil_r. apply ur_inf. left. exact Ht. }
  destruct (word (lit "nan") s) as [r|] eqn:E3.
  { destruct (word_inv _ Hw3 _ _ E3) as (t & -> & Ht). injection H as <- H. destruct r as [|c r1]; [rewrite app_nil_r; apply ur_nan, Ht|].
    destruct (Ascii.eqb_spec c "(") as [->|]; [|discriminate]. destruct (skip_inv r1) as (u & E & Hu).
    destruct (skip_n_chars r1) as [|d r2]; [discriminate|]. destruct (Ascii.eqb_spec d ")") as [->|]; [|discriminate]. subst r2. rewrite E. apply ur_nan_seq; assumption. }
  destruct (hexadecimal s) as [[g' r]|] eqn:E4.
  { injection H as -> ->. destruct (hexadecimal_inv _ _ _ E4) as (t & -> & Ht). rewrite app_nil_r. exact Ht. }
  destruct (mantissa dec_dig s) as [[[ds n] r1]|] eqn:Em; [|discriminate]. destruct (exponent "e" "E" r1) as [e r2] eqn:Ee. injection H as <- ->.
  destruct (mantissa_inv _ _ 10 dec_dig_spec _ _ _ _ Em) as (t & -> & Ht). destruct (exponent_inv _ _ _ _ _ Ee) as (u & -> & Hu). rewrite app_nil_r.
  apply ur_dec; assumption.
Qed.

(** The characters of decimal texts. *)
Definition dec_char (c : ascii) : Prop := dec_dig c <> None \/ In c ["."; "e"; "E"; "+"; "-"]%char.
Lemma numeral_chars s v : numeral is_digit 10 s v -> Forall dec_char s.
Proof. induction 1 as [|c d s v Hd H IH]; constructor; [|exact IH]. left. apply dec_dig_spec in Hd. congruence. Qed.
Lemma pointed_chars s v n : pointed is_digit 10 s v n -> Forall dec_char s.
Proof.
  intros [? ? _ H|? ? ? _ H]; apply numeral_chars in H; [exact H|]. apply Forall_app in H. destruct H as (H1 & H2).
  apply Forall_app. split; [exact H1|]. constructor; [right; left; reflexivity|exact H2].
Qed.
Lemma exp_chars t e : exp_text ["e"; "E"]%char t e -> Forall dec_char t.
Proof.
  intros [|c sg neg s v Hc Hsg _ H]; [constructor|]. constructor; [right; cbn in Hc |- *; tauto|]. apply Forall_app. split; [|exact (numeral_chars _ _ H)].
  destruct Hsg; constructor; [right; cbn; tauto|constructor|right; cbn; tauto|constructor].
Qed.
Lemma dec_char_not c : dec_char c -> lower c <> "x"%char /\ lower c <> "i"%char /\ lower c <> "n"%char.
Proof.
  intros [H|H].
  - unfold dec_dig in H. destruct ((48 <=? code c) && (code c <=? 57)) eqn:E; [|congruence]. unfold lower.
    destruct ((65 <=? code c) && (code c <=? 90)) eqn:E'; [apply andb_prop in E, E'; lia|]. repeat split; intros ->; discriminate.
  - cbn in H. repeat destruct H as [<-|H]; [..|destruct H]; vm_compute; repeat split; discriminate.
Qed.
Lemma dec_head s v n : pointed is_digit 10 s v n -> exists c s', s = c :: s'.
Proof. intros [s0 v0 Hn _|s0 t v0 _ _]; [destruct s0; [congruence|eauto]|destruct s0; cbn; eauto]. Qed.
Lemma hexadecimal_dec s : Forall dec_char s -> hexadecimal s = None.
Proof.
  intros H. destruct H as [|z s Hz H]; [reflexivity|]. destruct H as [|x s Hx H]; [reflexivity|]. cbn [hexadecimal].
  destruct (dec_char_not _ Hx) as (Hl & _). destruct (Ascii.eqb_spec (lower x) "x"); [congruence|]. rewrite Bool.andb_false_r. reflexivity.
Qed.
Lemma exp_ends dig lo up t e : dig lo = None -> dig up = None -> lo <> "."%char -> up <> "."%char -> exp_text [lo; up] t e -> ends dig t.
Proof. intros H1 H2 H3 H4 [|c sg neg s v Hc _ _ _]; [exact Logic.I|]. cbn in Hc |- *. destruct Hc as [<-|[<-|[]]]; auto. Qed.

Lemma magnitude_whole s g : unsigned_real s g -> magnitude_of s = Some (g, []).
Proof.
  destruct low_words as (Hw1 & Hw2 & Hw3). intros H. unfold magnitude_of. destruct H as [s t v n e Hs Ht|x s t v n e Hx Hs Ht|s Hs|s Hs|s t Hs Ht].
  - assert (Hc : Forall dec_char (s ++ t)) by (apply Forall_app; split; [exact (pointed_chars _ _ _ Hs)|exact (exp_chars _ _ Ht)]).
    destruct (dec_head _ _ _ Hs) as (c & s' & Es). assert (Hh : dec_char c) by (subst s; inversion Hc; assumption).
    destruct (dec_char_not _ Hh) as (_ & Hi & Hn). rewrite (hexadecimal_dec _ Hc).
    assert (W : word (lit "infinity") (s ++ t) = None /\ word (lit "inf") (s ++ t) = None /\ word (lit "nan") (s ++ t) = None).
    { subst s. cbn [app]. split; [|split]; apply word_head; assumption. }
    destruct W as (-> & -> & ->). destruct (mantissa_app _ _ 10 dec_dig_spec eq_refl s v n t Hs) as (ds & -> & ->).
    { apply (exp_ends dec_dig "e" "E" t e); try reflexivity; try discriminate. exact Ht. }
    rewrite (exponent_whole _ _ _ _ Ht). reflexivity.
  - change (word (lit "infinity") ("0"%char :: x :: s ++ t)) with (@None str). change (word (lit "inf") ("0"%char :: x :: s ++ t)) with (@None str).
    change (word (lit "nan") ("0"%char :: x :: s ++ t)) with (@None str). cbn [hexadecimal].
    assert (Ex : Ascii.eqb (lower x) "x" = true) by (cbn in Hx; destruct Hx as [<-|[<-|[]]]; reflexivity). rewrite Ex. cbn [Ascii.eqb andb].
    destruct (mantissa_app _ _ 16 hex_dig_spec eq_refl s v n t Hs) as (ds & -> & ->).
    { apply (exp_ends hex_dig "p" "P" t e); try reflexivity; try discriminate. exact Ht. }
    rewrite (exponent_whole _ _ _ _ Ht). reflexivity.
  - destruct Hs as [Hs|Hs].
    + destruct (word (lit "infinity") s) as [r|] eqn:E; [exfalso; apply word_length in E; apply any_case_length in Hs; cbn in *; lia|].
      rewrite <- (app_nil_r s), (word_app _ _ _ Hw2 Hs). reflexivity.
    + rewrite <- (app_nil_r s), (word_app _ _ _ Hw1 Hs). reflexivity.
  - assert (Hn := word_app _ _ [] Hw3 Hs). rewrite app_nil_r in Hn. rewrite Hn.
    inversion Hs as [|x c w s' Hc Hs']; subst. assert (Hl : lower c = "n"%char) by (apply lower_spec; [inversion Hw3; assumption|exact Hc]).
    assert (W : word (lit "infinity") (c :: s') = None /\ word (lit "inf") (c :: s') = None) by (split; apply word_head; rewrite Hl; discriminate).
    destruct W as (-> & ->). reflexivity.
  - rewrite (word_app _ _ ("("%char :: t ++ [")"%char]) Hw3 Hs).
    inversion Hs as [|x c w s' Hc Hs']; subst. assert (Hl : lower c = "n"%char) by (apply lower_spec; [inversion Hw3; assumption|exact Hc]). cbn [app].
    assert (W : forall u, word (lit "infinity") (c :: u) = None /\ word (lit "inf") (c :: u) = None) by (intros u; split; apply word_head; rewrite Hl; discriminate).
    destruct (W (s' ++ "("%char :: t ++ [")"%char])) as (-> & ->). rewrite Ascii.eqb_refl, skip_app by exact Ht. reflexivity.
Qed.
