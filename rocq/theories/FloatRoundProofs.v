(** * Proofs about the values of floating point parameters *)

From Coq Require Import QArith Qabs Qpower Lqa.
From Verif Require Import Base FromStringModel FromStringSpec FromStringProofs FloatModel FloatSpec FloatProofs.
Open Scope Z_scope.
Open Scope list_scope.

(** ** Rounding *)
Definition rep (p n : Z) : Prop := exists m k, 0 <= m < 2 ^ p /\ 0 <= k /\ n = m * 2 ^ k.
Definition rep_even (p n : Z) : Prop := exists m k, 0 <= m < 2 ^ p /\ Z.Even m /\ 0 <= k /\ n = m * 2 ^ k.

(** Rounding to multiples of a power of two. *)
Definition rnd (N D : Z) : Z :=
  let m := N / D in let r := N mod D in
  if 2 * r <? D then m else if D <? 2 * r then m + 1 else if Z.even m then m else m + 1.
Lemma rnd_spec N D : 0 < D -> let n := rnd N D in
  (n = N / D \/ n = N / D + 1) /\
  forall n', n' <> n -> Z.abs (N - n * D) < Z.abs (N - n' * D) \/ (Z.abs (N - n * D) = Z.abs (N - n' * D) /\ Z.Even n).
Proof.
  intros HD n. unfold n, rnd. pose proof (Z.div_mod N D ltac:(lia)) as HN. pose proof (Z.mod_pos_bound N D HD) as Hr.
  set (m := N / D) in *. set (r := N mod D) in *.
  destruct (Z.ltb_spec (2 * r) D) as [H1|H1].
  - split; [auto|]. intros n' Hn'. left. replace (N - m * D) with r by lia. assert (Hc : n' <= m - 1 \/ m + 1 <= n') by lia. destruct Hc; nia.
  - destruct (Z.ltb_spec D (2 * r)) as [H2|H2].
    + split; [auto|]. intros n' Hn'. left. replace (N - (m + 1) * D) with (r - D) by lia. assert (Hc : n' <= m \/ m + 2 <= n') by lia. destruct Hc; nia.
    + assert (Hh : 2 * r = D) by lia. destruct (Z.even m) eqn:Em.
      * split; [auto|]. intros n' Hn'. replace (N - m * D) with r by lia. apply Z.even_spec in Em.
        assert (Hc : n' <= m - 1 \/ n' = m + 1 \/ m + 2 <= n') by lia. destruct Hc as [Hc|[->|Hc]]; [left; nia|right; split; [nia|exact Em]|left; nia].
      * split; [auto|]. intros n' Hn'. replace (N - (m + 1) * D) with (r - D) by lia.
        assert (Hev : Z.Even (m + 1)) by (apply Z.even_spec; rewrite Z.even_add, Em; reflexivity).
        assert (Hc : n' <= m - 1 \/ n' = m \/ m + 2 <= n') by lia. destruct Hc as [Hc|[->|Hc]]; [left; nia|right; split; [nia|exact Hev]|left; nia].
Qed.
Lemma round_even_rnd p N D : round_even p N D =
  let k := if N / D <? 2 ^ p then 0 else Z.log2 (N / D) + 1 - p in rnd N (D * 2 ^ k) * 2 ^ k.
Proof. reflexivity. Qed.

Lemma round_nearest p N D : 2 <= p -> 0 <= N -> 0 < D -> let n := round_even p N D in
  rep p n /\ forall n', rep p n' -> n' <> n -> Z.abs (N - n * D) < Z.abs (N - n' * D) \/ (Z.abs (N - n * D) = Z.abs (N - n' * D) /\ rep_even p n).
Proof.
  intros Hp HN HD n. unfold n. rewrite round_even_rnd. set (q := N / D). assert (Hq : 0 <= q) by (apply Z.div_pos; lia).
  assert (Hpp : 2 ^ p = 2 * 2 ^ (p - 1)) by (rewrite <- Z.pow_succ_r by lia; f_equal; lia).
  assert (Hp1 : 2 ^ (p - 1) = 2 * 2 ^ (p - 2)) by (rewrite <- Z.pow_succ_r by lia; f_equal; lia).
  assert (Hp2 : 0 < 2 ^ (p - 2)) by (apply Z.pow_pos_nonneg; lia).
  destruct (Z.ltb_spec q (2 ^ p)) as [Hs|Hs]; cbv zeta.
  - rewrite !Z.pow_0_r, !Z.mul_1_r. destruct (rnd_spec N D HD) as (Hm & Hn). set (m := rnd N D) in *. fold q in Hm.
    assert (Hle : 0 <= m <= 2 ^ p) by lia.
    assert (Hrep : rep p m).
    { destruct (Z.eq_dec m (2 ^ p)) as [->|]; [exists 1, p; split; [lia|split; [lia|ring]]|exists m, 0; split; [lia|split; [lia|rewrite Z.pow_0_r; ring]]]. }
    split; [exact Hrep|]. intros n' _ Hn'. destruct (Hn n' Hn') as [H|(H & He)]; [left; exact H|right; split; [exact H|]].
    destruct (Z.eq_dec m (2 ^ p)) as [->|].
    + exists (2 ^ (p - 1)), 1. split; [lia|]. split; [exists (2 ^ (p - 2)); lia|]. split; [lia|]. rewrite Z.pow_1_r. lia.
    + exists m, 0. split; [lia|]. split; [exact He|]. split; [lia|]. rewrite Z.pow_0_r. ring.
  - set (k := Z.log2 q + 1 - p). assert (Hq0 : 0 < q) by (pose proof (Z.pow_pos_nonneg 2 p); lia).
    pose proof (Z.log2_spec q Hq0) as Hl. assert (Hlp : p <= Z.log2 q).
    { destruct (Z_lt_le_dec (Z.log2 q) p) as [Hlt|]; [|assumption]. assert (2 ^ Z.succ (Z.log2 q) <= 2 ^ p) by (apply Z.pow_le_mono_r; lia). lia. }
    assert (Hk : 1 <= k) by (unfold k; lia). set (E := 2 ^ k). assert (HE : 0 < E) by (apply Z.pow_pos_nonneg; lia).
    assert (Hlow : 2 ^ (p - 1) * E = 2 ^ Z.log2 q) by (unfold E; rewrite <- Z.pow_add_r by lia; f_equal; unfold k; lia).
    assert (Hdd : N / (D * E) = q / E) by (unfold q; rewrite Z.div_div by lia; reflexivity).
    assert (Hup : 2 ^ p * E = 2 ^ Z.succ (Z.log2 q)) by (unfold E; rewrite <- Z.pow_add_r by lia; f_equal; unfold k; lia).
    assert (Hm1 : 2 ^ (p - 1) <= q / E) by (apply Z.div_le_lower_bound; lia).
    assert (Hm2 : q / E < 2 ^ p) by (apply Z.div_lt_upper_bound; lia).
    assert (HDE : 0 < D * E) by nia. destruct (rnd_spec N (D * E) HDE) as (Hm & Hn). rewrite Hdd in Hm. set (m := rnd N (D * E)) in *.
    assert (Hle : 2 ^ (p - 1) <= m <= 2 ^ p) by lia.
    assert (Hrep : rep p (m * E)).
    { destruct (Z.eq_dec m (2 ^ p)) as [->|]; [exists 1, (p + k); split; [lia|split; [lia|unfold E; rewrite <- Z.pow_add_r by lia; ring]]|exists m, k; split; [lia|split; [lia|reflexivity]]]. }
    assert (Hev : Z.Even m -> rep_even p (m * E)).
    { intros He. destruct (Z.eq_dec m (2 ^ p)) as [->|].
      - exists (2 ^ (p - 1)), (1 + k). split; [lia|]. split; [exists (2 ^ (p - 2)); lia|]. split; [lia|]. rewrite Z.pow_add_r by lia. fold E. rewrite Z.pow_1_r, Hpp. ring.
      - exists m, k. split; [lia|]. split; [exact He|]. split; [lia|reflexivity]. }
    split; [exact Hrep|]. intros n' (m' & k' & Hm' & Hk' & ->) Hne.
    destruct (Z_lt_le_dec k' k) as [Hlt|Hge].
    + (* below all these multiples *)
      left. assert (Hn' : m' * 2 ^ k' < 2 ^ (p - 1) * E).
      { assert (H1 : 2 ^ k' <= 2 ^ (k - 1)) by (apply Z.pow_le_mono_r; lia). assert (H2 : E = 2 * 2 ^ (k - 1)) by (unfold E; rewrite <- Z.pow_succ_r by lia; f_equal; lia).
        assert (H3 : 0 < 2 ^ k') by (apply Z.pow_pos_nonneg; lia). rewrite H2. apply Z.lt_le_trans with (2 ^ p * 2 ^ k'); [nia|]. rewrite Hpp. nia. }
      pose proof (Z.div_mod N (D * E) ltac:(lia)) as HNd. pose proof (Z.mod_pos_bound N (D * E) HDE) as Hr. rewrite Hdd in HNd.
      assert (Hfl : N - m' * 2 ^ k' * D > N - q / E * (D * E)) by nia.
      assert (Hnr : Z.abs (N - m * E * D) <= Z.abs (N - q / E * (D * E))).
      { replace (m * E * D) with (m * (D * E)) by ring. destruct (Z.eq_dec (q / E) m) as [->|Hd]; [lia|]. destruct (Hn (q / E) Hd) as [H|(H & _)]; lia. }
      lia.
    + (* a multiple *)
      set (j := m' * 2 ^ (k' - k)). assert (Hj : m' * 2 ^ k' = j * E).
      { unfold j, E. rewrite <- Z.mul_assoc, <- Z.pow_add_r by lia. do 2 f_equal. lia. }
      rewrite Hj in Hne |- *. assert (Hjm : j <> m) by (intros ->; apply Hne; reflexivity).
      replace (j * E * D) with (j * (D * E)) by ring. replace (m * E * D) with (m * (D * E)) by ring.
      destruct (Hn j Hjm) as [H|(H & He)]; [left; exact H|right; split; [exact H|exact (Hev He)]].
Qed.

(** There is only one such number. *)
Definition nearestZ (p N D n : Z) : Prop :=
  rep p n /\ forall n', rep p n' -> n' <> n -> Z.abs (N - n * D) < Z.abs (N - n' * D) \/ (Z.abs (N - n * D) = Z.abs (N - n' * D) /\ rep_even p n).
Lemma rep_between p n1 n2 : rep_even p n1 -> rep_even p n2 -> n1 < n2 -> exists n, rep p n /\ n1 < n < n2.
Proof.
  intros (m1 & k1 & Hm1 & (j1 & Hj1) & Hk1 & ->) (m2 & k2 & Hm2 & (j2 & Hj2) & Hk2 & ->) Hlt.
  assert (H1 : 0 < 2 ^ k1) by (apply Z.pow_pos_nonneg; lia). assert (H2 : 0 < 2 ^ k2) by (apply Z.pow_pos_nonneg; lia).
  assert (Hp : exists h, 2 ^ p = 2 * h \/ 2 ^ p = 1 \/ 2 ^ p = 0).
  { destruct (Z_lt_le_dec p 1) as [Hp|Hp]; [|exists (2 ^ (p - 1)); left; rewrite <- Z.pow_succ_r by lia; f_equal; lia].
    exists 0. destruct (Z.eq_dec p 0) as [->|]; [right; left; reflexivity|right; right; apply Z.pow_neg_r; lia]. }
  destruct (Z_le_gt_dec k1 k2) as [Hle|Hgt].
  - exists ((m1 + 1) * 2 ^ k1). split; [exists (m1 + 1), k1; split; [destruct Hp as (h & [Hp|[Hp|Hp]]); nia|split; [lia|reflexivity]]|]. split; [nia|].
    assert (Hd : m2 * 2 ^ k2 = m2 * 2 ^ (k2 - k1) * 2 ^ k1) by (rewrite <- Z.mul_assoc, <- Z.pow_add_r by lia; do 2 f_equal; lia).
    rewrite Hd in Hlt |- *. subst m1 m2. set (w := 2 ^ (k2 - k1)) in *. apply Z.mul_lt_mono_pos_r; [exact H1|]. apply Z.mul_lt_mono_pos_r in Hlt; [|exact H1]. nia.
  - exists ((m2 - 1) * 2 ^ k2). assert (Hm : 0 < m2) by nia. split; [exists (m2 - 1), k2; split; [lia|split; [lia|reflexivity]]|]. split; [|nia].
    assert (Hd : m1 * 2 ^ k1 = m1 * 2 ^ (k1 - k2) * 2 ^ k2) by (rewrite <- Z.mul_assoc, <- Z.pow_add_r by lia; do 2 f_equal; lia).
    rewrite Hd in Hlt |- *. subst m1 m2. set (w := 2 ^ (k1 - k2)) in *. apply Z.mul_lt_mono_pos_r; [exact H2|]. apply Z.mul_lt_mono_pos_r in Hlt; [|exact H2]. nia.
Qed.
Lemma middle N D a b c : 0 < D -> a < b < c -> Z.abs (N - a * D) = Z.abs (N - c * D) -> Z.abs (N - b * D) < Z.abs (N - a * D).
Proof. intros HD H E. assert (a * D < b * D < c * D) by nia. lia. Qed.
Lemma nearestZ_unique p N D n1 n2 : 0 < D -> nearestZ p N D n1 -> nearestZ p N D n2 -> n1 = n2.
Proof.
  assert (W : forall n1 n2, 0 < D -> nearestZ p N D n1 -> nearestZ p N D n2 -> n1 < n2 -> False).
  { clear n1 n2. intros n1 n2 HD (R1 & H1) (R2 & H2) Hlt. destruct (H1 n2 R2 ltac:(lia)) as [Ha|(Ha & Ea)]; destruct (H2 n1 R1 ltac:(lia)) as [Hb|(Hb & Eb)]; try lia.
    destruct (rep_between _ _ _ Ea Eb Hlt) as (n & Rn & Hn). pose proof (middle N D n1 n n2 HD Hn Ha) as Hm. destruct (H1 n Rn ltac:(lia)) as [Hc|(Hc & _)]; lia. }
  intros HD H1 H2. destruct (Z.lt_trichotomy n1 n2) as [H|[H|H]]; [destruct (W n1 n2 HD H1 H2 H)|exact H|destruct (W n2 n1 HD H2 H1 H)].
Qed.

(** ** Exact values *)
Local Open Scope Q_scope.
Lemma inject_pos z : (0 < z)%Z -> 0 < inject_Z z.
Proof. intros H. change 0 with (inject_Z 0). rewrite <- Zlt_Qlt. exact H. Qed.
Lemma pow_pos b e : (0 < b)%Z -> 0 < pow b e.
Proof. intros H. apply Qpower_0_lt, inject_pos, H. Qed.
Lemma base_nz b : (0 < b)%Z -> ~ inject_Z b == 0.
Proof. intros H E. pose proof (inject_pos b H). rewrite E in H0. exact (Qlt_irrefl _ H0). Qed.
Lemma pow_add b e1 e2 : (0 < b)%Z -> pow b (e1 + e2) == pow b e1 * pow b e2.
Proof. intros H. apply Qpower_plus, base_nz, H. Qed.
Lemma pow_nonneg b e : (0 <= e)%Z -> pow b e == inject_Z (b ^ e).
Proof. intros H. symmetry. apply Zpower_Qpower, H. Qed.
Lemma pow_opp b e : (0 < b)%Z -> pow b e * pow b (- e) == 1.
Proof. intros H. rewrite <- pow_add by exact H. rewrite Z.add_opp_diag_r. reflexivity. Qed.

(** In units of the smallest positive number. *)
Section Units.
  Context (f : ffmt).
  Hypothesis fmin : (f_min f <= -2)%Z.
  Hypothesis fprec : (2 <= f_prec f)%Z.
  Hypothesis fmax : (f_min f <= f_max f)%Z.
  Let u := pow 2 (f_min f).
  Lemma u_pos : 0 < u.
  Proof. apply pow_pos. reflexivity. Qed.

  Lemma units_exact m b e N D : (0 < b)%Z -> in_units f m b e = (N, D) -> (0 < D)%Z /\ inject_Z m * pow b e * inject_Z D == inject_Z N * u.
  Proof.
    intros Hb H. unfold in_units in H. injection H as <- <-. split; [apply Z.pow_pos_nonneg; lia|]. rewrite !inject_Z_mult.
    rewrite <- (pow_nonneg b (Z.max (- e) 0)) by lia. rewrite <- (pow_nonneg b (Z.max e 0)) by lia. rewrite <- (pow_nonneg 2 (- f_min f)) by lia.
    assert (E : pow b e * pow b (Z.max (- e) 0) == pow b (Z.max e 0)) by (rewrite <- pow_add by exact Hb; replace (e + Z.max (- e) 0)%Z with (Z.max e 0) by lia; reflexivity).
    rewrite <- Qmult_assoc, E. unfold u. rewrite <- (Qmult_assoc _ (pow 2 (- f_min f))), (Qmult_comm (pow 2 (- f_min f))), pow_opp by reflexivity. rewrite Qmult_1_r. reflexivity.
  Qed.
  Lemma units_nonneg m b e N D : (0 <= m)%Z -> (0 < b)%Z -> in_units f m b e = (N, D) -> (0 <= N)%Z.
  Proof. intros Hm Hb H. unfold in_units in H. injection H as <- <-. assert (0 < b ^ Z.max e 0)%Z by (apply Z.pow_pos_nonneg; lia). assert (0 < 2 ^ (- f_min f))%Z by (apply Z.pow_pos_nonneg; lia). nia. Qed.

  (** numbers of the format, in units *)
  Lemma rep_units q : representable f q <-> exists n, rep (f_prec f) n /\ q == inject_Z n * u.
  Proof.
    split.
    - intros (m & k & Hm & Hk & E). exists (m * 2 ^ (k - f_min f))%Z. split; [exists m, (k - f_min f)%Z; split; [exact Hm|split; [lia|reflexivity]]|].
      rewrite E, inject_Z_mult, <- pow_nonneg by lia. rewrite <- Qmult_assoc. unfold u. rewrite <- pow_add by reflexivity. replace (k - f_min f + f_min f)%Z with k by lia. reflexivity.
    - intros (n & (m & k & Hm & Hk & ->) & E). exists m, (k + f_min f)%Z. split; [exact Hm|]. split; [lia|].
      rewrite E, inject_Z_mult, <- pow_nonneg by lia. rewrite <- Qmult_assoc. unfold u. rewrite <- pow_add by reflexivity. reflexivity.
  Qed.
  Lemma units_inj n1 n2 : inject_Z n1 * u == inject_Z n2 * u -> n1 = n2.
  Proof. intros H. apply Qmult_inj_r in H; [|intros E; pose proof u_pos as U; rewrite E in U; exact (Qlt_irrefl _ U)]. apply inject_Z_injective, H. Qed.
  Lemma even_units n : even_one f (inject_Z n * u) <-> rep_even (f_prec f) n.
  Proof.
    split.
    - intros (m & k & Hm & He & Hk & E). exists m, (k - f_min f)%Z. split; [exact Hm|]. split; [exact He|]. split; [lia|]. apply units_inj.
      rewrite E, inject_Z_mult, <- pow_nonneg by lia. rewrite <- Qmult_assoc. unfold u. rewrite <- pow_add by reflexivity. replace (k - f_min f + f_min f)%Z with k by lia. reflexivity.
    - intros (m & k & Hm & He & Hk & ->). exists m, (k + f_min f)%Z. split; [exact Hm|]. split; [exact He|]. split; [lia|].
      rewrite inject_Z_mult, <- pow_nonneg by lia. rewrite <- Qmult_assoc. unfold u. rewrite <- pow_add by reflexivity. reflexivity.
  Qed.

  Context (x : Q) (N D : Z).
  Hypothesis HD : (0 < D)%Z.
  Hypothesis Hx : x * inject_Z D == inject_Z N * u.
  Let w := u / inject_Z D.
  Lemma D_nz : ~ inject_Z D == 0.
  Proof. apply base_nz, HD. Qed.
  Lemma w_pos : 0 < w.
  Proof. apply Qlt_shift_div_l; [apply inject_pos, HD|]. rewrite Qmult_0_l. exact u_pos. Qed.
  Lemma x_w : x == inject_Z N * w.
  Proof. unfold w, Qdiv. rewrite Qmult_assoc, <- Hx, <- Qmult_assoc, Qmult_inv_r by exact D_nz. rewrite Qmult_1_r. reflexivity. Qed.
  Lemma n_w n : inject_Z n * u == inject_Z (n * D) * w.
  Proof. unfold w, Qdiv. rewrite inject_Z_mult, <- Qmult_assoc, (Qmult_comm (inject_Z D)), <- (Qmult_assoc u), (Qmult_comm (/ _)), Qmult_inv_r by exact D_nz. rewrite Qmult_1_r. reflexivity. Qed.
  Lemma dist_w n : Qabs (x - inject_Z n * u) == inject_Z (Z.abs (N - n * D)) * w.
  Proof.
    rewrite x_w, n_w. setoid_replace (inject_Z N * w - inject_Z (n * D) * w) with (inject_Z (N - n * D) * w).
    - rewrite Qabs_Qmult, (Qabs_pos w) by (apply Qlt_le_weak, w_pos). apply Qmult_comp; [|reflexivity]. unfold inject_Z, Qabs. reflexivity.
    - unfold Z.sub. rewrite inject_Z_plus, inject_Z_opp. ring.
  Qed.
  Lemma lt_w a b : inject_Z a * w < inject_Z b * w <-> (a < b)%Z.
  Proof. rewrite (Qmult_lt_r _ _ _ w_pos). rewrite <- Zlt_Qlt. reflexivity. Qed.
  Lemma eq_w a b : inject_Z a * w == inject_Z b * w <-> a = b.
  Proof.
    split; [|intros ->; reflexivity]. intros H. apply Qmult_inj_r in H; [|intros E; pose proof w_pos as U; rewrite E in U; exact (Qlt_irrefl _ U)].
    apply inject_Z_injective, H.
  Qed.

  Lemma nearest_units n : nearest f x (finite_value f n) <-> nearestZ (f_prec f) N D n.
  Proof.
    unfold nearest, nearestZ, finite_value. fold u. rewrite rep_units. split.
    - intros ((n0 & R0 & E0) & H). apply units_inj in E0. subst n0. split; [exact R0|]. intros n' R' Hn.
      destruct (H (inject_Z n' * u)) as [H1|(H1 & He)].
      + apply rep_units. exists n'. split; [exact R'|reflexivity].
      + intros E. apply Hn, units_inj, E.
      + left. rewrite !dist_w in H1. exact (proj1 (lt_w _ _) H1).
      + right. rewrite !dist_w in H1. apply (proj1 (eq_w _ _)) in H1. split; [exact H1|]. apply even_units, He.
    - intros (R & H). split; [exists n; split; [exact R|reflexivity]|]. intros q' Rq Hq. apply rep_units in Rq. destruct Rq as (n' & R' & E').
      assert (Hn : n' <> n) by (intros ->; apply Hq; exact E'). destruct (H n' R' Hn) as [H1|(H1 & He)].
      + left. rewrite E', !dist_w. exact (proj2 (lt_w _ _) H1).
      + right. rewrite E', !dist_w. split; [exact (proj2 (eq_w _ _) H1)|apply even_units, He].
  Qed.
  Lemma overflow_units n : finite_value f n < pow 2 (f_max f) <-> (n < 2 ^ (f_max f - f_min f))%Z.
  Proof.
    unfold finite_value. fold u. assert (E : pow 2 (f_max f) == inject_Z (2 ^ (f_max f - f_min f)) * u).
    { rewrite <- pow_nonneg by lia. unfold u. rewrite <- pow_add by reflexivity. replace (f_max f - f_min f + f_min f)%Z with (f_max f) by lia. reflexivity. }
    rewrite E, (Qmult_lt_r _ _ _ u_pos). rewrite <- Zlt_Qlt. reflexivity.
  Qed.
  Lemma exact_units n : finite_value f n == x <-> (n * D = N)%Z.
  Proof. unfold finite_value. fold u. rewrite x_w, n_w. apply eq_w. Qed.
  Lemma tiny_units : tiny f x <-> (4 * N < (2 ^ (f_prec f + 1) - 1) * D)%Z.
  Proof.
    unfold tiny. set (v := pow 2 (f_min f - 2)).
    assert (Ev : u == inject_Z 4 * v) by (change (inject_Z 4) with (inject_Z (2 ^ 2)); rewrite <- pow_nonneg by lia; unfold u, v; rewrite <- pow_add by reflexivity; replace (2 + (f_min f - 2))%Z with (f_min f) by lia; reflexivity).
    assert (E1 : pow 2 (f_min f + f_prec f - 1) == inject_Z (2 ^ (f_prec f + 1)) * v).
    { rewrite <- pow_nonneg by lia. unfold v. rewrite <- pow_add by reflexivity. replace (f_prec f + 1 + (f_min f - 2))%Z with (f_min f + f_prec f - 1)%Z by lia. reflexivity. }
    assert (E2 : inject_Z (2 ^ (f_prec f + 1)) * v - v == inject_Z (2 ^ (f_prec f + 1) - 1) * v).
    { unfold Z.sub. rewrite inject_Z_plus. change (inject_Z (Z.opp 1)) with (- (1))%Q. ring. }
    rewrite E1, E2. assert (HDq : 0 < inject_Z D) by (apply inject_pos, HD). assert (Hv : 0 < v) by (apply pow_pos; reflexivity).
    rewrite <- (Qmult_lt_r _ _ _ HDq), Hx, Ev. rewrite Qmult_assoc, <- inject_Z_mult, <- Qmult_assoc, (Qmult_comm v), Qmult_assoc, <- inject_Z_mult.
    rewrite (Qmult_lt_r _ _ _ Hv), <- Zlt_Qlt, (Z.mul_comm N). reflexivity.
  Qed.
End Units.
Local Close Scope Q_scope.

(** ** The conversion of what was read *)
Lemma format_ok f : is_format f -> f_min f <= -2 /\ 2 <= f_prec f /\ f_min f <= f_max f.
Proof. intros [->|[->| ->]]; vm_compute; repeat split; discriminate. Qed.
Lemma to_format_spec f neg m b e r : is_format f -> 0 <= m -> 0 < b ->
  to_format f neg m b e = Some r <->
  exists n, r = RNum neg n /\ nearest f (inject_Z m * pow b e) (finite_value f n) /\ (finite_value f n < pow 2 (f_max f))%Q /\
    (tiny f (inject_Z m * pow b e) -> (finite_value f n == inject_Z m * pow b e)%Q).
Proof.
  intros Hf Hm Hb. destruct (format_ok f Hf) as (H1 & H2 & H3). unfold to_format. destruct (in_units f m b e) as [N D] eqn:E.
  destruct (units_exact f H1 m b e N D Hb E) as (HD & Hx). pose proof (units_nonneg f H1 H2 m b e N D Hm Hb E) as HN. set (x := (inject_Z m * pow b e)%Q) in *.
  pose proof (round_nearest (f_prec f) N D H2 HN HD) as Hr. cbv zeta in Hr. set (n := round_even (f_prec f) N D) in *.
  assert (Hn : nearestZ (f_prec f) N D n) by exact Hr.
  pose proof (fun k => nearest_units f x N D HD Hx k) as Wn. pose proof (overflow_units f H3) as Wo. pose proof (exact_units f x N D HD Hx) as We. pose proof (tiny_units f H2 x N D HD Hx) as Wt.
  destruct (Z.leb_spec (2 ^ (f_max f - f_min f)) n) as [Ho|Ho].
  - split; [discriminate|]. intros (n' & _ & Hn' & Hlt & _). apply Wn in Hn'. rewrite (nearestZ_unique _ _ _ _ _ HD Hn' Hn) in Hlt. apply Wo in Hlt. lia.
  - destruct ((4 * N <? (2 ^ (f_prec f + 1) - 1) * D) && negb (n * D =? N)) eqn:Et.
    + apply andb_prop in Et. destruct Et as (Et & Ee). split; [discriminate|]. intros (n' & _ & Hn' & _ & Ht). apply Wn in Hn'.
      rewrite (nearestZ_unique _ _ _ _ _ HD Hn' Hn) in Ht. rewrite We, Wt in Ht. apply Z.ltb_lt in Et. specialize (Ht Et). apply Bool.negb_true_iff, Z.eqb_neq in Ee. contradiction.
    + split.
      * intros H. injection H as <-. exists n. split; [reflexivity|]. split; [apply Wn, Hn|]. split; [apply Wo, Ho|]. rewrite We, Wt. intros Ht.
        apply Z.ltb_lt in Ht. rewrite Ht in Et. cbn [andb] in Et. apply Bool.negb_false_iff, Z.eqb_eq in Et. exact Et.
      * intros (n' & -> & Hn' & _). apply Wn in Hn'. rewrite (nearestZ_unique _ _ _ _ _ HD Hn' Hn). reflexivity.
Qed.
Definition mag_ok (g : magnitude) : Prop := match g with MDec m _ | MHex m _ => 0 <= m | _ => True end.
Lemma convert_spec f neg g r : is_format f -> mag_ok g -> convert f neg g = Some r <-> result f neg g r.
Proof.
  intros Hf Hg. destruct g as [m e|m e| |]; cbn [convert result exact mag_ok] in *.
  - rewrite (to_format_spec f neg m 10 e r Hf Hg ltac:(lia)). split.
    + intros (n & -> & H). exists (inject_Z m * pow 10 e)%Q, n. split; [reflexivity|]. split; [reflexivity|exact H].
    + intros (x & n & Hx & -> & H). injection Hx as <-. exists n. split; [reflexivity|exact H].
  - rewrite (to_format_spec f neg m 2 e r Hf Hg ltac:(lia)). split.
    + intros (n & -> & H). exists (inject_Z m * pow 2 e)%Q, n. split; [reflexivity|]. split; [reflexivity|exact H].
    + intros (x & n & Hx & -> & H). injection Hx as <-. exists n. split; [reflexivity|exact H].
  - split; [intros H; injection H as <-; reflexivity|intros ->; reflexivity].
  - split; [intros H; injection H as <-; reflexivity|intros ->; reflexivity].
Qed.

(** ** The whole *)
Lemma numeral_nonneg (dig : ascii -> Z -> Prop) b s v : 0 < b -> (forall c d, dig c d -> 0 <= d) -> numeral dig b s v -> 0 <= v.
Proof. intros Hb Hd. induction 1 as [|c d s v H _ IH]; [lia|]. pose proof (Hd _ _ H). assert (0 <= b ^ Z.of_nat (length s)) by (apply Z.pow_nonneg; lia). nia. Qed.
Lemma pointed_nonneg (dig : ascii -> Z -> Prop) b s v n : 0 < b -> (forall c d, dig c d -> 0 <= d) -> pointed dig b s v n -> 0 <= v.
Proof. intros Hb Hd [? ? _ H|? ? ? _ H]; exact (numeral_nonneg _ _ _ _ Hb Hd H). Qed.
Lemma text_mag_ok s g : unsigned_real s g -> mag_ok g.
Proof.
  intros [? ? v ? ? H _|? ? ? v ? ? _ H _|? _|? _|? ? _ _]; cbn [mag_ok]; try exact Logic.I; refine (pointed_nonneg _ _ _ _ _ _ _ H); try lia; intros c d (Hd & _); exact Hd.
Qed.
(** No text begins with a sign, nor contains white space. *)
Lemma text_no_sign s g : unsigned_real s g -> no_sign s.
Proof.
  intros [s0 t v n e H _|x s0 t v n e _ _ _|s0 H|s0 H|s0 t H _].
  - destruct H as [s1 v Hn H|s1 t1 v _ H].
    + apply digit_no_sign in H. destruct s1; [congruence|exact H].
    + destruct s1 as [|c s1]; [cbn; split; discriminate|]. exact (digit_no_sign _ _ H).
  - cbn. split; discriminate.
  - destruct H as [H|H]; inversion H as [|x c w u Hc _]; subst; cbn; (split; intros ->; destruct Hc as [E|(E & _)]; discriminate).
  - inversion H as [|x c w u Hc _]; subst; cbn; (split; intros ->; destruct Hc as [E|(E & _)]; discriminate).
  - inversion H as [|x c w u Hc _]; subst; cbn; (split; intros ->; destruct Hc as [E|(E & _)]; discriminate).
Qed.
Definition solid (c : ascii) : Prop := 33 <= code c.
Lemma solid_not_white c : solid c -> ~ white c.
Proof. unfold solid, white. intros H W. cbn in W. repeat destruct W as [<-|W]; [..|destruct W]; vm_compute in H; apply H; reflexivity. Qed.
Lemma any_case_solid w s : Forall (fun x => 97 <= code x) w -> any_case w s -> Forall solid s.
Proof. intros Hw H. revert Hw. induction H as [|x c w s Hc H IH]; intros Hw; constructor; inversion Hw; subst; [unfold solid; destruct Hc as [->|Hc]; lia|auto]. Qed.
Lemma numeral_solid (dig : ascii -> Z -> Prop) b s v : (forall c d, dig c d -> solid c) -> numeral dig b s v -> Forall solid s.
Proof. intros Hd. induction 1 as [|c d s v H _ IH]; constructor; [exact (Hd _ _ H)|exact IH]. Qed.
Lemma pointed_solid (dig : ascii -> Z -> Prop) b s v n : (forall c d, dig c d -> solid c) -> pointed dig b s v n -> Forall solid s.
Proof.
  intros Hd [? ? _ H|? ? ? _ H]; apply (numeral_solid _ _ _ _ Hd) in H; [exact H|]. apply Forall_app in H. destruct H as (H1 & H2).
  apply Forall_app. split; [exact H1|]. constructor; [vm_compute; discriminate|exact H2].
Qed.
Lemma digit_solid c d : is_digit c d -> solid c.
Proof. intros H. apply dec_dig_spec in H. unfold dec_dig in H. destruct ((48 <=? code c) && (code c <=? 57)) eqn:E; [|discriminate]. apply andb_prop in E. unfold solid. lia. Qed.
Lemma hex_solid c d : is_hex c d -> solid c.
Proof.
  intros H. apply hex_dig_spec in H. unfold hex_dig in H. unfold solid.
  destruct ((48 <=? code c) && (code c <=? 57)) eqn:E; [apply andb_prop in E; lia|]. destruct ((97 <=? code c) && (code c <=? 102)) eqn:E2; [apply andb_prop in E2; lia|].
  destruct ((65 <=? code c) && (code c <=? 70)) eqn:E3; [apply andb_prop in E3; lia|discriminate].
Qed.
Lemma exp_solid cs t e : Forall solid cs -> exp_text cs t e -> Forall solid t.
Proof.
  intros Hcs [|c sg neg s v Hc Hsg _ H]; constructor; [rewrite Forall_forall in Hcs; apply Hcs, Hc|]. apply Forall_app. split; [|exact (numeral_solid _ _ _ _ digit_solid H)].
  destruct Hsg; repeat constructor; vm_compute; discriminate.
Qed.
Lemma text_solid s g : unsigned_real s g -> Forall solid s.
Proof.
  assert (L : forall w, w = lit "inf" \/ w = lit "infinity" \/ w = lit "nan" -> Forall (fun x => 97 <= code x) w).
  { intros w [->|[->| ->]]; repeat (constructor; [vm_compute; discriminate|]); constructor. }
  intros [s0 t v n e H Ht|x s0 t v n e Hx H Ht|s0 H|s0 H|s0 t H Ht].
  - apply Forall_app. split; [exact (pointed_solid _ _ _ _ _ digit_solid H)|]. apply (exp_solid _ _ _) in Ht; [exact Ht|]. repeat (constructor; [vm_compute; discriminate|]); constructor.
  - constructor; [vm_compute; discriminate|]. constructor; [cbn in Hx; destruct Hx as [<-|[<-|[]]]; vm_compute; discriminate|].
    apply Forall_app. split; [exact (pointed_solid _ _ _ _ _ hex_solid H)|]. apply (exp_solid _ _ _) in Ht; [exact Ht|]. repeat (constructor; [vm_compute; discriminate|]); constructor.
  - destruct H as [H|H]; (refine (any_case_solid _ _ _ H); apply L; auto).
  - refine (any_case_solid _ _ _ H). apply L. auto.
  - apply Forall_app. split; [refine (any_case_solid _ _ _ H); apply L; auto|]. constructor; [vm_compute; discriminate|]. apply Forall_app. split.
    + revert Ht. apply Forall_impl. intros c Hc. unfold solid, word_char in *. destruct Hc as [Hc|[Hc|[Hc|Hc]]]; [lia|lia|lia|subst c; vm_compute; discriminate].
    + constructor; [vm_compute; discriminate|constructor].
Qed.

Lemma sto_whole f s r : is_format f -> c_sto f s = Some (r, length s) <-> exists neg g, real_text s neg g /\ result f neg g r.
Proof.
  intros Hf. unfold c_sto. split.
  - destruct (scan_sign s) as [neg t] eqn:Es. destruct (scan_sign_inv _ _ _ Es) as (sg & -> & Hsg). intros H.
    destruct (magnitude_of t) as [[g rest]|] eqn:Em; [|discriminate]. destruct (convert f neg g) as [v|] eqn:Ev; [|discriminate]. injection H as -> Hlen.
    assert (Hr : rest = []).
    { destruct rest as [|c rest]; [reflexivity|exfalso]. rewrite app_length in Hlen. cbn [length] in Hlen.
      assert (Ht : (0 < length t)%nat) by (destruct t; [vm_compute in Em; discriminate|cbn; lia]). lia. }
    subst rest. apply magnitude_inv in Em. exists neg, g. split; [exists sg, t; auto|]. apply convert_spec; [exact Hf|exact (text_mag_ok _ _ Em)|exact Ev].
  - intros (neg & g & (sg & t & -> & Hsg & Ht) & Hr). rewrite (scan_sign_app _ _ _ Hsg (text_no_sign _ _ Ht)). rewrite (magnitude_whole _ _ Ht).
    apply (convert_spec f neg g r Hf (text_mag_ok _ _ Ht)) in Hr. rewrite Hr. cbn [length]. rewrite Nat.sub_0_r. reflexivity.
Qed.
Lemma real_text_solid s neg g : real_text s neg g -> Forall (fun c => ~ white c) s.
Proof.
  intros (sg & t & -> & Hsg & Ht). apply Forall_app. split; [destruct Hsg; repeat constructor; apply solid_not_white; vm_compute; discriminate|].
  generalize (text_solid _ _ Ht). apply Forall_impl. exact solid_not_white.
Qed.
Lemma real_exact p f s : is_format f -> readable p s ->
  (forall r, real_from_string p f s = COk r <-> exists neg g, real_text s neg g /\ result f neg g r) /\ real_from_string p f s <> CUB.
Proof.
  intros Hf Hr. destruct (float_exact real (c_sto f) p s (readable_safe p s Hr)) as (H & Hu). split; [|exact Hu]. intros r. unfold real_from_string. rewrite H. rewrite (sto_whole f s r Hf).
  split; [intros (_ & He); exact He|]. intros (neg & g & Ht & Hres). split; [exact (real_text_solid _ _ _ Ht)|]. exists neg, g. auto.
Qed.
Lemma text_unique s neg g neg' g' : real_text s neg g -> real_text s neg' g' -> neg = neg' /\ g = g'.
Proof.
  intros (sg & t & -> & Hsg & Ht) (sg' & t' & E & Hsg' & Ht').
  pose proof (scan_sign_app _ _ _ Hsg (text_no_sign _ _ Ht)) as E1. rewrite E in E1. rewrite (scan_sign_app _ _ _ Hsg' (text_no_sign _ _ Ht')) in E1. injection E1 as -> ->.
  apply magnitude_whole in Ht, Ht'. rewrite Ht in Ht'. injection Ht' as ->. auto.
Qed.

(** ** Numbers that are read exactly *)
Lemma exact_result f neg g x n : is_format f -> exact g = Some x -> representable f (finite_value f n) -> (finite_value f n == x)%Q ->
  (finite_value f n < pow 2 (f_max f))%Q -> result f neg g (RNum neg n).
Proof.
  intros Hf Hx Hr E Ho. assert (H : exists x n0, exact g = Some x /\ RNum neg n = RNum neg n0 /\ nearest f x (finite_value f n0) /\
         (finite_value f n0 < pow 2 (f_max f))%Q /\ (tiny f x -> (finite_value f n0 == x)%Q)).
  { exists x, n. split; [exact Hx|]. split; [reflexivity|]. split; [|split; [exact Ho|intros _; exact E]]. split; [exact Hr|]. intros q' _ Hq. left.
    assert (E0 : (Qabs (x - finite_value f n) == 0)%Q) by (rewrite E; setoid_replace (x - x)%Q with 0%Q by ring; reflexivity).
    rewrite E0. destruct (Qlt_le_dec 0 (Qabs (x - q'))) as [Hlt|Hle]; [exact Hlt|exfalso]. apply Hq. rewrite E.
    apply Qabs_Qle_condition in Hle. destruct Hle as (H1 & H2). apply Qle_antisym; lra. }
  destruct g; [exact H|exact H|discriminate|discriminate].
Qed.
Lemma digits_numeral s v : digits s v -> numeral is_digit 10 s v.
Proof. induction 1; constructor; assumption. Qed.
Lemma decimal_text s v : decimal s v -> unsigned_real s (MDec v 0).
Proof.
  intros (Hn & H). rewrite <- (app_nil_r s). change (MDec v 0) with (MDec v (0 - 0)). apply ur_dec; [apply po_none; [exact Hn|apply digits_numeral, H]|constructor].
Qed.
Lemma rep_finite f n : rep (f_prec f) n -> representable f (finite_value f n).
Proof. intros H. apply rep_units. exists n. split; [exact H|reflexivity]. Qed.

(** Integers that fit the significand. *)
Lemma integer_real_text s v : integer_text s v -> exists neg, real_text s neg (MDec (Z.abs v) 0) /\ (v <> 0 -> (neg = true <-> v < 0)).
Proof.
  intros Ht. assert (Hd : forall r w, decimal r w -> 0 <= w) by (intros r w (_ & Hd); apply digits_numeral in Hd; refine (numeral_nonneg _ _ _ _ _ _ Hd); [lia|intros c d (Hc & _); exact Hc]).
    destruct Ht as [Ht|[(r & -> & Ht)|(r & -> & Ht)]]; pose proof (Hd _ _ Ht) as Hnn.
    - exists false. rewrite Z.abs_eq by lia. split; [|intros _; split; [discriminate|lia]]. exists [], s. split; [reflexivity|]. split; [constructor|apply decimal_text, Ht].
    - exists false. rewrite Z.abs_eq by lia. split; [|intros _; split; [discriminate|lia]]. exists ["+"%char], r. split; [reflexivity|]. split; [constructor|apply decimal_text, Ht].
    - exists true. rewrite Z.abs_neq by lia. split; [|intros Hv0; split; [lia|reflexivity]]. exists ["-"%char], r. split; [reflexivity|]. split; [constructor|apply decimal_text, Ht].
Qed.
Lemma integer_exact p f s v : is_format f -> readable p s -> integer_text s v -> Z.abs v <= 2 ^ f_prec f ->
  exists neg, real_from_string p f s = COk (RNum neg (Z.abs v * 2 ^ - f_min f)) /\ (v <> 0 -> (neg = true <-> v < 0)).
Proof.
  intros Hf Hr Ht Hv. destruct (format_ok f Hf) as (H1 & H2 & H3). pose proof (integer_real_text s v Ht) as Hx.
  destruct Hx as (neg & Hx & Hs). exists neg. split; [|exact Hs]. apply (real_exact p f s Hf Hr). exists neg, (MDec (Z.abs v) 0). split; [exact Hx|].
  assert (Hrep : rep (f_prec f) (Z.abs v * 2 ^ - f_min f)).
  { destruct (Z.eq_dec (Z.abs v) (2 ^ f_prec f)) as [E|E].
    - rewrite E. exists 1, (f_prec f - f_min f). split; [split; [lia|apply Z.pow_gt_1; lia]|]. split; [lia|]. rewrite Z.mul_1_l, <- Z.pow_add_r by lia. f_equal.
    - exists (Z.abs v), (- f_min f). split; [lia|]. split; [lia|reflexivity]. }
  apply (exact_result f neg _ (inject_Z (Z.abs v) * pow 10 0)%Q); [exact Hf|reflexivity|apply rep_finite, Hrep| |].
  - unfold finite_value. rewrite inject_Z_mult, <- pow_nonneg by lia. rewrite <- Qmult_assoc, (Qmult_comm (pow 2 (- f_min f))), pow_opp by reflexivity. reflexivity.
  - apply overflow_units; [exact H3|]. apply Z.le_lt_trans with (2 ^ f_prec f * 2 ^ - f_min f); [apply Z.mul_le_mono_nonneg_r; [apply Z.pow_nonneg; lia|exact Hv]|].
    rewrite <- Z.pow_add_r by lia. apply Z.pow_lt_mono_r; [lia| |]; destruct Hf as [->|[->| ->]]; vm_compute; reflexivity || discriminate.
Qed.

(** Every number of the format has a text. *)
Lemma every_text p f n : is_format f -> representable f (finite_value f n) -> (finite_value f n < pow 2 (f_max f))%Q ->
  exists s, readable p s /\ real_from_string p f s = COk (RNum false n).
Proof.
  intros Hf Hr Ho. destruct (format_ok f Hf) as (H1 & H2 & H3). pose proof Hr as Hr'. apply rep_units in Hr'. destruct Hr' as (n0 & (m & k & Hm & Hk & E0) & E).
  apply units_inj in E. rewrite <- E in E0. clear E n0. assert (Hn : 0 <= n) by (subst n; pose proof (Z.pow_nonneg 2 k); nia). clear m k Hm Hk E0.
  set (M := n * 5 ^ (- f_min f)). assert (HM : 0 <= M) by (unfold M; pose proof (Z.pow_nonneg 5 (- f_min f)); nia).
  set (s := print_N (Z.to_N M) ++ "e"%char :: ["-"%char] ++ print_N (Z.to_N (- f_min f))).
  assert (Hp : readable p s).
  { right. unfold s. apply Forall_app. split; [apply print_N_plain|]. cbn [app]. constructor; [reflexivity|]. constructor; [reflexivity|apply print_N_plain]. }
  exists s. split; [exact Hp|]. apply (real_exact p f s Hf Hp). exists false, (MDec M (f_min f - 0)). split.
  - exists [], s. split; [reflexivity|]. split; [constructor|]. unfold s. apply ur_dec.
    + destruct (print_N_decimal (Z.to_N M)) as (Hne & Hd). rewrite Z2N.id in Hd by exact HM. apply po_none; [exact Hne|apply digits_numeral, Hd].
    + destruct (print_N_decimal (Z.to_N (- f_min f))) as (Hne & Hd). rewrite Z2N.id in Hd by lia.
      pose proof (ex_some ["e"; "E"]%char "e" ["-"%char] true _ _ (or_introl eq_refl) si_minus Hne (digits_numeral _ _ Hd)) as X. cbn iota in X. rewrite Z.opp_involutive in X. exact X.
  - apply (exact_result f false _ (inject_Z M * pow 10 (f_min f - 0))%Q); [exact Hf|reflexivity|exact Hr| |exact Ho].
    unfold finite_value, M. rewrite Z.sub_0_r, inject_Z_mult, <- pow_nonneg by lia. rewrite <- Qmult_assoc. apply Qmult_comp; [reflexivity|].
    assert (E10 : (pow 10 (f_min f) == pow 5 (f_min f) * pow 2 (f_min f))%Q) by (unfold pow; rewrite <- Qmult_power; apply Qpower_comp; reflexivity).
    rewrite E10, Qmult_assoc, (Qmult_comm (pow 5 (- f_min f))), pow_opp by reflexivity. rewrite Qmult_1_l. reflexivity.
Qed.
Lemma result_unique f neg g r r' : is_format f -> mag_ok g -> result f neg g r -> result f neg g r' -> r = r'.
Proof. intros Hf Hg H H'. apply (convert_spec f neg g _ Hf Hg) in H, H'. congruence. Qed.

(** ** The largest integers accepted *)
Lemma round_small p N : 2 <= p -> 0 <= N < 2 ^ p -> round_even p N 1 = N.
Proof.
  intros Hp HN. unfold round_even. rewrite Z.div_1_r. rewrite (proj2 (Z.ltb_lt N (2 ^ p))) by lia. cbn [Z.pow Z.mul]. rewrite Z.div_1_r, Z.mod_1_r. cbn. lia.
Qed.
Lemma round_limit p K N : 2 <= p -> p < K -> 0 <= N -> (2 ^ K <= round_even p N 1 <-> 2 ^ K - 2 ^ (K - p - 1) <= N).
Proof.
  intros Hp HK HN. assert (Hpow : forall a b, 0 <= a -> 0 <= b -> 2 ^ (a + b) = 2 ^ a * 2 ^ b) by (intros; apply Z.pow_add_r; lia).
  assert (Hhalf : 2 ^ (K - p - 1) <= 2 ^ (K - 1)) by (apply Z.pow_le_mono_r; lia).
  assert (HK1 : 2 ^ K = 2 * 2 ^ (K - 1)) by (rewrite <- (Z.pow_succ_r 2 (K - 1)) by lia; f_equal; lia).
  assert (HK2 : 0 < 2 ^ (K - 1)) by (apply Z.pow_pos_nonneg; lia).
  destruct (Z.lt_ge_cases N (2 ^ p)) as [Hs|Hb].
  { rewrite round_small by lia. assert (2 ^ p <= 2 ^ (K - 1)) by (apply Z.pow_le_mono_r; lia). lia. }
  assert (HN0 : 0 < N) by (pose proof (Z.pow_pos_nonneg 2 p); lia).
  unfold round_even. rewrite Z.div_1_r. rewrite (proj2 (Z.ltb_ge N (2 ^ p))) by lia. set (k := Z.log2 N + 1 - p). rewrite Z.mul_1_l.
  assert (Hl : p <= Z.log2 N) by (apply Z.log2_le_pow2; lia). assert (Hk : 1 <= k) by (unfold k; lia).
  destruct (Z.log2_spec N HN0) as (L1 & L2). replace (Z.log2 N) with (p - 1 + k) in L1 by (unfold k; lia). replace (Z.succ (Z.log2 N)) with (p + k) in L2 by (unfold k; lia).
  clearbody k. clear Hl. rewrite Hpow in L1 by lia. rewrite Hpow in L2 by lia.
  assert (Dk : 0 < 2 ^ k) by (apply Z.pow_pos_nonneg; lia). pose proof (Z.div_mod N (2 ^ k)) as E. specialize (E ltac:(lia)). pose proof (Z.mod_pos_bound N (2 ^ k) Dk) as Hr.
  set (m := N / 2 ^ k) in *. set (r := N mod 2 ^ k) in *. clearbody m r.
  assert (P1 : 2 ^ p = 2 * 2 ^ (p - 1)) by (rewrite <- (Z.pow_succ_r 2 (p - 1)) by lia; f_equal; lia).
  assert (P2 : 1 < 2 ^ (p - 1)) by (apply Z.pow_gt_1; lia).
  assert (Hm : 2 ^ (p - 1) <= m < 2 ^ p) by nia.
  set (m' := if 2 * r <? 2 ^ k then m else if 2 ^ k <? 2 * r then m + 1 else if Z.even m then m else m + 1).
  assert (Hm' : m <= m' <= m + 1) by (unfold m'; destruct (_ <? _); [lia|]; destruct (_ <? _); [lia|]; destruct (Z.even m); lia).
  destruct (Z.lt_trichotomy (k + p) K) as [Hc|[Hc|Hc]].
  - assert (HQ : 2 ^ p * 2 ^ k <= 2 ^ (K - 1)) by (rewrite <- Hpow by lia; apply Z.pow_le_mono_r; lia). nia.
  - assert (HQ : 2 ^ K = 2 ^ p * 2 ^ k) by (rewrite <- Hpow by lia; f_equal; lia). replace (K - p - 1) with (k - 1) by lia.
    assert (Hkk : 2 ^ k = 2 * 2 ^ (k - 1)) by (rewrite <- (Z.pow_succ_r 2 (k - 1)) by lia; f_equal; lia).
    split.
    + intros H. assert (m' = 2 ^ p) by nia. assert (m = 2 ^ p - 1) by lia. assert (2 ^ k <= 2 * r); [|nia].
      unfold m' in *. destruct (Z.ltb_spec (2 * r) (2 ^ k)); lia.
    + intros H. assert (m = 2 ^ p - 1) by nia. assert (Hrr : 2 ^ k <= 2 * r) by nia.
      assert (Ho : Z.even m = false). { replace m with (-1 + 2 * 2 ^ (p - 1)) by lia. rewrite Z.even_add_mul_2. reflexivity. }
      assert (m' = m + 1); [|nia]. unfold m'. rewrite Ho. destruct (Z.ltb_spec (2 * r) (2 ^ k)); [lia|]. destruct (_ <? _); reflexivity.
  - assert (HQ : 2 ^ K <= 2 ^ (p - 1) * 2 ^ k) by (rewrite <- Hpow by lia; apply Z.pow_le_mono_r; lia). assert (0 < 2 ^ (K - p - 1)) by (apply Z.pow_pos_nonneg; lia). nia.
Qed.
Lemma integer_limit p f s v : is_format f -> readable p s -> integer_text s v ->
  ((exists r, real_from_string p f s = COk r) <-> Z.abs v < 2 ^ f_max f - 2 ^ (f_max f - f_prec f - 1)).
Proof.
  intros Hf Hr Ht. destruct (format_ok f Hf) as (H1 & H2 & H3). destruct (integer_real_text s v Ht) as (neg & Hx & _).
  assert (Hc : (exists r, real_from_string p f s = COk r) <-> convert f neg (MDec (Z.abs v) 0) <> None).
  { split.
    - intros (r & H). apply (real_exact p f s Hf Hr) in H as (neg' & g' & Hy & Hres). destruct (text_unique _ _ _ _ _ Hx Hy) as (<- & <-).
      apply convert_spec in Hres; [congruence|exact Hf|cbn; lia].
    - intros H. destruct (convert f neg (MDec (Z.abs v) 0)) as [r|] eqn:E; [|congruence]. exists r. apply (real_exact p f s Hf Hr). exists neg, (MDec (Z.abs v) 0). split; [exact Hx|].
      apply convert_spec in E; [exact E|exact Hf|cbn; lia]. }
  rewrite Hc. cbn [convert]. unfold to_format, in_units. change (Z.max (- 0) 0) with 0. change (Z.max 0 0) with 0. rewrite Z.pow_0_r, Z.mul_1_r.
  set (N := Z.abs v * 2 ^ (- f_min f)). assert (HU : 0 < 2 ^ (- f_min f)) by (apply Z.pow_pos_nonneg; lia).
  assert (HK : f_prec f < f_max f - f_min f) by (destruct Hf as [->|[->| ->]]; reflexivity).
  assert (HM : f_prec f < f_max f) by (destruct Hf as [->|[->| ->]]; reflexivity).
  pose proof (round_limit (f_prec f) (f_max f - f_min f) N H2 HK ltac:(nia)) as HL.
  assert (HT : 2 ^ (f_max f - f_min f) - 2 ^ (f_max f - f_min f - f_prec f - 1) <= N <-> 2 ^ f_max f - 2 ^ (f_max f - f_prec f - 1) <= Z.abs v).
  { replace (f_max f - f_min f - f_prec f - 1) with (f_max f - f_prec f - 1 + - f_min f) by lia. replace (f_max f - f_min f) with (f_max f + - f_min f) by lia.
    rewrite !Z.pow_add_r, <- Z.mul_sub_distr_r by lia. unfold N. split; intros H; [|nia]. apply Z.mul_le_mono_pos_r in H; assumption. }
  rewrite HT in HL. destruct (Z.leb_spec (2 ^ (f_max f - f_min f)) (round_even (f_prec f) N 1)) as [Ho|Ho].
  - split; [congruence|]. intros H. apply HL in Ho. lia.
  - split; [|intros _].
    + intros _. apply Z.lt_nge. intros H. apply HL in H. lia.
    + destruct (4 * N <? (2 ^ (f_prec f + 1) - 1) * 1) eqn:E; cbn [andb]; [|discriminate]. apply Z.ltb_lt in E.
      rewrite Z.pow_add_r in E by lia. assert (HN : 0 <= N < 2 ^ f_prec f) by nia. rewrite round_small by assumption. rewrite Z.mul_1_r, Z.eqb_refl. discriminate.
Qed.
