(** * C05-C09: properties of parameter conversion *)

From Verif Require Import Base FromStringModel FromStringSpec FromStringProofs.
Open Scope Z_scope.

(** C05: unsigned types of any width >= 8. *)
Theorem C05_unsigned_exact : forall p w s, 8 <= w -> readable p s ->
  (forall v, unsigned_from_string p w s = COk v <-> unsigned_text w s v) /\
  (unsigned_from_string p w s = CBad <-> forall v, ~ unsigned_text w s v) /\
  unsigned_from_string p w s <> CUB.
Proof.
  exact (fun p w s Hw Hr =>
    let H := unsigned_exact p w s Hw (readable_safe p s Hr) in
    conj (proj1 H) (conj (conv_iff _ _ (proj1 H) (proj2 H)) (proj2 H))).
Qed.
Print Assumptions C05_unsigned_exact.

(** The unrestricted claim fails where [char] is signed: a non-ASCII byte after
    digits that fit is passed to [isdigit] as a negative number. *)
Theorem C05_nonascii_ub : forall p w ds v c rest, 8 <= w -> char_signed p = true ->
  128 <= code c <= 254 -> digits ds v -> v < 2 ^ w ->
  unsigned_digits p w (ds ++ c :: rest) = CUB.
Proof. exact unsigned_ub. Qed.
Print Assumptions C05_nonascii_ub.

Example C05_nonvacuous :
  let p := mkPlatform true true in
  readable p (lit "+65535") /\ unsigned_text 16 (lit "+65535") 65535 /\
  unsigned_from_string p 16 (lit "+65535") = COk 65535 /\
  unsigned_from_string p 16 (lit "65536") = CBad /\
  unsigned_from_string p 64 (lit "18446744073709551616") = CBad /\
  (128 <= code "233" <= 254 /\ digits (lit "1") 1).
Proof.
  cbn zeta. split; [right; repeat constructor|].
  assert (D : forall n c, nth_error digit_chars n = Some c -> is_digit c (Z.of_nat n)).
  { intros n c H. split; [apply Nat2Z.is_nonneg|]. rewrite Nat2Z.id. exact H. }
  split; [split; [right; exists (lit "65535"); split; [reflexivity|]|reflexivity]|].
  - split; [discriminate|].
    change 65535 with (6*10^4 + (5*10^3 + (5*10^2 + (3*10^1 + (5*10^0 + 0))))).
    constructor; [apply (D 6%nat); reflexivity|]. constructor; [apply (D 5%nat); reflexivity|].
    constructor; [apply (D 5%nat); reflexivity|]. constructor; [apply (D 3%nat); reflexivity|].
    constructor; [apply (D 5%nat); reflexivity|]. constructor.
  - repeat (split; [reflexivity|]). split; [split; discriminate|].
    change 1 with (1*10^0+0). constructor; [apply (D 1%nat); reflexivity|constructor].
Qed.

(** C06: signed types of any width >= 8, when signed overflow wraps or the type
    is narrower than [int]. *)
Theorem C06_signed_exact : forall p w s, 8 <= w -> strict p = false \/ w < 32 -> readable p s ->
  (forall v, signed_from_string p w s = COk v <-> signed_text w s v) /\
  (signed_from_string p w s = CBad <-> forall v, ~ signed_text w s v) /\
  signed_from_string p w s <> CUB.
Proof.
  exact (fun p w s Hw Hn Hr =>
    let H := signed_exact p w s Hw Hn (readable_safe p s Hr) in
    conj (proj1 H) (conj (conv_iff _ _ (proj1 H) (proj2 H)) (proj2 H))).
Qed.
Print Assumptions C06_signed_exact.

(** Under the strict C++ rules the claim is false for [int] and wider types:
    reading any negative number is undefined behaviour ([-min] overflows). *)
Theorem C06_strict_ub : forall p w s v, 32 <= w -> strict p = true -> readable p s ->
  decimal s v -> v < 2 ^ w ->
  signed_from_string p w ("-"%char :: s) = CUB.
Proof. exact (fun p w s v Hw Hp Hr => signed_strict_ub p w s v Hw Hp (readable_safe p s Hr)). Qed.
Print Assumptions C06_strict_ub.

(** The ten integer types of the library, with their ranges. *)
Theorem C06_all_types : forall p t s, readable p s -> strict p = false \/ ~ wide_signed t ->
  (forall v, int_from_string p t s = COk v <-> int_text t s v) /\
  int_from_string p t s <> CUB.
Proof. exact int_types. Qed.
Print Assumptions C06_all_types.

Example C06_nonvacuous :
  let p := mkPlatform true false in
  readable p (lit "-128") /\
  signed_from_string p 8 (lit "-128") = COk (-128) /\
  signed_from_string p 8 (lit "-129") = CBad /\
  signed_from_string p 32 (lit "-2147483648") = COk (-2147483648) /\
  signed_from_string p 32 (lit "2147483648") = CBad /\
  signed_from_string p 32 (lit "+-1") = CBad /\
  signed_from_string (mkPlatform true true) 32 (lit "-1") = CUB.
Proof. cbn zeta. split; [right; repeat constructor|]. vm_compute. repeat split. Qed.

(** C07: printed integers are read back. *)
Theorem C07_unsigned_round_trip : forall p w v, 8 <= w -> 0 <= v < 2 ^ w ->
  unsigned_from_string p w (print_Z v) = COk v.
Proof. exact unsigned_round_trip. Qed.
Print Assumptions C07_unsigned_round_trip.

Theorem C07_signed_round_trip : forall p w v, 8 <= w -> strict p = false \/ w < 32 ->
  - 2 ^ (w - 1) <= v < 2 ^ (w - 1) ->
  signed_from_string p w (print_Z v) = COk v.
Proof. exact signed_round_trip. Qed.
Print Assumptions C07_signed_round_trip.

Example C07_nonvacuous :
  print_Z (-9223372036854775808) = lit "-9223372036854775808" /\ print_Z 0 = lit "0" /\
  - 2 ^ (64 - 1) <= -9223372036854775808 < 2 ^ (64 - 1).
Proof. vm_compute. repeat split; congruence. Qed.

(** C08: bool, char, string. *)
Theorem C08_bool_exact : forall p s, strict p = false -> readable p s ->
  (forall b, bool_from_string p s = COk b <->
     (b = true /\ (s = lit "true" \/ integer_text s 1)) \/
     (b = false /\ (s = lit "false" \/ integer_text s 0))) /\
  bool_from_string p s <> CUB.
Proof. exact (fun p s Hp Hr => bool_exact p s Hp (readable_safe p s Hr)). Qed.
Print Assumptions C08_bool_exact.

Theorem C08_char_exact : forall s c, char_from_string s = COk c <-> s = [c].
Proof. exact char_exact. Qed.
Print Assumptions C08_char_exact.

Theorem C08_string_exact : forall s, string_from_string s = COk s.
Proof. exact (fun s => eq_refl). Qed.
Print Assumptions C08_string_exact.

Example C08_nonvacuous :
  let p := mkPlatform true false in
  readable p (lit "+01") /\ bool_from_string p (lit "+01") = COk true /\
  bool_from_string p (lit "-0") = COk false /\ bool_from_string p (lit "2") = CBad /\
  bool_from_string p (lit "True") = CBad.
Proof. cbn zeta. split; [right; repeat constructor|]. vm_compute. repeat split. Qed.

(** C09: floating point and stream-extracted types, for every behaviour of the
    C library ([sto]) and of the user's extractor ([ext]). *)
Theorem C09_float_exact : forall F (sto : str -> option (F * nat)) p s, readable p s ->
  (forall r, float_from_string p sto s = COk r <->
     Forall (fun c => ~ white c) s /\ sto s = Some (r, length s)) /\
  float_from_string p sto s <> CUB.
Proof. exact (fun F sto p s Hr => float_exact F sto p s (readable_safe p s Hr)). Qed.
Print Assumptions C09_float_exact.

Theorem C09_custom_exact : forall T (ext : str -> option (T * str)) s v,
  custom_from_string ext s = COk v <->
  exists rest, ext s = Some (v, rest) /\ Forall white rest.
Proof. exact custom_exact. Qed.
Print Assumptions C09_custom_exact.

Theorem C09_custom_no_ub : forall T (ext : str -> option (T * str)) s,
  custom_from_string ext s <> CUB.
Proof. exact custom_no_ub. Qed.
Print Assumptions C09_custom_no_ub.

Example C09_nonvacuous :
  let p := mkPlatform true false in
  let sto := fun s => if starts_with (lit "1.5") s then Some (15, 3%nat) else None in
  readable p (lit "1.5") /\ float_from_string p sto (lit "1.5") = COk 15 /\
  float_from_string p sto (lit "1.5x") = CBad /\ float_from_string p sto (lit "1.5 ") = CBad /\
  float_from_string p sto (lit "x") = CBad.
Proof. cbn zeta. split; [right; repeat constructor|]. vm_compute. repeat split. Qed.
