(** * C73: floating point parameters *)

From Coq Require Import QArith.
From Verif Require Import Base FromStringModel FromStringSpec FromStringProofs FloatModel FloatSpec FloatProofs FloatRoundProofs.
Open Scope Z_scope.
Open Scope list_scope.

(** C73: a parameter of type [float], [double] or [long double] is accepted exactly when it is
    the text of a number (decimal or hexadecimal, with optional sign, point and exponent), an infinity
    or a NaN, and a number is neither too large nor too small to be given exactly; its
    value is the number of the type nearest to the exact value, the one with the even significand
    of two. *)
Theorem C73_real_exact : forall p f s, is_format f -> readable p s ->
  (forall r, real_from_string p f s = COk r <-> exists neg g, real_text s neg g /\ result f neg g r) /\ real_from_string p f s <> CUB.
Proof. exact real_exact. Qed.
Print Assumptions C73_real_exact.

(** A text denotes one number. *)
Theorem C73_unique : forall s neg g neg' g', real_text s neg g -> real_text s neg' g' -> neg = neg' /\ g = g'.
Proof. exact text_unique. Qed.
Print Assumptions C73_unique.

(** The texts accepted for integer types are read exactly, if the significand has
    enough bits. *)
Theorem C73_integers : forall p f s v, is_format f -> readable p s -> integer_text s v -> Z.abs v <= 2 ^ f_prec f ->
  exists neg, real_from_string p f s = COk (RNum neg (Z.abs v * 2 ^ - f_min f)) /\ (v <> 0 -> (neg = true <-> v < 0)).
Proof. exact integer_exact. Qed.
Print Assumptions C73_integers.

(** An integer is accepted if it is smaller than the mean of the largest finite number
    and the next power of two. *)
Theorem C73_limits : forall p s v, readable p s -> integer_text s v ->
  ((exists r, real_from_string p Float s = COk r) <-> Z.abs v < 2 ^ 128 - 2 ^ 103) /\
  ((exists r, real_from_string p Double s = COk r) <-> Z.abs v < 2 ^ 1024 - 2 ^ 970) /\
  ((exists r, real_from_string p LongDouble s = COk r) <-> Z.abs v < 2 ^ 16384 - 2 ^ 16319).
Proof.
  intros p s v Hr Ht. split; [|split]; apply integer_limit; try assumption; [left|right; left|right; right]; reflexivity.
Qed.
Print Assumptions C73_limits.
(** The types are binary formats of IEEE 754, of 32, 64 and (with its leading bit stored) 80 bits: the largest
    exponent is that of the bits left for it, the smallest one opposite. *)
Theorem C73_formats : forall f, is_format f -> exists bits, (f = Float /\ bits = 32 \/ f = Double /\ bits = 64 \/ f = LongDouble /\ bits = 80 - 1) /\
  f_max f = 2 ^ (bits - f_prec f - 1) /\ f_min f = 2 - (f_max f - 1) - f_prec f /\ In (f_prec f) [24; 53; 64].
Proof. intros f [->|[->| ->]]; [exists 32|exists 64|exists 79]; cbn; auto 12. Qed.
Print Assumptions C73_formats.

(** Every finite number of the type can be entered. *)
Theorem C73_every : forall p f n, is_format f -> representable f (finite_value f n) -> (finite_value f n < pow 2 (f_max f))%Q ->
  exists s, readable p s /\ real_from_string p f s = COk (RNum false n).
Proof. exact every_text. Qed.
Print Assumptions C73_every.

Example C73_nonvacuous :
  let p := mkPlatform true false in
  readable p (lit "-1.5e+1") /\ is_format Float /\
  real_from_string p Float (lit "-1.5e+1") = COk (RNum true (15 * 2 ^ 149)) /\
  real_from_string p Double (lit "0x.8p5") = COk (RNum false (16 * 2 ^ 1074)) /\
  real_from_string p Double (lit "0.1") = COk (RNum false (3602879701896397 * 2 ^ (1074 - 55))) /\
  real_from_string p Float (lit "16777217") = COk (RNum false (16777216 * 2 ^ 149)) /\
  real_from_string p Float (lit "16777219") = COk (RNum false (16777220 * 2 ^ 149)) /\
  real_from_string p LongDouble (lit "-Infinity") = COk (RInf true) /\
  real_from_string p Double (lit "nan(1_a)") = COk (RNaN false) /\
  map (fun t => real_from_string p Double (lit t)) [""; "."; "1e"; "0x"; "1e400"; "1.5x"; "+-1"; "in"; "nan("]%string = repeat CBad 9.
Proof. cbn zeta. split; [right; repeat constructor|]. split; [left; reflexivity|]. vm_compute. repeat split. Qed.

(** Numbers a [double] can hold, with fewer bits, are refused when they are small. *)
Theorem C73_tiny_refuted : exists p s x, readable p s /\ real_text s false (MDec 1 (-310)) /\
  exact (MDec 1 (-310)) = Some x /\ (0 < x)%Q /\ (x < pow 2 (f_max Double))%Q /\ real_from_string p Double s = CBad.
Proof.
  exists (mkPlatform true false), (lit "1e-310"), (inject_Z 1 * pow 10 (-310))%Q. split; [right; repeat constructor|].
  split; [exists [], (lit "1e-310"); split; [reflexivity|]; split; [constructor|]; apply magnitude_inv; vm_compute; reflexivity|].
  split; [reflexivity|]. split; [reflexivity|]. split; [vm_compute; reflexivity|]. vm_compute. reflexivity.
Qed.
Print Assumptions C73_tiny_refuted.

(** Texts without any digit are accepted. *)
Theorem C73_words_refuted : exists p s r, readable p s /\ (forall c d, In c s -> ~ is_digit c d) /\ real_from_string p Double s = COk r.
Proof.
  exists (mkPlatform true false), (lit "nan"), (RNaN false). split; [right; repeat constructor|]. split; [|reflexivity].
  intros c d Hc Hd. apply dec_dig_spec in Hd. cbn in Hc. repeat destruct Hc as [<-|Hc]; [..|destruct Hc]; vm_compute in Hd; discriminate.
Qed.
Print Assumptions C73_words_refuted.
