(** * Specification of texts of floating point numbers and of their values *)

From Coq Require Import QArith Qabs Qpower.
From Verif Require Import Base FromStringModel FromStringSpec FloatModel.
Open Scope Z_scope.
Open Scope list_scope.

(** ** Texts *)
Definition is_hex (c : ascii) (d : Z) : Prop :=
  0 <= d /\ (nth_error (lit "0123456789abcdef") (Z.to_nat d) = Some c \/ nth_error (lit "0123456789ABCDEF") (Z.to_nat d) = Some c).
(** Sequences of digits of base [b] and their value *)
Inductive numeral (dig : ascii -> Z -> Prop) (b : Z) : str -> Z -> Prop :=
| nu_nil : numeral dig b [] 0
| nu_cons c d s v : dig c d -> numeral dig b s v -> numeral dig b (c :: s) (d * b ^ Z.of_nat (length s) + v).
(** with at most one point, at least one digit: their value without the point, and the number of
    digits behind the point *)
Inductive pointed (dig : ascii -> Z -> Prop) (b : Z) : str -> Z -> Z -> Prop :=
| po_none s v : s <> [] -> numeral dig b s v -> pointed dig b s v 0
| po_some s t v : s ++ t <> [] -> numeral dig b (s ++ t) v -> pointed dig b (s ++ "."%char :: t) v (Z.of_nat (length t)).
Inductive sign_text : str -> bool -> Prop :=
| si_none : sign_text [] false
| si_plus : sign_text ["+"%char] false
| si_minus : sign_text ["-"%char] true.
Inductive exp_text (cs : list ascii) : str -> Z -> Prop :=
| ex_none : exp_text cs [] 0
| ex_some c sg neg s v : In c cs -> sign_text sg neg -> s <> [] -> numeral is_digit 10 s v ->
    exp_text cs (c :: sg ++ s) (if neg then - v else v).
(** a word in any case *)
Definition any_case (w s : str) : Prop :=
  Forall2 (fun x c => c = x \/ (code x = code c + 32 /\ 65 <= code c <= 90)) w s.
Definition word_char (c : ascii) : Prop :=
  48 <= code c <= 57 \/ 65 <= code c <= 90 \/ 97 <= code c <= 122 \/ c = "_"%char.
Inductive unsigned_real : str -> magnitude -> Prop :=
| ur_dec s t v n e : pointed is_digit 10 s v n -> exp_text ["e"; "E"]%char t e -> unsigned_real (s ++ t) (MDec v (e - n))
| ur_hex x s t v n e : In x ["x"; "X"]%char -> pointed is_hex 16 s v n -> exp_text ["p"; "P"]%char t e ->
    unsigned_real ("0"%char :: x :: s ++ t) (MHex v (e - 4 * n))
| ur_inf s : any_case (lit "inf") s \/ any_case (lit "infinity") s -> unsigned_real s MInf
| ur_nan s : any_case (lit "nan") s -> unsigned_real s MNaN
| ur_nan_seq s t : any_case (lit "nan") s -> Forall word_char t -> unsigned_real (s ++ "("%char :: t ++ [")"%char]) MNaN.
Definition real_text (s : str) (neg : bool) (g : magnitude) : Prop :=
  exists sg t, s = sg ++ t /\ sign_text sg neg /\ unsigned_real t g.

(** ** Values *)
Definition pow (b e : Z) : Q := Qpower (inject_Z b) e.
(** The exact value, of numbers *)
Definition exact (g : magnitude) : option Q :=
  match g with
  | MDec m e => Some (inject_Z m * pow 10 e)%Q
  | MHex m e => Some (inject_Z m * pow 2 e)%Q
  | _ => None
  end.
(** The numbers of a format, regardless of the largest one *)
Definition representable (f : ffmt) (q : Q) : Prop :=
  exists m k, 0 <= m < 2 ^ f_prec f /\ f_min f <= k /\ (q == inject_Z m * pow 2 k)%Q.
Definition even_one (f : ffmt) (q : Q) : Prop :=
  exists m k, 0 <= m < 2 ^ f_prec f /\ Z.Even m /\ f_min f <= k /\ (q == inject_Z m * pow 2 k)%Q.
Definition nearest (f : ffmt) (x q : Q) : Prop :=
  representable f q /\
  forall q', representable f q' -> ~ (q' == q)%Q ->
    (Qabs (x - q) < Qabs (x - q'))%Q \/ ((Qabs (x - q) == Qabs (x - q'))%Q /\ even_one f q).
(** Too small to be given up to rounding: below half a unit of the smallest normal number (the
    distance to the next one with as many bits, half again) *)
Definition tiny (f : ffmt) (x : Q) : Prop := (x < pow 2 (f_min f + f_prec f - 1) - pow 2 (f_min f - 2))%Q.
Definition finite_value (f : ffmt) (n : Z) : Q := (inject_Z n * pow 2 (f_min f))%Q.

(** The result for a text *)
Definition result (f : ffmt) (neg : bool) (g : magnitude) (r : real) : Prop :=
  match g with
  | MInf => r = RInf neg
  | MNaN => r = RNaN neg
  | _ => exists x n, exact g = Some x /\ r = RNum neg n /\ nearest f x (finite_value f n) /\
         (finite_value f n < pow 2 (f_max f))%Q /\ (tiny f x -> (finite_value f n == x)%Q)
  end.
Definition is_format (f : ffmt) : Prop := f = Float \/ f = Double \/ f = LongDouble.
