(** * Specification of parameter conversion: decimal numbers *)

From Verif Require Import Base FromStringModel.
Open Scope Z_scope.

Definition digit_chars : str := lit "0123456789".

(** [is_digit c d]: the character [c] is the decimal digit [d]. *)
Definition is_digit (c : ascii) (d : Z) : Prop :=
  0 <= d /\ nth_error digit_chars (Z.to_nat d) = Some c.

(** [decimal s v]: [s] is a non-empty sequence of decimal digits of value [v]
    (most significant first). *)
Inductive digits : str -> Z -> Prop :=
| digits_nil : digits [] 0
| digits_cons c d s v : is_digit c d -> digits s v ->
    digits (c :: s) (d * 10 ^ Z.of_nat (length s) + v).
Definition decimal (s : str) (v : Z) : Prop := s <> [] /\ digits s v.

(** Texts accepted for an unsigned type of [w] bits, with their value. *)
Definition unsigned_text (w : Z) (s : str) (v : Z) : Prop :=
  (decimal s v \/ exists r, s = "+"%char :: r /\ decimal r v) /\ v < 2 ^ w.

(** Texts of signed integers, and those accepted for a signed type of [w] bits. *)
Definition integer_text (s : str) (v : Z) : Prop :=
  decimal s v \/ (exists r, s = "+"%char :: r /\ decimal r v) \/
  (exists r, s = "-"%char :: r /\ decimal r (- v)).
Definition signed_text (w : Z) (s : str) (v : Z) : Prop :=
  integer_text s v /\ - 2 ^ (w - 1) <= v < 2 ^ (w - 1).

(** Canonical decimal text of an integer, by the standard library's printer. *)
(* [print_N] is in Base.v. *)
Definition print_Z (z : Z) : str :=
  if z <? 0 then "-"%char :: print_N (Z.to_N (- z)) else print_N (Z.to_N z).

(** Plain ASCII text. *)
Definition plain (s : str) : Prop := Forall (fun c => (N_of_ascii c < 128)%N) s.

Definition white (c : ascii) : Prop :=
  In c ["009"; "010"; "011"; "012"; "013"; " "]%char.

(** The ten integer types: their range, and the texts accepted for them (a minus
    sign only for the signed ones). *)
Definition int_range (t : inttype) : Z * Z :=
  match t with
  | SChar => (-128, 127)
  | Short => (-32768, 32767)
  | Int => (-2147483648, 2147483647)
  | Long | LLong => (-9223372036854775808, 9223372036854775807)
  | UChar => (0, 255)
  | UShort => (0, 65535)
  | UInt => (0, 4294967295)
  | ULong | ULLong => (0, 18446744073709551615)
  end.
Definition int_text (t : inttype) (s : str) (v : Z) : Prop :=
  (decimal s v \/ (exists r, s = "+"%char :: r /\ decimal r v) \/
   (In t [SChar; Short; Int; Long; LLong] /\ exists r, s = "-"%char :: r /\ decimal r (- v))) /\
  fst (int_range t) <= v <= snd (int_range t).
(** The types whose conversion computes in a signed type as wide as [int]. *)
Definition wide_signed (t : inttype) : Prop := In t [Int; Long; LLong].
