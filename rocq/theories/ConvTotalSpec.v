(** * Specification of parameter conversion for every text and every platform *)

From Verif Require Import Base FromStringModel FromStringSpec.
Open Scope Z_scope.

(** A byte that is, as a signed [char], a negative number other than -1 ([EOF]). *)
Definition negative_byte (c : ascii) : Prop := (128 <= N_of_ascii c <= 254)%N.

(** Reading [s] as a number of [w] bits meets such a byte: it comes after digits (maybe
    none) whose value fits, and [char] is signed. *)
Definition stumbles (p : platform) (w : Z) (s : str) : Prop :=
  char_signed p = true /\
  exists ds v c rest, s = ds ++ c :: rest /\ digits ds v /\ v < 2 ^ w /\ negative_byte c.

(** Where the conversion to an unsigned or a signed type of [w] bits is undefined.  The
    last case: a negative number, where the overflow of the type is undefined. *)
Definition unsigned_undefined (p : platform) (w : Z) (s : str) : Prop :=
  stumbles p w s \/ exists r, s = "+"%char :: r /\ stumbles p w r.
Definition signed_undefined (p : platform) (w : Z) (s : str) : Prop :=
  unsigned_undefined p w s \/
  exists r, s = "-"%char :: r /\
    (stumbles p w r \/ (strict p = true /\ 32 <= w /\ exists v, decimal r v /\ v < 2 ^ w)).

(** For the ten integer types, with their widths. *)
Definition int_bits (t : inttype) : Z :=
  match t with
  | SChar | UChar => 8
  | Short | UShort => 16
  | Int | UInt => 32
  | Long | LLong | ULong | ULLong => 64
  end.
Definition int_undefined (p : platform) (t : inttype) (s : str) : Prop :=
  (In t [SChar; Short; Int; Long; LLong] /\ signed_undefined p (int_bits t) s) \/
  (In t [UChar; UShort; UInt; ULong; ULLong] /\ unsigned_undefined p (int_bits t) s).

(** Where the conversion to a floating point type is undefined. *)
Definition float_undefined (p : platform) (s : str) : Prop :=
  char_signed p = true /\
  exists pre c rest, s = pre ++ c :: rest /\ Forall (fun x => ~ white x) pre /\ negative_byte c.
