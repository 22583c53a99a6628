(** * C99: parameter conversion for every text and every platform *)

From Verif Require Import Base FromStringModel FromStringSpec ConvTotalSpec ConvTotalProofs.
Open Scope Z_scope.

(** C99: unsigned types; no hypothesis about the text. *)
Theorem C99_unsigned : forall p w s, 8 <= w ->
  (forall v, unsigned_from_string p w s = COk v <-> unsigned_text w s v) /\
  (unsigned_from_string p w s = CUB <-> unsigned_undefined p w s).
Proof. exact unsigned_total. Qed.
Print Assumptions C99_unsigned.

(** Signed types, whether or not their overflow is defined. *)
Theorem C99_signed : forall p w s, 8 <= w ->
  (forall v, signed_from_string p w s = COk v <-> signed_text w s v /\ ~ signed_undefined p w s) /\
  (signed_from_string p w s = CUB <-> signed_undefined p w s).
Proof. exact signed_total. Qed.
Print Assumptions C99_signed.

(** The ten integer types of the library. *)
Theorem C99_types : forall p t s,
  (forall v, int_from_string p t s = COk v <-> int_text t s v /\ ~ int_undefined p t s) /\
  (int_from_string p t s = CUB <-> int_undefined p t s).
Proof. exact int_total. Qed.
Print Assumptions C99_types.

Theorem C99_bool : forall p s,
  (forall b, bool_from_string p s = COk b <->
     (b = true /\ (s = lit "true" \/ integer_text s 1) \/ b = false /\ (s = lit "false" \/ integer_text s 0)) /\
     ~ signed_undefined p 64 s) /\
  (bool_from_string p s = CUB <-> signed_undefined p 64 s).
Proof. exact bool_total. Qed.
Print Assumptions C99_bool.

Theorem C99_float : forall F (sto : str -> option (F * nat)) p s,
  (forall r, float_from_string p sto s = COk r <->
     (Forall (fun c => ~ white c) s /\ sto s = Some (r, length s)) /\ ~ float_undefined p s) /\
  (float_from_string p sto s = CUB <-> float_undefined p s).
Proof. exact float_total. Qed.
Print Assumptions C99_float.

(** Where [char] is unsigned and overflow wraps nothing is undefined. *)
Theorem C99_defined : forall p t s, char_signed p = false -> strict p = false -> ~ int_undefined p t s.
Proof. exact never_undefined. Qed.
Print Assumptions C99_defined.

(** The byte 255 is [EOF]: rejected, not undefined; after too many digits nothing is. *)
Example C99_nonvacuous :
  let p := mkPlatform true true in
  int_undefined p UChar (lit "12" ++ ["254"%char]) /\ int_from_string p UChar (lit "12" ++ ["254"%char]) = CUB /\
  int_from_string p UChar (lit "12" ++ ["255"%char]) = CBad /\
  int_from_string p UChar (lit "256" ++ ["254"%char]) = CBad /\
  int_from_string p Int (lit "-5") = CUB /\ int_from_string p Short (lit "-5") = COk (-5) /\
  bool_from_string p (lit "-0") = CUB /\
  float_from_string (F:=Z) p (fun _ => None) (lit "1 " ++ ["254"%char]) = CBad /\
  float_from_string (F:=Z) p (fun _ => None) (lit "1" ++ ["254"%char]) = CUB.
Proof.
  cbn zeta. split; [|vm_compute; repeat split].
  right. split; [left; reflexivity|]. left. split; [reflexivity|].
  exists (lit "12"), (1 * 10 ^ 1 + (2 * 10 ^ 0 + 0)), "254"%char, []. split; [reflexivity|].
  split; [|split; [reflexivity|unfold negative_byte; vm_compute; split; discriminate]].
  constructor; [split; [lia|reflexivity]|]. constructor; [split; [lia|reflexivity]|]. constructor.
Qed.
