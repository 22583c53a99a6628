(** * Model of the conversion to floating point types
    Source: /repo/include/cli/detail/fromstring.h:209-258, [from_string<float>],
    [<double>] and [<long double>]: [float_from_string] of FromStringModel.v, with
    [std::stof], [stod] and [stold] as in libstdc++ and glibc (x86-64, C locale, rounding to
    nearest): [strtof], [strtod], [strtold], and an exception if nothing was converted
    or [errno] is [ERANGE], which is set on overflow and when the result is tiny and
    inexact.  Initial white space is skipped by these functions, but does not occur here (it was
    refused before): not modelled. *)

From Verif Require Import Base FromStringModel.
Open Scope Z_scope.

(** A binary format: bits of the significand, exponent of the smallest positive number,
    exponent of the first power of two beyond the largest. *)
Record ffmt := mkFfmt { f_prec : Z; f_min : Z; f_max : Z }.
Definition Float : ffmt := mkFfmt 24 (-149) 128.
Definition Double : ffmt := mkFfmt 53 (-1074) 1024.
Definition LongDouble : ffmt := mkFfmt 64 (-16445) 16384.

(** A value: NaN and infinity with their sign, or [n] times the smallest positive number. *)
Inductive real := RNaN (neg : bool) | RInf (neg : bool) | RNum (neg : bool) (n : Z).

(** What a text denotes, without its sign: [m * 10^e], [m * 2^e], ... *)
Inductive magnitude := MDec (m e : Z) | MHex (m e : Z) | MInf | MNaN.

(** ** Reading *)
Definition dec_dig (c : ascii) : option Z :=
  if (48 <=? code c) && (code c <=? 57) then Some (code c - 48) else None.
Definition hex_dig (c : ascii) : option Z :=
  if (48 <=? code c) && (code c <=? 57) then Some (code c - 48)
  else if (97 <=? code c) && (code c <=? 102) then Some (code c - 87)
  else if (65 <=? code c) && (code c <=? 70) then Some (code c - 55)
  else None.
(** As many digits as there are. *)
Fixpoint scan (dig : ascii -> option Z) (s : str) : list Z * str :=
  match s with
  | [] => ([], [])
  | c :: s' => match dig c with
               | Some d => let '(ds, r) := scan dig s' in (d :: ds, r)
               | None => ([], s)
               end
  end.
Definition num (b : Z) (ds : list Z) : Z := fold_left (fun a d => a * b + d) ds 0.

(** Digits with at most one point, at least one digit: the digits, how many are behind the
    point, the rest. *)
Definition mantissa (dig : ascii -> option Z) (s : str) : option (list Z * Z * str) :=
  let '(ip, r1) := scan dig s in
  let '(fp, r2) := match r1 with
                   | c :: r => if Ascii.eqb c "." then scan dig r else ([], r1)
                   | [] => ([], r1)
                   end in
  match ip ++ fp with [] => None | ds => Some (ds, Z.of_nat (length fp), r2) end.
Definition scan_sign (s : str) : bool * str :=
  match s with
  | c :: r => if Ascii.eqb c "-" then (true, r) else if Ascii.eqb c "+" then (false, r) else (false, s)
  | [] => (false, s)
  end.
(** An exponent, if there is a complete one. *)
Definition exponent (lo up : ascii) (s : str) : Z * str :=
  match s with
  | c :: r =>
      if Ascii.eqb c lo || Ascii.eqb c up then
        let '(neg, r1) := scan_sign r in
        match scan dec_dig r1 with
        | ([], _) => (0, s)
        | (ds, r2) => ((if neg then - num 10 ds else num 10 ds), r2)
        end
      else (0, s)
  | [] => (0, s)
  end.
Definition lower (c : ascii) : ascii :=
  if (65 <=? code c) && (code c <=? 90) then ascii_of_N (N_of_ascii c + 32) else c.
(** The rest behind a word, in any case. *)
Fixpoint word (w s : str) : option str :=
  match w, s with
  | [], _ => Some s
  | x :: w', c :: s' => if Ascii.eqb (lower c) x then word w' s' else None
  | _, [] => None
  end.
Definition n_char (c : ascii) : bool :=
  ((48 <=? code c) && (code c <=? 57)) || ((97 <=? code (lower c)) && (code (lower c) <=? 122)) || Ascii.eqb c "_".
Fixpoint skip_n_chars (s : str) : str :=
  match s with c :: s' => if n_char c then skip_n_chars s' else s | [] => [] end.

Definition hexadecimal (s : str) : option (magnitude * str) :=
  match s with
  | z :: x :: r =>
      if Ascii.eqb z "0" && Ascii.eqb (lower x) "x" then
        match mantissa hex_dig r with
        | Some (ds, n, r1) => let '(e, r2) := exponent "p" "P" r1 in Some (MHex (num 16 ds) (e - 4 * n), r2)
        | None => None
        end
      else None
  | _ => None
  end.
Definition magnitude_of (s : str) : option (magnitude * str) :=
  match word (lit "infinity") s with
  | Some r => Some (MInf, r)
  | None =>
  match word (lit "inf") s with
  | Some r => Some (MInf, r)
  | None =>
  match word (lit "nan") s with
  | Some r =>
      Some (MNaN, match r with
                  | c :: r1 => if Ascii.eqb c "(" then
                                 match skip_n_chars r1 with
                                 | d :: r2 => if Ascii.eqb d ")" then r2 else r
                                 | [] => r
                                 end
                               else r
                  | [] => r
                  end)
  | None =>
  match hexadecimal s with
  | Some x => Some x
  | None =>
      match mantissa dec_dig s with
      | Some (ds, n, r1) => let '(e, r2) := exponent "e" "E" r1 in Some (MDec (num 10 ds) (e - n), r2)
      | None => None
      end
  end end end end.

(** ** Rounding *)
(** [N/D] to the nearest number with [p] significant bits, and an even significand when
    there are two *)
Definition round_even (p N D : Z) : Z :=
  let q := N / D in
  let k := if q <? 2 ^ p then 0 else Z.log2 q + 1 - p in
  let D' := D * 2 ^ k in
  let m := N / D' in
  let r := N mod D' in
  (if 2 * r <? D' then m else if D' <? 2 * r then m + 1 else if Z.even m then m else m + 1) * 2 ^ k.
(** The fraction, in units of the smallest positive number *)
Definition in_units (f : ffmt) (m b e : Z) : Z * Z :=
  (m * b ^ Z.max e 0 * 2 ^ (- f_min f), b ^ Z.max (- e) 0).
(** [None]: [ERANGE]. Tiny: below the smallest normal number, after rounding to [f_prec]
    bits with any exponent. *)
Definition to_format (f : ffmt) (neg : bool) (m b e : Z) : option real :=
  let '(N, D) := in_units f m b e in
  let n := round_even (f_prec f) N D in
  if 2 ^ (f_max f - f_min f) <=? n then None
  else if (4 * N <? (2 ^ (f_prec f + 1) - 1) * D) && negb (n * D =? N) then None
  else Some (RNum neg n).
Definition convert (f : ffmt) (neg : bool) (g : magnitude) : option real :=
  match g with
  | MInf => Some (RInf neg)
  | MNaN => Some (RNaN neg)
  | MDec m e => to_format f neg m 10 e
  | MHex m e => to_format f neg m 2 e
  end.

(** [std::stof(s, &sz)], [stod], [stold]: the value and the number of characters
    converted. *)
Definition c_sto (f : ffmt) (s : str) : option (real * nat) :=
  let '(neg, r) := scan_sign s in
  match magnitude_of r with
  | None => None
  | Some (g, rest) => match convert f neg g with
                      | None => None
                      | Some v => Some (v, (length s - length rest)%nat)
                      end
  end.
(** fromstring.h:209-258 *)
Definition real_from_string (p : platform) (f : ffmt) (s : str) : conv real :=
  float_from_string p (c_sto f) s.
