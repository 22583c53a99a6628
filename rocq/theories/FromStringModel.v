(** * Model of parameter conversion
    Source: /repo/include/cli/detail/fromstring.h (the default, non-boost branch,
    lines 54-281).

    Platform parameters:
    - [char_signed]: whether plain [char] is signed (x86: yes, many ARM ABIs: no);
    - [strict]: whether signed overflow is undefined behaviour (the C++ rule) or
      wraps around (what the usual compilers generate for this code);
    - [int] is 32 bits wide.  The width of the converted type is [w] bits. *)

From Verif Require Import Base.
Open Scope Z_scope.

Record platform := mkPlatform { char_signed : bool; strict : bool }.

(** Outcome of a conversion: a value, a thrown [bad_conversion]
    (fromstring.h:66-73) or undefined behaviour. *)
Inductive conv (A : Type) := COk (a : A) | CBad | CUB.
Arguments COk {A} a.
Arguments CBad {A}.
Arguments CUB {A}.

Definition cbind {A B} (x : conv A) (f : A -> conv B) : conv B :=
  match x with COk a => f a | CBad => CBad | CUB => CUB end.

(** Value of a byte as an [int], 0..255. *)
Definition code (c : ascii) : Z := Z.of_N (N_of_ascii c).

(** The ctype functions are only defined for [unsigned char] values and [EOF]
    (-1).  With signed [char] the bytes 128..254 become -128..-2: undefined. *)
Definition ctype_ok (p : platform) (c : ascii) : bool :=
  negb (char_signed p) || (code c <? 128) || (code c =? 255).

(** [std::isdigit(c)], called at fromstring.h:101, in the C locale; [None] is
    undefined behaviour. *)
Definition c_isdigit (p : platform) (c : ascii) : option bool :=
  if ctype_ok p c then Some ((48 <=? code c) && (code c <=? 57)) else None.

Definition space_code (c : ascii) : bool :=
  ((9 <=? code c) && (code c <=? 13)) || (code c =? 32).

(** [std::isspace(c)], called at fromstring.h:212, 229, 246. *)
Definition c_isspace (p : platform) (c : ascii) : option bool :=
  if ctype_ok p c then Some (space_code c) else None.

(** Conversion to an unsigned / signed type of [w] bits. *)
Definition wrapU (w x : Z) : Z := x mod 2 ^ w.
Definition wrapS (w x : Z) : Z :=
  let y := x mod 2 ^ w in if y <? 2 ^ (w - 1) then y else y - 2 ^ w.

(** Integral promotion: operands narrower than [int] are computed in [int]. *)
Definition narrow (w : Z) : bool := w <? 32.

(** fromstring.h:103-106  one iteration: the new [tmp], or [None] when the
    overflow test throws.  [result] is the accumulator, [digit] the new digit.
    Narrow types: exact [int] arithmetic, truncating division; wide types: arithmetic
    modulo 2^w. *)
Definition digit_step (w result digit : Z) : option Z :=
  let tmp := wrapU w (result * 10 + digit) in
  let back := if narrow w then Z.quot (tmp - digit) 10
              else wrapU w (tmp - digit) / 10 in
  if negb (result =? back) || (tmp <? result) then None else Some tmp.

(** fromstring.h:99-108 the loop of [unsigned_digits_from_string] *)
Fixpoint digits_loop (p : platform) (w result : Z) (s : str) : conv Z :=
  match s with
  | [] => COk result
  | c :: s' =>
      match c_isdigit p c with
      | None => CUB
      | Some false => CBad
      | Some true =>
          match digit_step w result (wrapU w (code c - 48)) with
          | None => CBad
          | Some tmp => digits_loop p w tmp s'
          end
      end
  end.

(** fromstring.h:93-110 [unsigned_digits_from_string] *)
Definition unsigned_digits (p : platform) (w : Z) (s : str) : conv Z :=
  match s with [] => CBad | _ => digits_loop p w 0 s end.

(** fromstring.h:112-122 [unsigned_from_string] *)
Definition unsigned_from_string (p : platform) (w : Z) (s : str) : conv Z :=
  match s with
  | [] => CBad
  | c :: r => if Ascii.eqb c "+" then unsigned_digits p w r else unsigned_digits p w s
  end.

(** Negation [-x] of a value of a signed type of [w] bits: computed in [int] for
    narrow types; for wide types the negation of the minimum overflows. *)
Definition neg (p : platform) (w x : Z) : conv Z :=
  if narrow w then COk (- x)
  else if x =? - 2 ^ (w - 1) then (if strict p then CUB else COk x)
  else COk (- x).

(** fromstring.h:124-147 [signed_from_string] *)
Definition signed_from_string (p : platform) (w : Z) (s : str) : conv Z :=
  match s with
  | [] => CBad
  | c :: r =>
      if Ascii.eqb c "-" then
        cbind (unsigned_digits p w r) (fun val =>
        let min := - 2 ^ (w - 1) in
        cbind (neg p w min) (fun nmin =>
        if wrapU w nmin <? val then CBad
        else cbind (neg p w (wrapS w val)) (fun x => COk (wrapS w x))))
      else
        let body := if Ascii.eqb c "+" then r else s in
        cbind (unsigned_digits p w body) (fun val =>
        if wrapU w (2 ^ (w - 1) - 1) <? val then CBad
        else COk (wrapS w val))
  end.

(** fromstring.h:187-196 [from_string<bool>]; [long long] is 64 bits wide. *)
Definition bool_from_string (p : platform) (s : str) : conv bool :=
  if str_eqb s (lit "true") then COk true
  else if str_eqb s (lit "false") then COk false
  else cbind (signed_from_string p 64 s) (fun value =>
       if value =? 1 then COk true else if value =? 0 then COk false else CBad).

(** fromstring.h:200-205 [from_string<char>] *)
Definition char_from_string (s : str) : conv ascii :=
  match s with [c] => COk c | _ => CBad end.

(** fromstring.h:78-82 [from_string<std::string>] *)
Definition string_from_string (s : str) : conv str := COk s.

(** [std::any_of(s.begin(), s.end(), isspace)], fromstring.h:212, 229, 246;
    stops at the first hit. *)
Fixpoint any_space (p : platform) (s : str) : option bool :=
  match s with
  | [] => Some false
  | c :: s' => match c_isspace p c with
               | None => None
               | Some true => Some true
               | Some false => any_space p s'
               end
  end.

(** fromstring.h:209-258 [from_string<float/double/long double>].  The C library
    ([std::stof], [stod], [stold]) is the oracle [sto]: [None] when it throws,
    otherwise the value and the number of characters converted. *)
Definition float_from_string {F} (p : platform) (sto : str -> option (F * nat)) (s : str) : conv F :=
  match any_space p s with
  | None => CUB
  | Some true => CBad
  | Some false =>
      match sto s with
      | None => CBad
      | Some (r, sz) => if Nat.eqb sz (length s) then COk r else CBad
      end
  end.

(** [interpreter >> std::ws] followed by [eof()], fromstring.h:270: true iff only
    white space is left.  The stream uses the [ctype] facet, defined for every
    [char]. *)
Definition ws_eof (rest : str) : bool := forallb space_code rest.

(** fromstring.h:262-274 the fallback for types with [operator>>].  The user's
    [operator>>] is the oracle [ext]: [None] when it sets failbit, otherwise the
    value and the characters it leaves in the stream. *)
Definition custom_from_string {T} (ext : str -> option (T * str)) (s : str) : conv T :=
  match ext s with
  | None => CBad
  | Some (v, rest) => if ws_eof rest then COk v else CBad
  end.

(** fromstring.h:151-183 the integer types and their widths (LP64).
    [signed char] and [unsigned char] are read as numbers. *)
Inductive inttype := SChar | Short | Int | Long | LLong | UChar | UShort | UInt | ULong | ULLong.

Definition int_width (t : inttype) : Z :=
  match t with
  | SChar | UChar => 8
  | Short | UShort => 16
  | Int | UInt => 32
  | Long | LLong | ULong | ULLong => 64
  end.
Definition int_signed (t : inttype) : bool :=
  match t with SChar | Short | Int | Long | LLong => true | _ => false end.

Definition int_from_string (p : platform) (t : inttype) (s : str) : conv Z :=
  if int_signed t then signed_from_string p (int_width t) s
  else unsigned_from_string p (int_width t) s.
