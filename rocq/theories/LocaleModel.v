(** * Model of what depends on the C locale
    Source: the calls of [std::isspace] at /repo/include/cli/cli.h:614, 963 and
    detail/fromstring.h:212, 229, 246, and of [std::stof], [stod], [stold] at
    fromstring.h:216, 233, 250, when the program has called [setlocale].  [std::isdigit]
    (fromstring.h:101) is the same in all locales, and nothing else in the library asks
    for the locale (detail/split.h compares characters).
    Definitions are those of CompletionModel.v, FromStringModel.v and FloatModel.v with the
    locale as a parameter. *)

From Verif Require Import Base FromStringModel MenuModel SessionModel CompletionModel FloatModel.
Open Scope nat_scope.
Open Scope list_scope.

(** The characters that are white, as [unsigned char], and the decimal point: one
    character (locales whose point has several are not modelled; grouping is not used by
    [strtod]). *)
Record locale := mkLocale { lc_space : ascii -> bool; lc_point : ascii }.
Definition classic : locale := mkLocale space_code "."%char.

Section Locale.
Context (L : locale) (P : platform).

(** [std::isspace(c)]: where char is signed the byte 255 is [EOF], which is not white. *)
Definition l_isspace (c : ascii) : option bool :=
  if ctype_ok P c then Some (lc_space L c && negb (char_signed P && (code c =? 255)%Z)) else None.

(** ** Completion *)
(** cli.h:614, 963 *)
Fixpoint l_trim (s : str) : option str :=
  match s with
  | [] => Some []
  | c :: s' => match l_isspace c with None => None | Some true => l_trim s' | Some false => Some s end
  end.
(** cli.h:570-578, 594-607, 609-629 *)
Fixpoint l_completion (fuel : nat) (up : bool) (line : str) (ctx : list cmd) : gres :=
  match fuel with
  | O => GFuel
  | S n =>
      match ctx with
      | CMenu id name en desc pr kids :: anc =>
          let inside (prefix : str) :=
            match l_trim (skipn (length prefix) line) with
            | None => GUB
            | Some rest =>
                g_map (map (fun c => prefix ++ " "%char :: c))
                  (g_app
                     (g_all (fun k => match k with
                                      | CMenu _ _ _ _ _ _ => l_completion n false rest (k :: ctx)
                                      | _ => GOk (name_completion k rest)
                                      end) kids)
                     (match anc with [] => GOk [] | _ => l_completion n true rest anc end))
            end in
          if starts_with name line then inside name
          else if up && starts_with (lit "..") line then inside (lit "..")
          else GOk (name_completion (CMenu id name en desc pr kids) line)
      | _ => GOk []
      end
  end.
(** cli.h:544-553, 286-303 *)
Definition l_completions (fuel : nat) (line : str) (ctx : list cmd) : gres :=
  match ctx with
  | [] => GOk []
  | m :: anc =>
      g_app
        (g_all (fun k => match k with
                         | CMenu _ _ _ _ _ _ => l_completion fuel false line (k :: ctx)
                         | _ => GOk (name_completion k line)
                         end) (cmd_kids m))
        (match anc with [] => GOk [] | _ => l_completion fuel true line anc end)
  end.
(** cli.h:960-974 *)
Definition l_get_completions (fuel : nat) (line : str) (w : world) : gres :=
  match l_trim line with
  | None => GUB
  | Some l =>
      g_map (fun v => unique (sort v))
        (g_app (l_completions fuel l [global_menu])
               (match locate (w_cur w) [] (w_root w) with
                | None => GUB
                | Some ctx => l_completions fuel l ctx
                end))
  end.

(** ** Floating point parameters *)
(** fromstring.h:212, 229, 246 *)
Fixpoint l_any_space (s : str) : option bool :=
  match s with
  | [] => Some false
  | c :: s' => match l_isspace c with None => None | Some true => Some true | Some false => l_any_space s' end
  end.
(** As [mantissa] of FloatModel.v: the point is that of the locale. *)
Definition l_mantissa (dig : ascii -> option Z) (s : str) : option (list Z * Z * str) :=
  let '(ip, r1) := scan dig s in
  let '(fp, r2) := match r1 with
                   | c :: r => if Ascii.eqb c (lc_point L) then scan dig r else ([], r1)
                   | [] => ([], r1)
                   end in
  match ip ++ fp with [] => None | ds => Some (ds, Z.of_nat (length fp), r2) end.
Definition l_hexadecimal (s : str) : option (magnitude * str) :=
  match s with
  | z :: x :: r =>
      if Ascii.eqb z "0" && Ascii.eqb (lower x) "x" then
        match l_mantissa hex_dig r with
        | Some (ds, n, r1) => let '(e, r2) := exponent "p" "P" r1 in Some (MHex (num 16 ds) (e - 4 * n)%Z, r2)
        | None => None
        end
      else None
  | _ => None
  end.
Definition l_magnitude (s : str) : option (magnitude * str) :=
  match word (lit "infinity") s with
  | Some r => Some (MInf, r)
  | None =>
  match word (lit "inf") s with
  | Some r => Some (MInf, r)
  | None =>
  match word (lit "nan") s with
  | Some r =>
      Some (MNaN, match r with
                  | c :: r1 => if Ascii.eqb c "(" then
                                 match skip_n_chars r1 with
                                 | d :: r2 => if Ascii.eqb d ")" then r2 else r
                                 | [] => r
                                 end
                               else r
                  | [] => r
                  end)
  | None =>
  match l_hexadecimal s with
  | Some x => Some x
  | None =>
      match l_mantissa dec_dig s with
      | Some (ds, n, r1) => let '(e, r2) := exponent "e" "E" r1 in Some (MDec (num 10 ds) (e - n)%Z, r2)
      | None => None
      end
  end end end end.
Definition l_sto (f : ffmt) (s : str) : option (real * nat) :=
  let '(neg, r) := scan_sign s in
  match l_magnitude r with
  | None => None
  | Some (g, rest) => match convert f neg g with
                      | None => None
                      | Some v => Some (v, length s - length rest)
                      end
  end.
(** fromstring.h:209-258 *)
Definition l_real (f : ffmt) (s : str) : conv real :=
  match l_any_space s with
  | None => CUB
  | Some true => CBad
  | Some false =>
      match l_sto f s with
      | None => CBad
      | Some (r, sz) => if Nat.eqb sz (length s) then COk r else CBad
      end
  end.
End Locale.
