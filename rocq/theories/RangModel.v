(** * Model of coloured output: detection of terminals, colour codes, formatting
    Sources: /repo/include/cli/detail/rang.h (Linux and macOS branches) and
    colorprofile.h.  Streams are in a good state and accept all characters; the
    locale is "C"; the environment variable has no NUL inside. *)

From Verif Require Import Base TerminalModel.
Open Scope nat_scope.
Open Scope list_scope.

(** ** Formatting of [std::ostream] (the C++ standard, [ostream.formatted]) *)
Inductive radix := Dec | Oct | Hex.
Inductive adjust := ALeft | AInternal | ARight.
Record fmt := mkFmt { f_base : radix; f_showbase : bool; f_showpos : bool; f_upper : bool;
  f_width : nat; f_fill : ascii; f_adjust : adjust }.
Definition plain_fmt : fmt := mkFmt Dec false false false 0 " "%char ARight.
Definition no_width (f : fmt) : fmt :=
  mkFmt (f_base f) (f_showbase f) (f_showpos f) (f_upper f) 0 (f_fill f) (f_adjust f).

(** Digits of a number, least significant first, and their characters. *)
Fixpoint digits_of (fuel : nat) (b n : N) : list N :=
  match fuel with
  | O => []
  | S k => if N.eqb n 0 then [] else N.modulo n b :: digits_of k b (N.div n b)
  end.
Definition digit_char (upper : bool) (d : N) : ascii :=
  chr (if N.ltb d 10 then 48 + d else (if upper then 55 else 87) + d)%N.
Definition in_base (b : N) (upper : bool) (n : N) : str :=
  match rev (digits_of (N.to_nat (N.size n)) b n) with [] => lit "0" | l => map (digit_char upper) l end.

Definition padding (f : fmt) (n : nat) : str := repeat (f_fill f) (f_width f - n).
(** [os << s] *)
Definition put_str (f : fmt) (s : str) : str :=
  match f_adjust f with ALeft => s ++ padding f (length s) | _ => padding f (length s) ++ s end.
(** [os << n] for a non-negative [int]: sign or base, then digits. *)
Definition number_parts (f : fmt) (n : N) : str * str :=
  match f_base f with
  | Dec => (if f_showpos f then lit "+" else [], print_N n)
  | Oct => (if f_showbase f && negb (N.eqb n 0) then lit "0" else [], in_base 8 (f_upper f) n)
  | Hex => (if f_showbase f && negb (N.eqb n 0) then (if f_upper f then lit "0X" else lit "0x") else [],
            in_base 16 (f_upper f) n)
  end.
Definition put_int (f : fmt) (n : N) : str :=
  let (pre, ds) := number_parts f n in
  let pad := padding f (length (pre ++ ds)) in
  match f_adjust f with
  | ALeft => pre ++ ds ++ pad
  | AInternal => pre ++ pad ++ ds
  | ARight => pad ++ pre ++ ds
  end.

(** rang.h:250-255 [setColor]; the first insertion uses up the width. *)
Definition set_color (f : fmt) (n : N) : str :=
  put_str f ["027"; "["]%char ++ put_int (no_width f) n ++ put_str (no_width f) ["m"%char].

(** ** The program *)
(** A stream: its buffer, its [iword] (rang.h:119-123), its formatting, and what it wrote. *)
Record stream := mkStream { st_buf : nat; st_force : bool; st_fmt : fmt; st_text : str }.
(** The static variables: the buffers taken for those of [std::cout], [std::cerr] and
    [std::clog] (rang.h:101-117), [result] (rang.h:139-142), [Color()] (colorprofile.h:38). *)
Record prog := mkProg {
  pg_streams : nat -> stream;             (* 0, 1, 2: [std::cout], [std::cerr], [std::clog] *)
  pg_cout : option nat; pg_cerr : option nat; pg_clog : option nat;
  pg_result : option bool; pg_color : bool;
  pg_term : option str }.                 (* the environment variable TERM *)

Definition set_streams (m : nat -> stream) (p : prog) : prog :=
  mkProg m (pg_cout p) (pg_cerr p) (pg_clog p) (pg_result p) (pg_color p) (pg_term p).
Definition upd (i : nat) (s : stream) (p : prog) : prog :=
  set_streams (fun j => if Nat.eqb j i then s else pg_streams p j) p.
Definition set_result (r : option bool) (p : prog) : prog :=
  mkProg (pg_streams p) (pg_cout p) (pg_cerr p) (pg_clog p) r (pg_color p) (pg_term p).
Definition set_bufs (a b c : option nat) (p : prog) : prog :=
  mkProg (pg_streams p) a b c (pg_result p) (pg_color p) (pg_term p).
Definition set_flag (b : bool) (p : prog) : prog :=
  mkProg (pg_streams p) (pg_cout p) (pg_cerr p) (pg_clog p) (pg_result p) b (pg_term p).
Definition set_term (t : option str) (p : prog) : prog :=
  mkProg (pg_streams p) (pg_cout p) (pg_cerr p) (pg_clog p) (pg_result p) (pg_color p) t.

(** [std::strstr] *)
Fixpoint strstr (s t : str) : bool :=
  starts_with t s || match s with [] => false | _ :: s' => strstr s' t end.
(** rang.h:129-132 *)
Definition terms : list str :=
  map lit ["ansi"; "color"; "console"; "cygwin"; "gnome"; "konsole"; "kterm";
           "linux"; "msys"; "putty"; "rxvt"; "screen"; "vt100"; "xterm"]%string.
(** rang.h:126-148 [supportsColor]: the result is computed once. *)
Definition supports_color (p : prog) : bool * prog :=
  match pg_term p with
  | None => (false, p)
  | Some t =>
      match pg_result p with
      | Some r => (r, p)
      | None => let r := existsb (strstr t) terms in (r, set_result (Some r) p)
      end
  end.

(** A static variable initialised by the first use. *)
Definition once (o : option nat) (v : nat) : nat := match o with Some b => b | None => v end.
Section Terminals.
(** Whether the standard output and the standard error are terminals. *)
Context (out_tty err_tty : bool).

(** rang.h:151-169 [isTerminal] *)
Definition is_terminal (buf : nat) (p : prog) : bool * prog :=
  let c := once (pg_cout p) (st_buf (pg_streams p 0)) in
  let p1 := set_bufs (Some c) (pg_cerr p) (pg_clog p) p in
  if Nat.eqb buf c then (out_tty, p1)
  else
    let e := once (pg_cerr p) (st_buf (pg_streams p 1)) in
    let p2 := set_bufs (Some c) (Some e) (pg_clog p) p in
    if Nat.eqb buf e then (err_tty, p2)
    else
      let g := once (pg_clog p) (st_buf (pg_streams p 2)) in
      let p3 := set_bufs (Some c) (Some e) (Some g) p in
      (if Nat.eqb buf g then err_tty else false, p3).

(** rang.h:271-281 [operator<<] for colours and styles *)
Definition write (i : nat) (s : str) (p : prog) : prog :=
  let o := pg_streams p i in
  upd i (mkStream (st_buf o) (st_force o) (no_width (st_fmt o)) (st_text o ++ s)) p.
Definition put_color (i : nat) (n : N) (p : prog) : prog :=
  let o := pg_streams p i in
  if st_force o then write i (set_color (st_fmt o) n) p
  else
    let (sup, p1) := supports_color p in
    if sup then
      let (t, p2) := is_terminal (st_buf o) p1 in
      if t then write i (set_color (st_fmt o) n) p2 else p2
    else p1.
(** rang.h:283-293 [operator<<] for [control::forceColor] *)
Definition force_color (i : nat) (p : prog) : prog :=
  let o := pg_streams p i in upd i (mkStream (st_buf o) true (st_fmt o) (st_text o)) p.

(** colorprofile.h:48-70; rang.h:37-94 for the numbers *)
Inductive mark := BeforePrompt | AfterPrompt | BeforeInput | AfterInput.
Definition put_mark (i : nat) (k : mark) (p : prog) : prog :=
  match k with
  | BeforePrompt => if pg_color p then put_color i 1 (put_color i 32 (force_color i p)) else p
  | BeforeInput => if pg_color p then put_color i 97 (force_color i p) else p
  | AfterPrompt | AfterInput => put_color i 0 p
  end.

(** What a program does: marks are written to streams, [SetColor] and [SetNoColor] are
    called (colorprofile.h:40-41), streams get another buffer ([rdbuf]) or formatting,
    text is written, the environment is changed. *)
Inductive ract :=
| RMark (i : nat) (k : mark) | RFlag (b : bool)
| RBuf (i buf : nat) | RFmt (i : nat) (f : fmt) | RText (i : nat) (s : str) | RTerm (t : option str).
Definition r_step (p : prog) (a : ract) : prog :=
  match a with
  | RMark i k => put_mark i k p
  | RFlag b => set_flag b p
  | RBuf i b => let o := pg_streams p i in upd i (mkStream b (st_force o) (st_fmt o) (st_text o)) p
  | RFmt i f => let o := pg_streams p i in upd i (mkStream (st_buf o) (st_force o) f (st_text o)) p
  | RText i s => write i (put_str (st_fmt (pg_streams p i)) s) p
  | RTerm t => set_term t p
  end.
Definition r_run (l : list ract) (p : prog) : prog := fold_left r_step l p.
End Terminals.

(** The program starts: each stream with a buffer of its own, the flag false (38). *)
Definition rang_init (bufs : nat -> nat) (t : option str) : prog :=
  mkProg (fun i => mkStream (bufs i) false plain_fmt []) None None None None false t.
