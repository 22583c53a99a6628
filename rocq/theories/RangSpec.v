(** * Specification of coloured output *)

From Verif Require Import Base TerminalModel RangModel.
Open Scope nat_scope.
Open Scope list_scope.

(** The terminal is known to support colours. *)
Definition colour_term (t : option str) : Prop :=
  exists s a name b, t = Some s /\ s = a ++ name ++ b /\
    In name [lit "ansi"; lit "color"; lit "console"; lit "cygwin"; lit "gnome"; lit "konsole"; lit "kterm";
             lit "linux"; lit "msys"; lit "putty"; lit "rxvt"; lit "screen"; lit "vt100"; lit "xterm"].
(** A buffer writes to a terminal: it is the one of the standard output, or of the
    standard error or log. *)
Definition on_terminal (bufs : nat -> nat) (out_tty err_tty : bool) (b : nat) : Prop :=
  (b = bufs 0 /\ out_tty = true) \/
  (b <> bufs 0 /\ (b = bufs 1 \/ b = bufs 2) /\ err_tty = true).

(** What the program did, as far as it matters: the last value of the colour flag, the
    buffer of a stream, and whether colours were ever asked for on a stream while the flag was set. *)
Fixpoint flag_after (l : list ract) : bool :=      (* latest action first *)
  match l with [] => false | RFlag b :: _ => b | _ :: l' => flag_after l' end.
Fixpoint buf_after (bufs : nat -> nat) (i : nat) (l : list ract) : nat :=
  match l with
  | [] => bufs i
  | RBuf j b :: l' => if Nat.eqb j i then b else buf_after bufs i l'
  | _ :: l' => buf_after bufs i l'
  end.
Definition colouring (k : mark) : Prop := k = BeforePrompt \/ k = BeforeInput.
Definition was_coloured (i : nat) (l : list ract) : Prop :=
  exists l2 k l1, l = l2 ++ RMark i k :: l1 /\ colouring k /\ flag_after l1 = true.

(** The environment and the buffers of the standard streams are left alone. *)
Definition calm (a : ract) : Prop :=
  match a with RTerm _ => False | RBuf i _ => 3 <= i | _ => True end.
(** Formatting that does not affect the colour codes. *)
Definition harmless (f : fmt) : Prop := f_base f = Dec /\ f_showpos f = false /\ f_width f <= 2.
(** The formatting that was last set on a stream, or the one of a new stream.  Its
    width is used up by what is printed. *)
Fixpoint fmt_after (i : nat) (l : list ract) : fmt :=      (* latest action first *)
  match l with
  | [] => mkFmt Dec false false false 0 " "%char ARight
  | RFmt j f :: l' => if Nat.eqb j i then f else fmt_after i l'
  | _ :: l' => fmt_after i l'
  end.
Definition up_to_width (f g : fmt) : Prop :=
  f = g \/ f = mkFmt (f_base g) (f_showbase g) (f_showpos g) (f_upper g) 0 (f_fill g) (f_adjust g).

(** What a mark writes: codes of prompts and input when the flag is set; resetting
    whenever colours were used on the stream, or might be shown. *)
Definition esc_code (n : string) : str := "027"%char :: "["%char :: lit n ++ lit "m".
Definition mark_writes (flag : bool) (may : Prop) (k : mark) (s : str) : Prop :=
  match k with
  | BeforePrompt => s = if flag then esc_code "32" ++ esc_code "1" else []
  | BeforeInput => s = if flag then esc_code "97" else []
  | AfterPrompt | AfterInput => (may -> s = esc_code "0") /\ (~ may -> s = [])
  end.

(** Codes are for the user of the stream: they were asked for, or the stream writes to
    a terminal that supports them. *)
Definition may (out_tty err_tty : bool) (bufs : nat -> nat) (t : option str) (i : nat) (l : list ract) : Prop :=
  was_coloured i l \/ (colour_term t /\ on_terminal bufs out_tty err_tty (buf_after bufs i l)).
