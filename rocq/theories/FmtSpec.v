(** * Specification of formatted output *)

From Verif Require Import Base HistorySpec RangModel FmtModel.
Open Scope nat_scope.
Open Scope list_scope.

(** [s] is the number [n] in base [b], without leading zeros. *)
Definition hexdigits (upper : bool) : str := if upper then lit "0123456789ABCDEF" else lit "0123456789abcdef".
Definition value (b : N) (l : list N) : N := fold_left (fun a d => (a * b + d)%N) l 0%N.
Definition numeral (b : N) (upper : bool) (n : N) (s : str) : Prop :=
  exists l, value b l = n /\ Forall (fun d => (d < b)%N) l /\ l <> [] /\ (hd 1%N l = 0%N -> l = [0%N]) /\
            map Some s = map (fun d => nth_error (hexdigits upper) (N.to_nat d)) l.
Definition base_of (r : radix) : N := match r with Dec => 10 | Oct => 8 | Hex => 16 end%N.
(** What stands before the digits. *)
Definition prefix_of (f : fmt) (signed : bool) (n : N) : str :=
  match f_base f with
  | Dec => if f_showpos f && signed then lit "+" else []
  | Oct => if f_showbase f && negb (N.eqb n 0) then lit "0" else []
  | Hex => if f_showbase f && negb (N.eqb n 0) then lit (if f_upper f then "0X" else "0x") else []
  end.
(** The text of a number: padded to the width on the left, on the right or in the middle. *)
Definition number_text (f : fmt) (signed : bool) (n : N) (s : str) : Prop :=
  exists ds k, numeral (base_of (f_base f)) (f_upper f) n ds /\
    (let pre := prefix_of f signed n in
     k = f_width f - length (pre ++ ds) /\
     s = match f_adjust f with
         | ALeft => pre ++ ds ++ repeat (f_fill f) k
         | AInternal => pre ++ repeat (f_fill f) k ++ ds
         | ARight => repeat (f_fill f) k ++ pre ++ ds
         end).
(** The text of a string. *)
Definition string_text (f : fmt) (s t : str) : Prop :=
  let fill := repeat (f_fill f) (f_width f - length s) in
  match f_adjust f with ALeft => t = s ++ fill | _ => t = fill ++ s end.

(** Texts without numbers. *)
Definition text_of (p : piece) : str := match p with InsStr s => s | _ => [] end.
Definition texts (l : list piece) : Prop := Forall (fun p => match p with InsStr _ | InsFlush => True | _ => False end) l.

(** A line of the history. *)
Definition line_text (f : fmt) (e : entry) (t : str) : Prop :=
  exists num, number_text f false (Z.to_N (fst e)) num /\ t = num ++ ["009"%char] ++ snd e ++ ["010"%char].
