(** * Specification of the global output stream *)

From Verif Require Import Base OutStreamModel.
Open Scope nat_scope.
Open Scope list_scope.

(** The sessions use distinct streams, which exist while they are open: [opens] are
    the open sessions, [alive] the existing streams. *)
Fixpoint proper (opens alive : list nat) (os : list oop) : Prop :=
  match os with
  | [] => True
  | Open i :: os' => ~ In i opens /\ In i alive /\ proper (i :: opens) alive os'
  | Close i :: os' => In i opens /\ proper (remove Nat.eq_dec i opens) alive os'
  | Create i :: os' => ~ In i alive /\ proper opens (i :: alive) os'
  | Destroy i :: os' => In i alive /\ ~ In i opens /\ proper opens (remove Nat.eq_dec i alive) os'
  | Own i _ :: os' | Format i _ _ _ _ :: os' => In i alive /\ proper opens alive os'
  | _ :: os' => proper opens alive os'
  end.

(** No padding, no error state. *)
Definition plain_op (o : oop) : Prop :=
  match o with Format _ g w _ _ => g = true /\ w <= 1 | _ => True end.
Definition no_char (o : oop) : Prop := match o with Sputc _ => False | _ => True end.

(** The text a stream is to receive: its own, and what is broadcast while its session
    is open. *)
Fixpoint told (i : nat) (open : bool) (os : list oop) : str :=
  match os with
  | [] => []
  | Open j :: os' => told i (if Nat.eqb j i then true else open) os'
  | Close j :: os' => told i (if Nat.eqb j i then false else open) os'
  | Sputn s :: os' => (if open then s else []) ++ told i open os'
  | Sputc c :: os' => (if open then [c] else []) ++ told i open os'
  | Own j s :: os' => (if Nat.eqb j i then s else []) ++ told i open os'
  | _ :: os' => told i open os'
  end.

(** The same with the formatting of a stream: whether it is good, the pending width, the
    fill character and the adjustment.  Characters are padded to the width, which is
    then zero; strings are not. *)
Record fmt := mkFmt { f_good : bool; f_width : nat; f_fill : ascii; f_left : bool }.
Definition padded (f : fmt) (c : ascii) : str :=
  let pad := repeat (f_fill f) (f_width f - 1) in if f_left f then [c] ++ pad else pad ++ [c].
Fixpoint told_as (i : nat) (open : bool) (f : fmt) (os : list oop) : str :=
  match os with
  | [] => []
  | Open j :: os' => told_as i (if Nat.eqb j i then true else open) f os'
  | Close j :: os' => told_as i (if Nat.eqb j i then false else open) f os'
  | Sputn s :: os' => (if open then s else []) ++ told_as i open f os'
  | Sputc c :: os' =>
      if open && f_good f then padded f c ++ told_as i open (mkFmt true 0 (f_fill f) (f_left f)) os' else told_as i open f os'
  | Own j s :: os' => (if Nat.eqb j i then s else []) ++ told_as i open f os'
  | Format j g w fl l :: os' => told_as i open (if Nat.eqb j i then mkFmt g w fl l else f) os'
  | _ :: os' => told_as i open f os'
  end.
