(** * Base: byte strings and outcomes

    Shared vocabulary of the model.  A C++ [std::string] is a finite sequence of
    bytes ([char]); we use [list ascii] (256 values).  Nothing here models a
    particular function of /repo. *)

From Coq Require Export Ascii String.
From Coq Require Export List Arith ZArith NArith Bool Lia Permutation.
From Coq Require Import DecimalString.
Export ListNotations.
Open Scope list_scope.

Notation str := (list ascii).

(** String literals: [lit "abc"]. *)
Definition lit (s : string) : str := list_ascii_of_string s.
Arguments lit s%string.

Definition byte_of (c : ascii) : N := N_of_ascii c.
Definition chr (n : N) : ascii := ascii_of_N n.

(** Equality test of strings ([std::string::operator==]). *)
Fixpoint str_eqb (a b : str) : bool :=
  match a, b with
  | [], [] => true
  | x :: a', y :: b' => Ascii.eqb x y && str_eqb a' b'
  | _, _ => false
  end.

Lemma str_eqb_spec a b : reflect (a = b) (str_eqb a b).
Proof.
  revert b; induction a as [|x a IH]; intros [|y b]; simpl;
    try (constructor; congruence).
  destruct (Ascii.eqb_spec x y) as [->|Hn]; simpl.
  - destruct (IH b) as [->|Hn]; constructor; congruence.
  - constructor; congruence.
Qed.

Lemma str_eqb_refl a : str_eqb a a = true.
Proof. destruct (str_eqb_spec a a); congruence. Qed.

Lemma str_eqb_eq a b : str_eqb a b = true <-> a = b.
Proof. destruct (str_eqb_spec a b); split; congruence. Qed.

Lemma str_eqb_neq a b : str_eqb a b = false <-> a <> b.
Proof. destruct (str_eqb_spec a b); split; congruence. Qed.

Definition str_dec (a b : str) : {a = b} + {a <> b} := list_eq_dec ascii_dec a b.

(** [starts_with p s]: [s.rfind(p, 0) == 0]. *)
Fixpoint starts_with (p s : str) : bool :=
  match p, s with
  | [], _ => true
  | x :: p', y :: s' => Ascii.eqb x y && starts_with p' s'
  | _ :: _, [] => false
  end.

Lemma starts_with_spec p s : starts_with p s = true <-> exists r, s = p ++ r.
Proof.
  revert s; induction p as [|x p IH]; intros s; simpl.
  - split; [exists s; reflexivity|reflexivity].
  - destruct s as [|y s].
    + split; [discriminate|]. intros [r Hr]; discriminate.
    + rewrite andb_true_iff, IH, Ascii.eqb_eq. split.
      * intros [-> [r ->]]. exists r; reflexivity.
      * intros [r Hr]. injection Hr as -> ->. split; [reflexivity|exists r; reflexivity].
Qed.

(** ASCII (7 bit) strings. *)
Definition is_ascii7 (c : ascii) : bool := N.ltb (byte_of c) 128.
Definition ascii7 (s : str) : bool := forallb is_ascii7 s.

(** Last [n] elements of a list. *)
Definition lastn {A} (n : nat) (l : list A) : list A := skipn (length l - n) l.

Lemma lastn_length {A} n (l : list A) : length (lastn n l) = Nat.min n (length l).
Proof. unfold lastn. rewrite skipn_length. lia. Qed.

Lemma lastn_all {A} n (l : list A) : length l <= n -> lastn n l = l.
Proof. intros H. unfold lastn. replace (length l - n) with 0 by lia. reflexivity. Qed.

Lemma skipn_skipn' {A} a b (l : list A) : skipn a (skipn b l) = skipn (b + a) l.
Proof.
  revert l; induction b as [|b IH]; intros l; simpl; [reflexivity|].
  destruct l as [|x l]; simpl.
  - destruct a; reflexivity.
  - apply IH.
Qed.

Lemma lastn_app_lastn {A} n (l m : list A) : lastn n (lastn n l ++ m) = lastn n (l ++ m).
Proof.
  unfold lastn at 1. rewrite app_length, lastn_length.
  unfold lastn. rewrite app_length.
  destruct (Nat.le_gt_cases (length l) n) as [Hl|Hl].
  - replace (length l - n) with 0 by lia. simpl.
    f_equal. lia.
  - rewrite Nat.min_l by lia.
    set (k := length l - n).
    replace (n + length m - n) with (length m) by lia.
    replace (length l + length m - n) with (k + length m) by lia.
    rewrite <- skipn_skipn'.
    f_equal. rewrite skipn_app.
    replace (k - length l) with 0 by lia. reflexivity.
Qed.

(** Decimal text of a natural number, by the standard library's printer (what
    [std::ostream << std::size_t] prints in the classic locale). *)
Definition print_N (n : N) : str := lit (NilZero.string_of_uint (N.to_uint n)).
