(** * Specification of what depends on the locale *)

From Verif Require Import Base FromStringModel CompletionSpec KeyUBSpec ConvTotalSpec FromStringSpec LocaleModel.
Open Scope nat_scope.
Open Scope list_scope.

(** Locales whose characters include ASCII, with its white characters, in which byte 255
    is not white, and whose decimal point is an ASCII character that is neither white nor
    occurs in numbers otherwise. *)
Definition number_char (c : ascii) : Prop :=
  (48 <= code c <= 57)%Z \/ (65 <= code c <= 90)%Z \/ (97 <= code c <= 122)%Z \/ In c ["+"; "-"; "_"; "("; ")"]%char.
Definition usual (L : locale) : Prop :=
  (forall c, (code c < 128)%Z -> lc_space L c = CompletionSpec.white c) /\ lc_space L "255"%char = false /\
  (code (lc_point L) < 128)%Z /\ CompletionSpec.white (lc_point L) = false /\ ~ number_char (lc_point L).

(** The text with the roles of this character and the full stop exchanged. *)
Definition exchange (d c : ascii) : ascii :=
  if Ascii.eqb c d then "."%char else if Ascii.eqb c "." then d else c.
Definition exchanged (d : ascii) (s : str) : str := map (exchange d) s.

(** Characters white in this locale only. *)
Definition extra_white (L : locale) (c : ascii) : Prop := lc_space L c = true /\ CompletionSpec.white c = false.
