(** * C01-C04: properties of the tokeniser *)

From Verif Require Import Base SplitModel SplitSpec SplitProofs.

(** Solves the well-formedness side conditions of the examples below. *)
Ltac wf_example :=
  unfold wf_line; cbn [munch wf_tail is_bare is_bare_tail];
  repeat match goal with
         | |- Forall _ _ => constructor
         | |- _ /\ _ => split
         | |- wf_item _ => cbn [wf_item]
         | |- bare_piece _ => cbn [bare_piece]
         | |- sentence_piece _ _ => cbn [sentence_piece]
         | |- ~ blank _ => intros [?H|[?H|?H]]; discriminate
         | |- ~ quote _ => intros [?H|?H]; discriminate
         end; unfold blank, quote; try discriminate; auto.

(** C01: for every byte string the tokeniser returns normally (no [back()] on
    an empty vector) and returns no empty token. *)
Theorem C01_split_safe : forall s,
  exists toks, split s = Some toks /\ ~ In [] toks.
Proof. exact split_safe. Qed.
Print Assumptions C01_split_safe.

(** C02: a list of non-empty arguments, each quoted with either quote sign and
    separated by arbitrary runs of blanks (even empty), is tokenised back. *)
Theorem C02_quoting_round_trip : forall args final,
  Forall (fun x => match x with (sep, q, a) => Forall blank sep /\ quote q /\ a <> [] end) args ->
  Forall blank final ->
  split (quoted_line args final) = Some (map snd args).
Proof. exact quoting_round_trip_nonempty. Qed.
Print Assumptions C02_quoting_round_trip.

(** C02, without the non-emptiness condition: empty arguments are dropped (so
    an empty argument cannot be passed to a command). *)
Theorem C02_quoting_any : forall args final,
  Forall (fun x => match x with (sep, q, a) => Forall blank sep /\ quote q end) args ->
  Forall blank final ->
  split (quoted_line args final) = Some (nonempty (map snd args)).
Proof. exact quoting_round_trip. Qed.
Print Assumptions C02_quoting_any.

Example C02_nonvacuous :
  let args := [(lit "", """"%char, lit "say ""hi"" \o/"); (lit "  ", "'"%char, lit "it's ! x")] in
  Forall (fun x => match x with (sep, q, a) => Forall blank sep /\ quote q /\ a <> [] end) args /\
  quoted_line args (lit " ") = lit """say \""hi\"" \\o/""  'it\'s ! x' ".
Proof.
  cbn zeta; split; [wf_example|reflexivity].
Qed.

(** C03: the tokens of a line are the values of its reading ... *)
Theorem C03_split_grammar : forall l t,
  wf_line l t -> split (line_src l t) = Some (line_tokens l t).
Proof. exact split_line. Qed.
Print Assumptions C03_split_grammar.

(** ... every line has a reading ... *)
Theorem C03_reading_exists : forall s, exists l t, wf_line l t /\ line_src l t = s.
Proof. exact reading_exists. Qed.
Print Assumptions C03_reading_exists.

(** ... and all readings of a line have the same tokens. *)
Theorem C03_reading_unique : forall l1 t1 l2 t2,
  wf_line l1 t1 -> wf_line l2 t2 -> line_src l1 t1 = line_src l2 t2 ->
  line_tokens l1 t1 = line_tokens l2 t2.
Proof. exact reading_unique. Qed.
Print Assumptions C03_reading_unique.

Example C03_nonvacuous :
  let l := [Bare [Plain "a"; Esc "n"; Esc "'"]; Bang; Blank " "; Quoted "'" [Plain """"; Esc "'"]] in
  let t := TOpenBs """" [Plain "z"] in
  wf_line l t /\
  line_src l t = lit "a\n\'! '""\''""z\" /\
  line_tokens l t = [lit "a\n'"; lit "!"; lit """'"; lit "z"].
Proof.
  cbn zeta. split; [|split; reflexivity].
  wf_example.
Qed.

(** C04: lines of blanks have no tokens; blanks around a line do not matter;
    a blank separates two complete lines. *)
Theorem C04_blank_line : forall s, Forall blank s -> split s = Some [].
Proof. exact blank_line. Qed.
Print Assumptions C04_blank_line.

Theorem C04_leading_blanks : forall pre s, Forall blank pre -> split (pre ++ s) = split s.
Proof. exact leading_blanks. Qed.
Print Assumptions C04_leading_blanks.

Theorem C04_trailing_blanks : forall s post,
  complete s -> Forall blank post -> split (s ++ post) = split s.
Proof. exact trailing_blanks. Qed.
Print Assumptions C04_trailing_blanks.

Theorem C04_separator : forall a c b,
  complete a -> blank c ->
  split (a ++ c :: b) =
  match split a, split b with Some x, Some y => Some (x ++ y) | _, _ => None end.
Proof. exact split_concat. Qed.
Print Assumptions C04_separator.

Example C04_nonvacuous : complete (lit "add 'x y'") /\ Forall blank [" "; "009"; "010"]%char.
Proof.
  split.
  - exists [Bare [Plain "a"; Plain "d"; Plain "d"]; Blank " "; Quoted "'" [Plain "x"; Plain " "; Plain "y"]].
    split; [|reflexivity].
    wf_example.
  - wf_example.
Qed.
