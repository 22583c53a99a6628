(** * Specification of the command line syntax

    A declarative grammar, independent of the state machine in SplitModel.v.
    A command line is a sequence of items: blanks, '!' signs, bare words and
    quoted sentences.  Words and sentences are made of pieces. *)

From Verif Require Import Base.

(** ** Character classes (README.md "Parameter parsing", test_split.cpp) *)
Definition blank (c : ascii) : Prop := c = " "%char \/ c = "009"%char \/ c = "010"%char.
Definition quote (c : ascii) : Prop := c = """"%char \/ c = "'"%char.
Definition backslash : ascii := "\"%char.
Definition bang : ascii := "!"%char.

(** ** Pieces of a word or sentence *)
Inductive piece :=
| Plain (c : ascii)      (* an ordinary character *)
| Esc (c : ascii)        (* a backslash followed by [c] *).

Definition piece_src (p : piece) : str :=
  match p with Plain c => [c] | Esc c => [backslash; c] end.

(** Escaping a quote or a backslash yields that character; any other escape
    sequence is kept verbatim. *)
Definition escapable (c : ascii) : bool :=
  if ascii_dec c """" then true else
  if ascii_dec c "'" then true else
  if ascii_dec c backslash then true else false.

Definition piece_val (p : piece) : str :=
  match p with
  | Plain c => [c]
  | Esc c => if escapable c then [c] else [backslash; c]
  end.

Definition pieces_src (ps : list piece) : str := concat (map piece_src ps).
Definition pieces_val (ps : list piece) : str := concat (map piece_val ps).

(** ** Items of a line *)
Inductive item :=
| Blank (c : ascii)
| Bang
| Bare (ps : list piece)                   (* a bare word *)
| Quoted (q : ascii) (ps : list piece).    (* a closed sentence: q ... q *)

Definition item_src (i : item) : str :=
  match i with
  | Blank c => [c]
  | Bang => [bang]
  | Bare ps => pieces_src ps
  | Quoted q ps => q :: pieces_src ps ++ [q]
  end.

Definition item_val (i : item) : str :=
  match i with
  | Blank _ => []
  | Bang => [bang]
  | Bare ps => pieces_val ps
  | Quoted _ ps => pieces_val ps
  end.

(** What may end a line instead of a complete item. *)
Inductive tail_ :=
| TNone                                          (* the line ends after a complete item *)
| TBareBs (ps : list piece)                      (* a (possibly empty) bare word, then a lone backslash *)
| TOpen (q : ascii) (ps : list piece)            (* a sentence that is never closed *)
| TOpenBs (q : ascii) (ps : list piece).         (* the same, ending in a lone backslash *)

Definition tail_src (t : tail_) : str :=
  match t with
  | TNone => []
  | TBareBs ps => pieces_src ps ++ [backslash]
  | TOpen q ps => q :: pieces_src ps
  | TOpenBs q ps => q :: pieces_src ps ++ [backslash]
  end.

Definition tail_val (t : tail_) : str :=
  match t with
  | TNone => []
  | TBareBs ps | TOpen _ ps | TOpenBs _ ps => pieces_val ps
  end.

(** ** Well-formedness *)
Definition bare_piece (p : piece) : Prop :=
  match p with
  | Plain c => ~ blank c /\ ~ quote c /\ c <> backslash /\ c <> bang
  | Esc _ => True
  end.
Definition sentence_piece (q : ascii) (p : piece) : Prop :=
  match p with
  | Plain c => c <> q /\ c <> backslash
  | Esc _ => True
  end.

Definition wf_item (i : item) : Prop :=
  match i with
  | Blank c => blank c
  | Bang => True
  | Bare ps => ps <> [] /\ Forall bare_piece ps
  | Quoted q ps => quote q /\ Forall (sentence_piece q) ps
  end.
Definition wf_tail (t : tail_) : Prop :=
  match t with
  | TNone => True
  | TBareBs ps => Forall bare_piece ps
  | TOpen q ps | TOpenBs q ps => quote q /\ Forall (sentence_piece q) ps
  end.

Definition is_bare (i : item) : bool := match i with Bare _ => true | _ => false end.
Definition is_bare_tail (t : tail_) : bool := match t with TBareBs _ => true | _ => false end.

(** Words are maximal: no bare word directly follows a bare word. *)
Fixpoint munch (l : list item) (t : tail_) : Prop :=
  match l with
  | [] => True
  | i :: l' =>
      match l' with
      | [] => is_bare i = true -> is_bare_tail t = false
      | j :: _ => is_bare i = true -> is_bare j = false
      end /\ munch l' t
  end.

Definition wf_line (l : list item) (t : tail_) : Prop :=
  Forall wf_item l /\ wf_tail t /\ munch l t.

Definition line_src (l : list item) (t : tail_) : str :=
  concat (map item_src l) ++ tail_src t.

(** The tokens of a line: the non-empty values, in order. *)
Fixpoint nonempty (l : list str) : list str :=
  match l with
  | [] => []
  | [] :: l' => nonempty l'
  | x :: l' => x :: nonempty l'
  end.

Definition line_tokens (l : list item) (t : tail_) : list str :=
  nonempty (map item_val l ++ [tail_val t]).

(** ** Quoting an argument *)
Fixpoint escape_arg (s : str) : str :=
  match s with
  | [] => []
  | c :: s' => (if escapable c then [backslash; c] else [c]) ++ escape_arg s'
  end.
Definition quote_arg (q : ascii) (s : str) : str := q :: escape_arg s ++ [q].

(** A command line made of quoted arguments: each argument is preceded by a
    run of blanks (possibly empty), and a run of blanks ends the line. *)
Fixpoint quoted_line (args : list (str * ascii * str)) (final : str) : str :=
  match args with
  | [] => final
  | (sep, q, a) :: args' => sep ++ quote_arg q a ++ quoted_line args' final
  end.

(** A line that ends outside quotes and not in a lone backslash. *)
Definition complete (s : str) : Prop := exists l, wf_line l TNone /\ line_src l TNone = s.
