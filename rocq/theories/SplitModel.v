(** * Model of the command line tokeniser
    Source: /repo/include/cli/detail/split.h, class [Text] and function [split]. *)

From Verif Require Import Base.

(** split.h:196-197  [enum class State], [enum class SentenceType] *)
Inductive tstate := Space | Word | Sentence | Escape.
Inductive stype := Quote | DoubleQuote.

(** split.h:198-202  data members of [Text] (the constant [input] is the
    argument of [run_text] below). *)
Record text := mkText {
  t_state : tstate;
  t_prev  : tstate;
  t_stype : stype;
  t_res   : list str
}.

(** [splitResult.back() += x].  [None] is undefined behaviour: [back()] on an
    empty vector (split.h:138, 152, 163, 171, 172; guarded in debug builds by
    the assertions on lines 137, 151, 162, 169). *)
Definition back_append (v : list str) (x : str) : option (list str) :=
  match rev v with
  | [] => None
  | w :: r => Some (rev ((w ++ x) :: r))
  end.

Definition set_res (t : text) (v : list str) : text :=
  mkText (t_state t) (t_prev t) (t_stype t) v.

(** [c == ' ' || c == '\t' || c == '\n'], split.h:88, 117. *)
Definition is_blank (c : ascii) : bool :=
  Ascii.eqb c " " || Ascii.eqb c "009" || Ascii.eqb c "010".
(** [c] is a double or a single quote, split.h:92, 126, 144. *)
Definition is_quote (c : ascii) : bool :=
  Ascii.eqb c """" || Ascii.eqb c "'".
Definition is_backslash (c : ascii) : bool := Ascii.eqb c "\".
Definition is_bang (c : ascii) : bool := Ascii.eqb c "!".

(** The conditional expression choosing the sentence type, split.h:146, 179. *)
Definition stype_of (c : ascii) : stype :=
  if Ascii.eqb c """" then DoubleQuote else Quote.
Definition stype_eqb (a b : stype) : bool :=
  match a, b with Quote, Quote | DoubleQuote, DoubleQuote => true | _, _ => false end.

(** split.h:176-181 [NewSentence] *)
Definition new_sentence (t : text) (c : ascii) : text :=
  mkText Sentence (t_prev t) (stype_of c) (t_res t ++ [[]]).

(** split.h:86-113 [EvalSpace] *)
Definition eval_space (t : text) (c : ascii) : option text :=
  if is_blank c then Some t
  else if is_quote c then Some (new_sentence t c)
  else if is_backslash c then
    Some (mkText Escape Word (t_stype t) (t_res t ++ [[]]))
  else if is_bang c then
    Some (set_res t (t_res t ++ [[c]]))
  else
    Some (mkText Word (t_prev t) (t_stype t) (t_res t ++ [[c]])).

(** split.h:115-140 [EvalWord] *)
Definition eval_word (t : text) (c : ascii) : option text :=
  if is_blank c then Some (mkText Space (t_prev t) (t_stype t) (t_res t))
  else if is_bang c then
    Some (mkText Space (t_prev t) (t_stype t) (t_res t ++ [[c]]))
  else if is_quote c then Some (new_sentence t c)
  else if is_backslash c then
    Some (mkText Escape (t_state t) (t_stype t) (t_res t))
  else
    option_map (set_res t) (back_append (t_res t) [c]).

(** split.h:142-165 [EvalSentence] *)
Definition eval_sentence (t : text) (c : ascii) : option text :=
  if is_quote c then
    if stype_eqb (stype_of c) (t_stype t)
    then Some (mkText Space (t_prev t) (t_stype t) (t_res t))
    else option_map (set_res t) (back_append (t_res t) [c])
  else if is_backslash c then
    Some (mkText Escape (t_state t) (t_stype t) (t_res t))
  else
    option_map (set_res t) (back_append (t_res t) [c]).

(** split.h:167-174 [EvalEscape]; the optional backslash and [c] are appended
    in one go. *)
Definition eval_escape (t : text) (c : ascii) : option text :=
  let x := if negb (Ascii.eqb c """") && negb (Ascii.eqb c "'") && negb (Ascii.eqb c "\")
           then ["\"%char; c] else [c] in
  match back_append (t_res t) x with
  | None => None
  | Some v => Some (mkText (t_prev t) (t_prev t) (t_stype t) v)
  end.

(** split.h:67-84 [Eval] *)
Definition eval (t : text) (c : ascii) : option text :=
  match t_state t with
  | Space => eval_space t c
  | Word => eval_word t c
  | Sentence => eval_sentence t c
  | Escape => eval_escape t c
  end.

(** split.h:59-65 [Reset] *)
Definition text_reset : text := mkText Space Space DoubleQuote [].

(** split.h:53-54 the loop of [SplitInto] *)
Fixpoint run_text (t : text) (input : str) : option text :=
  match input with
  | [] => Some t
  | c :: rest => match eval t c with None => None | Some t' => run_text t' rest end
  end.

Definition is_empty (s : str) : bool := match s with [] => true | _ => false end.

(** split.h:183-194 [RemoveEmptyEntries] *)
Definition remove_empty (v : list str) : list str := filter (fun s => negb (is_empty s)) v.

(** split.h:50-57 [SplitInto] and split.h:239-243 [split].
    [None] = undefined behaviour. *)
Definition split (input : str) : option (list str) :=
  match run_text text_reset input with
  | None => None
  | Some t => Some (remove_empty (t_res t))
  end.
