(** * What users of [Menu::Insert] may write, and what they get *)

From Verif Require Import Base FromStringModel MenuModel SessionModel InsertModel.
Open Scope nat_scope.
Open Scope list_scope.

(** A help text: a literal or a string, or one of them in braces, or empty braces. *)
Inductive text_of : arg -> str -> Prop :=
| text_plain b s : text_of (AText b s) s
| text_none : text_of (AList []) []
| text_braces s : text_of (AList [s]) s.
(** Descriptions of the parameters. *)
Inductive words_of : arg -> list str -> Prop :=
| words_vec l : words_of (AVec l) l
| words_braces l : words_of (AList l) l.

(** The five ways to write the arguments: function, help text, descriptions. *)
Inductive asked : list arg -> callable -> str -> list str -> Prop :=
| asked_f k : asked [ACall k] k [] []
| asked_help k t h : text_of t h -> asked [ACall k; t] k h []
| asked_all k t h d l : text_of t h -> words_of d l -> asked [ACall k; t; d] k h l
| asked_descs d l k : words_of d l -> asked [d; ACall k] k [] l
| asked_descs_help d l k t h : words_of d l -> text_of t h -> asked [d; ACall k; t] k h l.

(** The function comes first and a help text is given. *)
Definition helped (args : list arg) : Prop := exists k t rest, args = ACall k :: t :: rest.

(** Two literals in braces where the help text goes. *)
Inductive trap : list arg -> callable -> Prop :=
| trap_help k a b : trap [ACall k; AList [a; b]] k
| trap_all k a b d l : words_of d l -> trap [ACall k; AList [a; b]; d] k
| trap_after d l k a b : words_of d l -> trap [d; ACall k; AList [a; b]] k.

(** A parameter filled with a word of the line, of type [p]. *)
Definition of_type (q : par) (p : ptype) : Prop := q = (ByValue, BParam p) \/ q = (ByCRef, BParam p).
(** A parameter for all the words. *)
Definition all_words (q : par) : Prop := q = (ByValue, BWords) \/ q = (ByCRef, BWords).

(** Objects the library can call and look into. *)
Definition object (k : callable) : Prop := c_shape k = Functor true /\ c_stream k = true.
Definition function (k : callable) : Prop := c_shape k = Pointer /\ c_stream k = true.

(** What the library makes of a callable: a command of words of the given types, or one
    that takes them all. *)
Definition typed (args : list arg) (k : callable) (ps : list ptype) : Prop :=
  Forall2 of_type (c_pars k) ps /\ (object k \/ (function k /\ helped args)).
Definition untyped (k : callable) : Prop := object k /\ exists q, c_pars k = [q] /\ all_words q.

(** The words of a line as arguments. *)
Definition words_as (E : env) (ps : list ptype) (ws : list str) (vs : list value) : Prop :=
  Forall2 (fun pw v => convert E (fst pw) (snd pw) = COk v) (combine ps ws) vs /\ length ps = length ws.
