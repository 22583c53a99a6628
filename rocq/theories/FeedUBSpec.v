(** * Specification: the lines that are undefined *)

From Verif Require Import Base FromStringModel FromStringSpec ConvTotalSpec MenuModel SessionModel.
Open Scope nat_scope.
Open Scope list_scope.

(** The text [s] is undefined as a parameter of type [t] (strings, characters and types
    read by the user's [operator>>] never are). *)
Definition text_undefined (p : platform) (t : ptype) (s : str) : Prop :=
  match t with
  | PInt i => int_undefined p i s
  | PBool => signed_undefined p 64 s
  | PReal _ => float_undefined p s
  | _ => False
  end.

(** One of the arguments is undefined, and those before it are converted. *)
Inductive traps (E : env) : list ptype -> list str -> Prop :=
| tr_here t ts s ss : text_undefined (e_plat E) t s -> traps E (t :: ts) (s :: ss)
| tr_later t ts s ss v : convert E t s = COk v -> traps E ts ss -> traps E (t :: ts) (s :: ss).

(** Parameters whose text can be undefined where [char] is signed. *)
Definition numeric (t : ptype) : Prop := match t with PInt _ | PBool | PReal _ => True | _ => False end.
