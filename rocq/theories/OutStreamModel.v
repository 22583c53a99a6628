(** * Model of the global output stream
    Source: /repo/include/cli/cli.h:75-109 ([OutStream]), 206 ([Register] in the
    constructor of [CliSession], 879-910) and 976-979 (its destructor). *)

From Verif Require Import Base.
Open Scope nat_scope.
Open Scope list_scope.

(** A [std::ostream] of a session: what its buffer received, whether it is in a good
    state, and the formatting that [operator<<(ostream&, char)] obeys (width, fill
    character, left or right adjustment).  Buffers accept all characters; [tie],
    [unitbuf] and exceptions of streams are not modelled. *)
Record ostr := mkOs { os_text : str; os_good : bool; os_width : nat; os_fill : ascii; os_left : bool }.

(** [os->rdbuf()->sputn(s, n)]: straight into the buffer *)
Definition buf_sputn (s : str) (o : ostr) : ostr :=
  mkOs (os_text o ++ s) (os_good o) (os_width o) (os_fill o) (os_left o).
(** [*os << c]: padded to the width, that is then reset; nothing if not good. *)
Definition put_char (c : ascii) (o : ostr) : ostr :=
  if os_good o then
    let pad := repeat (os_fill o) (os_width o - 1) in
    mkOs (os_text o ++ (if os_left o then c :: pad else pad ++ [c])) true 0 (os_fill o) (os_left o)
  else o.

(** cli.h:108 [ostreams], here identifiers of streams, and the streams; [None]:
    one that does not exist (any more). *)
Record osys := mkOsys { o_reg : list nat; o_str : nat -> option ostr }.
Definition upd_str (f : nat -> option ostr) (i : nat) (o : option ostr) : nat -> option ostr :=
  fun j => if Nat.eqb j i then o else f j.

(** The loops of cli.h:84-95; [None]: a destroyed stream is used. *)
Fixpoint each (f : ostr -> ostr) (l : list nat) (m : nat -> option ostr) : option (nat -> option ostr) :=
  match l with
  | [] => Some m
  | i :: l' => match m i with Some o => each f l' (upd_str m i (Some (f o))) | None => None end
  end.
Definition all_streams (f : ostr -> ostr) (y : osys) : option osys :=
  match each f (o_reg y) (o_str y) with Some m => Some (mkOsys (o_reg y) m) | None => None end.
(** cli.h:84-89 *)
Definition xsputn (s : str) (y : osys) : option osys := all_streams (buf_sputn s) y.
(** cli.h:90-95; called by [sputc], as there is no put area.  Calls of [overflow(EOF)]
    are not modelled. *)
Definition overflow (c : ascii) (y : osys) : option osys := all_streams (put_char c) y.
(** cli.h:97-100 *)
Definition register (i : nat) (y : osys) : osys := mkOsys (o_reg y ++ [i]) (o_str y).
(** cli.h:101-104 *)
Definition unregister (i : nat) (y : osys) : osys := mkOsys (filter (fun j => negb (Nat.eqb j i)) (o_reg y)) (o_str y).

(** What a program does: sessions are constructed and destroyed on streams, characters
    and strings are written on [Cli::cout()] (the standard library turns every output
    operation into such calls), and streams are created, destroyed, written to and
    given another state by whoever uses them. *)
Inductive oop :=
| Open (i : nat) | Close (i : nat)
| Sputn (s : str) | Sputc (c : ascii)
| Create (i : nat) | Destroy (i : nat) | Own (i : nat) (s : str)
| Format (i : nat) (good : bool) (width : nat) (fill : ascii) (left : bool).

Definition on_str (i : nat) (f : ostr -> ostr) (y : osys) : option osys :=
  match o_str y i with Some o => Some (mkOsys (o_reg y) (upd_str (o_str y) i (Some (f o)))) | None => None end.
Definition o_step (y : osys) (o : oop) : option osys :=
  match o with
  | Open i => Some (register i y)
  | Close i => Some (unregister i y)
  | Sputn s => xsputn s y
  | Sputc c => overflow c y
  | Create i => Some (mkOsys (o_reg y) (upd_str (o_str y) i (Some (mkOs [] true 0 " "%char false))))
  | Destroy i => Some (mkOsys (o_reg y) (upd_str (o_str y) i None))
  | Own i s => on_str i (buf_sputn s) y
  | Format i g w f l => on_str i (fun o => mkOs (os_text o) g w f l) y
  end.
Fixpoint o_run (y : osys) (os : list oop) : option osys :=
  match os with [] => Some y | o :: os' => match o_step y o with Some y' => o_run y' os' | None => None end end.
Definition o_init : osys := mkOsys [] (fun _ => None).
