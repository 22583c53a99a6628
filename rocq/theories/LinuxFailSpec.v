(** * Specification of the Linux keyboard when calls fail *)

From Verif Require Import Base TerminalModel TelnetSpec KeyboardModel KeyboardSpec LinuxFailModel.
Open Scope nat_scope.
Open Scope list_scope.

(** From the construction of a keyboard on a terminal of mode [m]. *)
Definition lf_reaches (sgn : bool) (p : lpipe) (m junk : tmode) (l : list lact) (s : kbd) : Prop := l_run sgn p l (LRun (kbd_init m junk)) = Some (LRun s).
(** The calls that worked. *)
Definition worked (l : list lact) : list kact := flat_map (fun a => match a with LOk a => [a] | _ => [] end) l.
Definition lact_eqb (a b : lact) : bool :=
  match a, b with LRead, LRead | LPost, LPost | LWrite, LWrite | LGetattr, LGetattr | LSetattr, LSetattr => true | _, _ => false end.
(** How often a call failed in this way. *)
Definition fails (a : lact) (l : list lact) : nat := length (filter (lact_eqb a) l).
(** A step of the keyboard's thread. *)
Definition by_keyboard (a : lact) : bool := match a with LOk WGo | LRead | LPost => true | _ => false end.
(** What the calls of [read] returned, [None]: nothing. *)
Definition reads_of (l : list (option ascii)) : str := map (fun o => match o with Some c => c | None => "000"%char end) l.
Definition really (l : list (option ascii)) : str := flat_map (fun o => match o with Some c => [c] | None => [] end) l.
Definition missed (l : list (option ascii)) : nat := length (filter (fun o => match o with None => true | _ => false end) l).
(** The modes set by others. *)
Definition modes_of (l : list lact) : list tmode := flat_map (fun a => match a with LOk (SetMode m) => [m] | _ => [] end) l.
