(** * Specification of the line editor when memory runs out *)

From Verif Require Import Base TerminalModel TerminalSpec AllocTermModel.
Open Scope nat_scope.
Open Scope list_scope.

(** An operation: the colour flag, what is done, and which allocations succeed. *)
Record op_m := mkOpm { op_color : bool; op_ed : edop; op_ok : nat -> bool }.

(** How many allocations an operation makes. *)
Definition needs (o : edop) (e : editor) : nat :=
  match o with
  | EKey (KAscii c) => if Ascii.eqb c "009" then 0 else 3
  | EKey KBackspace => match before e with [] => 0 | _ => 2 end
  | EKey KCanc => match after e with [] => 0 | _ => 2 end
  | EKey KRet => 2
  | EKey KHome | EKey KEnd => 1
  | EKey _ => 0
  | ESet s => if Nat.ltb (length s) (length (ed_text e)) then 4 else 2
  end.
(** The first to fail. *)
Definition first_fail (k : nat) (ok : nat -> bool) : option nat := find (fun n => negb (ok n)) (seq 0 k).
(** Whether the line has been changed already when allocation [n] fails. *)
Definition in_effect (o : edop) (n : nat) : bool :=
  match o with EKey KBackspace => true | EKey KRet => Nat.eqb n 1 | _ => false end.

(** The ideal editor: operations that fail for lack of memory are reported as [None] and
    left out, but for those whose effect is there by then. *)
Definition ed_op_m (o : op_m) (e : editor) : option symbol * editor :=
  match first_fail (needs (op_ed o) e) (op_ok o) with
  | None => (Some (match op_ed o with EKey k => key_symbol k (ed_text e) | ESet _ => SyNothing end), ed_op (op_ed o) e)
  | Some n => (None, if in_effect (op_ed o) n then ed_op (op_ed o) e else e)
  end.
Fixpoint ed_run_m (os : list op_m) (e : editor) : list (option symbol) * editor :=
  match os with
  | [] => ([], e)
  | o :: os' => let (r, e1) := ed_op_m o e in let (rs, e') := ed_run_m os' e1 in (r :: rs, e')
  end.

(** The program, whoever calls it going on after an exception. *)
Definition run_op_m (ltr tty : bool) (o : op_m) (t : term) : tres_m :=
  match op_ed o with
  | EKey k => keypressed_m ltr tty (op_color o) (op_ok o) k t
  | ESet s => set_line_m ltr tty (op_color o) (op_ok o) s t
  end.
Fixpoint run_ops_m (ltr tty : bool) (os : list op_m) (t : term) : option (str * list (option symbol) * term) :=
  match os with
  | [] => Some ([], [], t)
  | o :: os' =>
      match run_op_m ltr tty o t with
      | TUB => None
      | TDone out sy t1 =>
          match run_ops_m ltr tty os' t1 with
          | None => None
          | Some (out', rs, t2) => Some (out ++ out', Some sy :: rs, t2)
          end
      | TThrew out t1 =>
          match run_ops_m ltr tty os' t1 with
          | None => None
          | Some (out', rs, t2) => Some (out ++ out', None :: rs, t2)
          end
      end
  end.

(** There is memory for all of it. *)
Definition plenty (o : op_m) : Prop := forall n, op_ok o n = true.
(** Printable input, Return included. *)
Definition typed (o : op_m) : Prop :=
  match op_ed o with EKey KRet => True | o' => printable_op o' end.
