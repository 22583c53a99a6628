(** * Specification of the Windows keyboard when calls fail *)

From Verif Require Import Base TerminalModel TelnetSpec WinKeyboardModel WinKeyboardSpec WinFailModel.
Open Scope nat_scope.
Open Scope list_scope.

(** What [_getch] returned, [None] for [EOF], says these keys. *)
Fixpoint fail_reading (l : list (option ascii)) : list key :=
  match l with
  | [] => []
  | None :: l' => KEof :: fail_reading l'
  | Some c :: l' =>
      if ascii_dec c "224" then
        match l' with
        | [] => []
        | None :: l'' => KIgnored :: fail_reading l''
        | Some c2 :: l'' => looked_up win_prefixed c2 KIgnored :: fail_reading l''
        end
      else looked_up win_single c (KAscii c) :: fail_reading l'
  end.
Definition given (l : list (option ascii)) : str := flat_map (fun o => match o with Some c => [c] | None => [] end) l.
Definition ends_of (l : list (option ascii)) : nat := length (filter (fun o => match o with None => true | _ => false end) l).

Definition f_arrived (l : list fact) : list crec := flat_map (fun a => match a with FOk (Arrive r) => [r] | _ => [] end) l.
Definition fact_eqb (a b : fact) : bool := match a, b with FWait, FWait | FEof, FEof | FPost, FPost | FStop, FStop => true | _, _ => false end.
(** How often a call failed in this way. *)
Definition failed (a : fact) (l : list fact) : nat := length (filter (fact_eqb a) l).
(** A step of the keyboard's thread. *)
Definition by_thread (a : fact) : bool := match a with FOk HGo | FWait | FEof | FPost => true | _ => false end.
