(** * Specification of the Windows keyboard *)

From Verif Require Import Base TerminalModel TelnetSpec WinKeyboardModel.
Open Scope nat_scope.
Open Scope list_scope.

(** The record of a key of the keyboard (not of the numeric pad). *)
Definition win_rec (t : typed) : crec :=
  match t with
  | TyChar c => RChar c
  | TyUp => RExt true "H" | TyDown => RExt true "P" | TyLeft => RExt true "K" | TyRight => RExt true "M"
  | TyHome => RExt true "G" | TyEnd => RExt true "O" | TyDelete => RExt true "S"
  | TyBackspace _ => RChar "008"
  | TyClear => RChar "012"
  | TyEof => RChar "004"
  | TyEnter _ => RChar "013"
  end.
Definition win_plain (t : typed) : Prop := match t with TyChar c => ~ In c ["003"; "004"; "008"; "012"; "013"; "026"; "224"]%char | _ => True end.

(** The records that arrived, without those that are no characters. *)
Definition character (r : crec) : bool := match r with ROther => false | _ => true end.
Definition arrived_in (l : list hact) : list crec := flat_map (fun a => match a with Arrive r => [r] | _ => [] end) l.
Definition win_found (s : wkbd) : list key := wk_keys s ++ match wk_w s with HNotify k => [k] | _ => [] end.
Definition win_getting (p : hpc) : Prop := match p with HGet | HGet2 => True | _ => False end.
Definition is_hgo (a : hact) : bool := match a with HGo => true | _ => false end.

(** What the characters read say, whatever was typed: a table for single characters
    (those not listed stand for themselves), and one for those after a prefix. *)
Definition win_single : list (ascii * key) :=
  [("003", KEof); ("004", KEof); ("026", KEof); ("008", KBackspace); ("012", KClear); ("013", KRet)]%char.
Definition win_prefixed : list (ascii * key) :=
  [("H", KUp); ("P", KDown); ("K", KLeft); ("M", KRight); ("G", KHome); ("O", KEnd); ("S", KCanc)]%char.
Fixpoint looked_up (t : list (ascii * key)) (c : ascii) (otherwise : key) : key :=
  match t with [] => otherwise | (c', k) :: t' => if ascii_dec c c' then k else looked_up t' c otherwise end.
Fixpoint win_reading (l : str) : list key :=
  match l with
  | [] => []
  | c :: l' =>
      if ascii_dec c "224" then match l' with [] => [] | c2 :: l'' => looked_up win_prefixed c2 KIgnored :: win_reading l'' end
      else looked_up win_single c (KAscii c) :: win_reading l'
  end.
Definition win_chars (l : list crec) : str :=
  flat_map (fun r => match r with RChar c => [c] | RExt true c => ["224"%char; c] | RExt false c => ["000"%char; c] | ROther => [] end) l.
(** The second half of an extended key whose first half was read. *)
Definition win_half (s : wkbd) : str := match wk_crt s with Some c => [c] | None => [] end.
