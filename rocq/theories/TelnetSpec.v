(** * Specification of telnet sessions: RFC 854 streams, and what a user types *)

From Verif Require Import Base TerminalModel.
Open Scope nat_scope.
Open Scope list_scope.

(** ** Well-formed telnet streams *)
Inductive verb := Will | Wont | Do | Dont.
Definition verb_code (v : verb) : ascii :=
  match v with Will => "251"%char | Wont => "252"%char | Do => "253"%char | Dont => "254"%char end.
(** A data byte, a command without parameters, an option negotiation, a
    sub-negotiation (of an option with some parameters). *)
Inductive item := IData (c : ascii) | ICommand (c : ascii) | INeg (v : verb) (opt : ascii) | ISub (payload : str).
Definition FF : ascii := "255".
(** Data bytes 255 are doubled, in sub-negotiations too. *)
Definition doubled (c : ascii) : str := if Ascii.eqb c FF then [FF; FF] else [c].
Definition wire_item (i : item) : str :=
  match i with
  | IData c => doubled c
  | ICommand c => [FF; c]
  | INeg v opt => [FF; verb_code v; opt]
  | ISub p => [FF; "250"%char] ++ flat_map doubled p ++ [FF; "240"%char]
  end.
(** Commands are those without parameters, and options are not 255. *)
Definition item_ok (i : item) : Prop :=
  match i with
  | ICommand c => (byte_of c < 240 \/ 241 <= byte_of c <= 249)%N
  | INeg _ opt => opt <> FF
  | _ => True
  end.
Definition wire (is : list item) : str := flat_map wire_item is.

(** The data, and the negotiations asking for a reply. *)
Definition data_of (is : list item) : str := flat_map (fun i => match i with IData c => [c] | _ => [] end) is.
Definition requests (is : list item) : list (verb * ascii) :=
  flat_map (fun i => match i with INeg Will o => [(Will, o)] | INeg Do o => [(Do, o)] | _ => [] end) is.
(** The command that a reply consists of, for an option. *)
Definition answers (b : str) (opt : ascii) : Prop := exists v, b = [FF; verb_code v; opt].

(** The replies: which verb is answered for each request. *)
Definition reply_verb (q : verb * ascii) : verb :=
  match q with
  | (Do, o) => if Ascii.eqb o "001" then Do (* echo *) else if Ascii.eqb o "003" then Will (* suppress go ahead *) else Wont
  | (_, o) => if Ascii.eqb o "003" then Will else if Ascii.eqb o "031" then Do (* window size *) else Dont
  end.
Definition reply (q : verb * ascii) : str := [FF; verb_code (reply_verb q); snd q].

(** ** Keys *)
(** What a terminal sends for a key. *)
Inductive typed :=
| TyChar (c : ascii) | TyUp | TyDown | TyLeft | TyRight | TyHome | TyEnd | TyDelete
| TyBackspace (del : bool) | TyClear | TyEof | TyEnter (lf : bool).
Definition esc (s : str) : str := "027"%char :: "["%char :: s.
Definition telnet_bytes (t : typed) : str :=
  match t with
  | TyChar c => [c]
  | TyUp => esc (lit "A") | TyDown => esc (lit "B") | TyRight => esc (lit "C") | TyLeft => esc (lit "D")
  | TyHome => esc (lit "H") | TyEnd => esc (lit "F") | TyDelete => esc (lit "3~")
  | TyBackspace del => [if del then "127"%char else "008"%char]
  | TyClear => ["012"%char]
  | TyEof => ["004"%char]
  | TyEnter lf => ["013"; if lf then "010" else "000"]%char
  end.
Definition key_of (t : typed) : key :=
  match t with
  | TyChar c => KAscii c
  | TyUp => KUp | TyDown => KDown | TyLeft => KLeft | TyRight => KRight | TyHome => KHome | TyEnd => KEnd
  | TyDelete => KCanc | TyBackspace _ => KBackspace | TyClear => KClear | TyEof => KEof | TyEnter _ => KRet
  end.
(** Ordinary characters: those that are not (the beginning of) another key. *)
Definition ordinary (c : ascii) : Prop := ~ In c ["004"; "008"; "012"; "013"; "027"; "127"; "255"]%char.
Definition typed_ok (t : typed) : Prop := match t with TyChar c => ordinary c | _ => True end.

(** ** Output *)
(** A client turns CR LF into LF and un-doubles 255. *)
Fixpoint client (s : str) : str :=
  match s with
  | [] => []
  | c :: s' =>
      match s' with
      | d :: s'' =>
          if Ascii.eqb c "013" && Ascii.eqb d "010" then client s'
          else if Ascii.eqb c FF && Ascii.eqb d FF then c :: client s''
          else c :: client s'
      | [] => [c]
      end
  end.

(** ** All byte sequences *)
(** The sequences that are a key, and which; after ESC [ the letters of [cursor_letters]
    are cursor keys. *)
Definition cursor_letters : str := lit "ABCDFH".
Inductive telnet_seq : str -> key -> Prop :=
| sq_plain c : ordinary c -> telnet_seq [c] (KAscii c)
| sq_eof c : In c ["004"; "255"]%char -> telnet_seq [c] KEof
| sq_back c : In c ["008"; "127"]%char -> telnet_seq [c] KBackspace
| sq_clear : telnet_seq ["012"%char] KClear
| sq_enter c : In c ["000"; "010"]%char -> telnet_seq ["013"%char; c] KRet
| sq_cr c : ~ In c ["000"; "010"]%char -> telnet_seq ["013"%char; c] KIgnored
| sq_esc c : c <> "["%char -> telnet_seq ["027"%char; c] KIgnored
| sq_up : telnet_seq (esc (lit "A")) KUp
| sq_down : telnet_seq (esc (lit "B")) KDown
| sq_right : telnet_seq (esc (lit "C")) KRight
| sq_left : telnet_seq (esc (lit "D")) KLeft
| sq_end : telnet_seq (esc (lit "F")) KEnd
| sq_home : telnet_seq (esc (lit "H")) KHome
| sq_delete c : ~ In c cursor_letters -> telnet_seq (esc [c; "~"%char]) KCanc
| sq_other c d : ~ In c cursor_letters -> d <> "~"%char -> telnet_seq (esc [c; d]) KIgnored.
(** The beginning of a sequence. *)
Inductive telnet_part : str -> Prop :=
| pt_none : telnet_part []
| pt_cr : telnet_part ["013"%char]
| pt_esc : telnet_part ["027"%char]
| pt_csi : telnet_part (esc [])
| pt_other c : ~ In c cursor_letters -> telnet_part (esc [c]).

(** Commands inside a negotiation or sub-negotiation. *)
Definition commands (cs : str) : str := flat_map (fun c => [FF; c]) cs.
