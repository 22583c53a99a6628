(** * Specification of the keyboard *)

From Verif Require Import Base TerminalModel TelnetSpec KeyboardModel.
Open Scope nat_scope.
Open Scope list_scope.

(** The states reached from the construction of a keyboard on a terminal of mode [m]. *)
Definition kb_reaches (sgn : bool) (m junk : tmode) (l : list kact) (s : kbd) : Prop := k_run sgn l (kbd_init m junk) = Some s.

(** ** What a terminal sends for a key: as for telnet, but Enter is a line feed. *)
Definition linux_bytes (t : typed) : str := match t with TyEnter _ => ["010"%char] | _ => telnet_bytes t end.
(** Ordinary characters on both. *)
Definition plain_key (t : typed) : Prop := match t with TyChar c => ordinary c /\ c <> "010"%char | _ => True end.
(** The keys found so far: notified, or about to be. *)
Definition found (s : kbd) : list key := k_keys s ++ match k_w s with WNotify k => [k] | _ => [] end.

(** ** Input *)
Definition typed_in (l : list kact) : str := flat_map (fun a => match a with Type_ t => t | _ => [] end) l.
Definition bytes_by (kb : bool) (s : kbd) : str := map snd (filter (fun p => Bool.eqb (fst p) kb) (k_cons s)).
Definition hung_up (l : list kact) : Prop := In Hangup l.

(** Whether input is active after the calls in [l]. *)
Fixpoint active_after (on : bool) (l : list kact) : bool :=
  match l with
  | [] => on
  | MCall Activate :: l' => active_after true l'
  | MCall Deactivate :: l' => active_after false l'
  | _ :: l' => active_after on l'
  end.
Definition no_call (c : kcall) (l : list kact) : Prop := ~ In (MCall c) l.

(** The keyboard thread is in the middle of [Get], past [select]. *)
Definition in_get (p : wpc) : Prop := match p with WGet0 | WGet1 | WGet2 | WGet3 => True | _ => False end.
(** The keyboard thread can do nothing because it has ended, nothing is to be read, or
    input is not active. *)
Definition starved (s : kbd) : Prop := k_ready s = [] /\ k_eof s = false.

Definition count (a : kact -> bool) (l : list kact) : nat := length (filter a l).
Definition is_wgo (a : kact) : bool := match a with WGo => true | _ => false end.

(** ** Terminal modes
    The mode the terminal shall have outside of input, if [Activate] is called only when
    input is not active, and other code sets the mode only then: deactivating (or
    destroying) brings back the mode found by the last activation. *)
Fixpoint mode_after (on : bool) (want saved : tmode) (l : list kact) : option tmode :=
  match l with
  | [] => Some want
  | MCall Activate :: l' => if on then None else mode_after true want want l'
  | MCall Deactivate :: l' | MCall Destroy :: l' => mode_after false saved saved l'
  | SetMode m :: l' => if on then None else mode_after false m saved l'
  | _ :: l' => mode_after on want saved l'
  end.

(** ** All byte sequences *)
(** The sequences that are a key, and which; bytes 255 are the end of the file if [char]
    is signed. *)
Inductive linux_seq (sgn : bool) : str -> key -> Prop :=
| ls_plain c : ~ In c ["004"; "008"; "010"; "012"; "027"; "127"]%char -> ~ (sgn = true /\ c = "255"%char) -> linux_seq sgn [c] (KAscii c)
| ls_eof : linux_seq sgn ["004"%char] KEof
| ls_ff : sgn = true -> linux_seq sgn ["255"%char] KEof
| ls_back c : In c ["008"; "127"]%char -> linux_seq sgn [c] KBackspace
| ls_enter : linux_seq sgn ["010"%char] KRet
| ls_clear : linux_seq sgn ["012"%char] KClear
| ls_esc c : c <> "["%char -> linux_seq sgn ["027"%char; c] KIgnored
| ls_up : linux_seq sgn (esc (lit "A")) KUp
| ls_down : linux_seq sgn (esc (lit "B")) KDown
| ls_right : linux_seq sgn (esc (lit "C")) KRight
| ls_left : linux_seq sgn (esc (lit "D")) KLeft
| ls_end : linux_seq sgn (esc (lit "F")) KEnd
| ls_home : linux_seq sgn (esc (lit "H")) KHome
| ls_other c : ~ In c ("3"%char :: cursor_letters) -> linux_seq sgn (esc [c]) KIgnored
| ls_delete : linux_seq sgn (esc (lit "3~")) KCanc
| ls_three c : c <> "~"%char -> linux_seq sgn (esc ["3"%char; c]) KIgnored.
(** The beginning of a sequence. *)
Definition linux_part (r : str) : Prop := In r [[]; ["027"%char]; esc []; esc ["3"%char]].
