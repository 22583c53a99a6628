(** * Specification of the command history

    The user-visible history is a list of numbered entries, oldest first. *)

From Verif Require Import Base HistoryModel.

Notation entry := (Z * str)%type.

(** Consecutive numbering. *)
Fixpoint number (first : Z) (l : list str) : list entry :=
  match l with
  | [] => []
  | x :: l' => (first, x) :: number (first + 1) l'
  end.

(** What the [history] command prints. *)
Definition entry_line (e : entry) : str :=
  print_N (Z.to_N (fst e)) ++ ["009"%char] ++ snd e ++ ["010"%char].
Definition listing (l : list entry) : str :=
  ["010"%char] ++ concat (map entry_line l) ++ ["010"%char].

(** No two neighbours are equal. *)
Fixpoint no_adjacent (l : list str) : Prop :=
  match l with
  | x :: ((y :: _) as l') => x <> y /\ no_adjacent l'
  | _ => True
  end.

Definition last_text (l : list entry) : option str :=
  match rev l with [] => None | e :: _ => Some (snd e) end.

(** The numbered entries held by a history (the deque is newest first). *)
Definition view (h : history) : list entry := number (h_oldest h) (rev (h_buf h)).
(** Identifier of the next entry. *)
Definition next_id (h : history) : Z := (h_oldest h + Z.of_nat (length (h_buf h)))%Z.

(** ** Operations a session performs on its history *)
Inductive hop :=
| ONew (s : str)          (* a command line is entered *)
| OBang (s : str)         (* a command line is entered and forgotten: '!' *)
| OUp (line : str)        (* Up, the line being shown is [line] *)
| ODown
| OLoad (l : list str).   (* stored commands are loaded *)

Definition hstep (h : history) (o : hop) : option history :=
  match o with
  | ONew s => new_command h s
  | OBang s => match new_command h s with None => None | Some h1 => forget_latest h1 end
  | OUp line => option_map snd (previous h line)
  | ODown => option_map snd (next h)
  | OLoad l => Some (load_commands h l)
  end.

Fixpoint hrun (h : history) (os : list hop) : option history :=
  match os with
  | [] => Some h
  | o :: os' => match hstep h o with None => None | Some h' => hrun h' os' end
  end.

(** Histories a session of the given size can reach. *)
Definition reachable (size : nat) (h : history) : Prop :=
  exists os, hrun (history_init size) os = Some h.

(** Pressing Up / Down [k] times without editing: each press hands back the text
    that is on display. *)
Fixpoint ups (h : history) (line : str) (k : nat) : option (str * history) :=
  match k with
  | O => Some (line, h)
  | S k' => match previous h line with None => None | Some (s, h') => ups h' s k' end
  end.
Fixpoint downs (h : history) (line : str) (k : nat) : option (str * history) :=
  match k with
  | O => Some (line, h)
  | S k' => match next h with None => None | Some (s, h') => downs h' s k' end
  end.

(** Browsing steps that do not edit a recalled entry. *)
Definition unedited (h : history) (o : hop) : Prop :=
  match o with
  | OUp line => h_browse h = true -> h_cur h <> 0 -> nth_error (h_buf h) (h_cur h) = Some line
  | OBang _ | OLoad _ => False
  | _ => True
  end.


(** Histories reached without editing recalled entries. *)
Inductive tidy_run : history -> list hop -> history -> Prop :=
| tidy_nil h : tidy_run h [] h
| tidy_cons h o h1 os h2 : unedited h o -> hstep h o = Some h1 -> tidy_run h1 os h2 -> tidy_run h (o :: os) h2.

(** The entries without the line being typed, oldest first. *)
Definition committed (h : history) : list str :=
  rev (if h_browse h then tl (h_buf h) else h_buf h).
