(** * Specification of TAB and Clear, and of all editing keys, when memory runs out *)

From Verif Require Import Base HistoryModel HistorySpec TerminalModel TerminalSpec PrefixSpec
  AllocModel AllocSpec AllocTermModel AllocTermSpec AllocBrowseModel AllocBrowseSpec AllocKeyModel.
Open Scope nat_scope.
Open Scope list_scope.

(** Memory for the first [n] allocations. *)
Definition came_to (n : nat) (ok : nat -> bool) : Prop := forall m, m < n -> ok m = true.
Definition from (n : nat) (ok : nat -> bool) : nat -> bool := fun m => ok (n + m).

(** What TAB makes of the line, if anything: [Some s], the line is to be [s]; and how
    many allocations come before the line is replaced. *)
Inductive tab_does (line : str) : list str -> option str -> nat -> Prop :=
| td_none : tab_does line [] None 2
| td_one c : tab_does line [c] (Some (c ++ [" "%char])) 3
| td_longer l pre : 2 <= length l -> longest_common_prefix l pre -> length line < length pre -> tab_does line l (Some pre) 3
| td_list l pre : 2 <= length l -> longest_common_prefix l pre -> length pre <= length line -> tab_does line l (Some line) 5.

(** Any editing key of a session, with failing allocations. *)
Inductive skey :=
| SKey (k : key)                          (* handled by the line editor *)
| SUp | SDown | SClear
| STab (completions : list str).
Record stroke_m := mkStrokeM { sm_key : skey; sm_color : bool; sm_force : bool; sm_ok : nat -> bool }.
Definition of_kres (r : kres) (h : history) : bres :=
  match r with KDone t => BDone h t | KThrew t => BThrew h t | KUB => BUB end.
Definition s_step (ltr tty : bool) (s : stroke_m) (h : history) (t : term) : bres :=
  match sm_key s with
  | SKey k => match keypressed_m ltr tty (sm_color s) (sm_ok s) k t with
              | TDone _ _ t' => BDone h t' | TThrew _ t' => BThrew h t' | TUB => BUB
              end
  | SUp => up_m ltr tty (sm_color s) (sm_ok s) h t
  | SDown => down_m ltr tty (sm_color s) (sm_ok s) h t
  | SClear => of_kres (clear_m ltr tty (sm_color s) (sm_force s) (sm_ok s) t) h
  | STab l => of_kres (tab_m ltr tty (sm_color s) (sm_force s) (sm_ok s) l t) h
  end.
Fixpoint s_run (ltr tty : bool) (ks : list stroke_m) (h : history) (t : term) : option (history * term) :=
  match ks with
  | [] => Some (h, t)
  | k :: ks' => match s_step ltr tty k h t with BDone h1 t1 | BThrew h1 t1 => s_run ltr tty ks' h1 t1 | BUB => None end
  end.
