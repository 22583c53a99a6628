(** * Specification of browsing the history when memory runs out *)

From Verif Require Import Base HistoryModel HistorySpec TerminalModel TerminalSpec AllocModel AllocSpec AllocTermModel AllocTermSpec AllocBrowseModel.
Open Scope nat_scope.
Open Scope list_scope.

(** A key, Up or Down, with the colour flag and the allocations that succeed. *)
Record bkey := mkBkey { bk_up : bool; bk_color : bool; bk_ok : nat -> bool }.
Definition b_step (ltr tty : bool) (k : bkey) (h : history) (t : term) : bres :=
  if bk_up k then up_m ltr tty (bk_color k) (bk_ok k) h t else down_m ltr tty (bk_color k) (bk_ok k) h t.
(** Any number of them; which were handled ([true]). *)
Fixpoint b_run (ltr tty : bool) (ks : list bkey) (h : history) (t : term) : option (list bool * history * term) :=
  match ks with
  | [] => Some ([], h, t)
  | k :: ks' =>
      match b_step ltr tty k h t with
      | BUB => None
      | BDone h1 t1 =>
          match b_run ltr tty ks' h1 t1 with Some (rs, h2, t2) => Some (true :: rs, h2, t2) | None => None end
      | BThrew h1 t1 =>
          match b_run ltr tty ks' h1 t1 with Some (rs, h2, t2) => Some (false :: rs, h2, t2) | None => None end
      end
  end.

(** The line is replaced by [s]: there is memory for that. *)
Definition can_set (s : str) (e : editor) (ok : nat -> bool) : Prop := first_fail (needs (ESet s) e) ok = None.

(** Up is pressed only after keys that were handled; [b]: the one before was. *)
Fixpoint up_after_success (b : bool) (ks : list bkey) (rs : list bool) : Prop :=
  match ks, rs with
  | k :: ks', r :: rs' => (bk_up k = true -> b = true) /\ up_after_success r ks' rs'
  | _, _ => True
  end.

(** The line is the entry the history is at (the line being typed is no entry). *)
Definition in_step (h : history) (t : term) : Prop :=
  h_cur h <> 0 -> nth_error (h_buf h) (h_cur h) = Some (tm_line t).
