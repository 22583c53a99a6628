(** * Model of browsing the history when memory runs out

    Source: /repo/include/cli/detail/commandprocessor.h:112-122, the keys Up and Down,
    over the history of AllocModel.v and the line editor of AllocTermModel.v.  What is
    written is in AllocTermModel.v and left out here. *)

From Verif Require Import Base HistoryModel TerminalModel AllocModel AllocTermModel.
Open Scope nat_scope.
Open Scope list_scope.

(** The key was handled; an exception left its handling; undefined. *)
Inductive bres := BDone (h : history) (t : term) | BThrew (h : history) (t : term) | BUB.

(** [terminal.SetLine(s)], the history being [h] by then *)
Definition then_set (ltr tty color : bool) (ok : nat -> bool) (s : str) (h : history) (t : term) : bres :=
  match set_line_m ltr tty color ok s t with
  | TDone _ _ t' => BDone h t'
  | TThrew _ t' => BThrew h t'
  | TUB => BUB
  end.

(** commandprocessor.h:117-122: [GetLine] copies the line ([ok 0]), [PreviousCmd] stores it
    ([ok 1]) and copies the entry ([ok 2]). *)
Definition up_m (ltr tty color : bool) (ok : nat -> bool) (h : history) (t : term) : bres :=
  if negb (ok 0) then BThrew h t
  else
    match previous_m (ok 1) (ok 2) h (get_line t), previous h (get_line t) with
    | ADone h', Some (s, _) => then_set ltr tty color (fun n => ok (3 + n)) s h' t
    | AThrew h', _ => BThrew h' t
    | _, _ => BUB
    end.
(** commandprocessor.h:112-116: [NextCmd] copies the entry ([ok 0]). *)
Definition down_m (ltr tty color : bool) (ok : nat -> bool) (h : history) (t : term) : bres :=
  match next_m (ok 0) h, next h with
  | ADone h', Some (s, _) => then_set ltr tty color (fun n => ok (1 + n)) s h' t
  | AThrew h', _ => BThrew h' t
  | _, _ => BUB
  end.
