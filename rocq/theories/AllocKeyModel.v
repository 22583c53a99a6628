(** * Model of TAB and Clear when memory runs out

    Source: /repo/include/cli/detail/commandprocessor.h:123-159, over the line editor of
    AllocTermModel.v.  The completions are given ([GetCompletions] has no effects,
    CompletionModel.v); what is written is left out.  [pf]: the colour state of the stream
    after the prompt was written, in whole or in part (cli.h:943-951). *)

From Verif Require Import Base PrefixModel TerminalModel AllocTermModel.
Open Scope nat_scope.
Open Scope list_scope.

(** The key was handled; an exception left its handling; undefined. *)
Inductive kres := KDone (t : term) | KThrew (t : term) | KUB.

Definition k_set (ltr tty color : bool) (ok : nat -> bool) (s : str) (t : term) : kres :=
  match set_line_m ltr tty color ok s t with
  | TDone _ _ t' => KDone t'
  | TThrew _ t' => KThrew t'
  | TUB => KUB
  end.
Definition forced (pf : bool) (t : term) : term := mkTerm (tm_line t) (tm_pos t) pf.

(** commandprocessor.h:151-159 *)
Definition clear_m (ltr tty color pf : bool) (ok : nat -> bool) (t : term) : kres :=
  if negb (ok 0) then KThrew t                                  (* 153 GetLine *)
  else if negb (ok 1) then KThrew (forced pf t)                 (* 155 Prompt *)
  else k_set ltr tty color (fun n => ok (2 + n)) (tm_line t) (reset_cursor (forced pf t)).  (* 156-157 *)

(** commandprocessor.h:123-150 *)
Definition tab_m (ltr tty color pf : bool) (ok : nat -> bool) (completions : list str) (t : term) : kres :=
  if negb (ok 0) then KThrew t                                  (* 125 GetLine *)
  else if negb (ok 1) then KThrew t                             (* 126 GetCompletions *)
  else
    match completions with
    | [] => KDone t
    | [c] => if negb (ok 2) then KThrew t                       (* 132 *)
             else k_set ltr tty color (fun n => ok (3 + n)) (c ++ [" "%char]) t
    | _ =>
        if negb (ok 2) then KThrew t                            (* 136 CommonPrefix *)
        else
          match common_prefix completions with
          | None => KUB
          | Some pre =>
              if Nat.ltb (length (tm_line t)) (length pre) then
                k_set ltr tty color (fun n => ok (3 + n)) pre t
              else if negb (ok 3) then KThrew t                 (* 143-144 items *)
              else if negb (ok 4) then KThrew (forced pf t)     (* 146 Prompt *)
              else k_set ltr tty color (fun n => ok (5 + n)) (tm_line t) (reset_cursor (forced pf t))
          end
    end.
