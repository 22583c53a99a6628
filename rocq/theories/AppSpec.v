(** * Specification of the example asyncsession.cpp
    What it writes for the lines of its input; [says] is that of simplelocalsession.cpp. *)

From Verif Require Import Base FromStringModel MenuModel SessionModel AsyncModel ExampleSpec AppModel.
Open Scope nat_scope.
Open Scope list_scope.

Definition closing : str := lit "Closing App..." ++ nl.
(** [talk tty s ls o e]: from [s] the lines [ls] make it write [o]; [e]: it ends with the last of them. *)
Inductive talk (tty : bool) : state -> list str -> str -> bool -> Prop :=
| t_wait s : talk tty s [] (shown_prompt tty s) false
| t_exit s line : words line [lit "exit"] -> talk tty s [line] (shown_prompt tty s ++ closing ++ goodbye) true
| t_line s line ls text s' rest e : says (prompted s) line text s' -> talk tty s' ls rest e ->
    talk tty s (line :: ls) (shown_prompt tty s ++ text ++ rest) e.

(** The bytes read from the standard input: those that arrive while the program reads. *)
Section Read.
Context (P : platform) (fuel : nat) (tty : bool).
Fixpoint bytes_read (is : list apinput) (p : aprog) : str :=
  match is with
  | [] => []
  | i :: is' =>
      match i, p with NBytes c, PRuns s => match as_pend s with PdWait => c | _ => [] end | _, _ => [] end
      ++ bytes_read is' (ap_step P fuel tty i p)
  end.
End Read.
(** What it has written, and whether no handler is ready. *)
Definition written (p : aprog) : option str :=
  match p with PRuns s | PReturned _ s => Some (shown (w_trace (as_world s))) | _ => None end.
Definition settled (p : aprog) : Prop :=
  match p with PRuns s => match as_pend s with PdDone _ => False | _ => True end | _ => True end.
