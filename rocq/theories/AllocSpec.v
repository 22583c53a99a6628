(** * Specification of the history when memory runs out *)

From Verif Require Import Base HistoryModel HistorySpec AllocModel.

(** One operation of a session; [ok n] tells if its [n]-th allocation succeeds. *)
Definition hstep_m (h : history) (o : hop) (ok : nat -> bool) : attempt :=
  match o with
  | ONew s => new_command_m (ok 0) h s
  | OBang s => bang_m (ok 0) (ok 1) h s
  | OUp line => previous_m (ok 0) (ok 1) h line
  | ODown => next_m (ok 0) h
  | OLoad l => load_m ok h l
  end.

(** A session that goes on after each exception. *)
Fixpoint hrun_m (h : history) (os : list (hop * (nat -> bool))) : option history :=
  match os with
  | [] => Some h
  | (o, ok) :: os' =>
      match hstep_m h o ok with
      | ADone h' | AThrew h' => hrun_m h' os'
      | AUB => None
      end
  end.

Definition reachable_m (size : nat) (h : history) : Prop :=
  exists os, hrun_m (history_init size) os = Some h.

(** How many command lines were entered. *)
Definition is_line (o : hop) : bool := match o with ONew _ | OBang _ => true | _ => false end.
Definition lines_entered (os : list hop) : nat := length (filter is_line os).

(** The same history, but for the number of commands entered. *)
Definition alike (h g : history) : Prop :=
  h_max h = h_max g /\ h_buf h = h_buf g /\ h_cur h = h_cur g /\
  h_browse h = h_browse g /\ h_oldest h = h_oldest g.
