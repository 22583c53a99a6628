(** * Specification of sessions that lack the memory for some lines *)

From Verif Require Import Base HistoryModel MenuModel SessionModel SessionSpec AllocModel AllocSpec AllocFeedModel.
Open Scope nat_scope.
Open Scope list_scope.

(** A line and whether there is memory for its words and for recording it. *)
Notation scarce := (str * (bool * bool))%type.

(** Lines fed one after the other, whatever [Feed] lets out for lack of memory. *)
Fixpoint feeds_m (E : env) (fuel : nat) (lines : list scarce) (w : world) : fres :=
  match lines with
  | [] => FOk w
  | (l, (ok, ok')) :: ls =>
      match feed_m E ok ok' fuel l w with
      | MThrew w' => feeds_m E fuel ls w'
      | MRan r => match r with FOk w' => feeds_m E fuel ls w' | _ => r end
      end
  end.

(** [kept] are the lines without those that were lost: a line can be lost only if
    memory is scarce for it.  [n] lines were lost when about to be recorded. *)
Inductive without : list scarce -> list str -> nat -> Prop :=
| without_nil : without [] [] 0
| without_keep l m ls kept n : without ls kept n -> without ((l, m) :: ls) (l :: kept) n
| without_words l m ls kept n : fst m = false -> without ls kept n -> without ((l, m) :: ls) kept n
| without_record l m ls kept n : snd m = false -> without ls kept n -> without ((l, m) :: ls) kept (S n).

(** Two sessions in which the same happened: the same menus, the same current
    one, the same events, the same history but for [n] more commands counted in
    the first.  Only what is in the storage may differ. *)
Definition same_session (n : nat) (w v : world) : Prop :=
  w_root w = w_root v /\ w_next w = w_next v /\ w_sid w = w_sid v /\ w_cur w = w_cur v /\
  w_exit w = w_exit v /\ w_trace w = w_trace v /\ alike (w_hist w) (w_hist v) /\
  h_cmds (w_hist w) = n + h_cmds (w_hist v).

(** The same outcome; [n] as above if both went well. *)
Definition same_outcome (R : world -> world -> Prop) (a b : fres) : Prop :=
  match a, b with
  | FOk w, FOk v => R w v
  | FExc x w, FExc y v => x = y /\ R w v
  | FUB, FUB | FFuel, FFuel => True
  | _, _ => False
  end.
