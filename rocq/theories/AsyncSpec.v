(** * Specification of asynchronous sessions *)

From Verif Require Import Base FromStringModel HistoryModel StorageModel TerminalModel MenuModel SessionModel AsyncModel.
Open Scope nat_scope.
Open Scope list_scope.

(** The bytes read from the standard input during a run. *)
Section Arrived.
Context (E : env) (fuel : nat) (tty : bool) (color : list event -> bool).
Fixpoint arrived (is : list ainput) (s : asess) : str :=
  match is with
  | [] => []
  | i :: is' =>
      match i, as_pend s with IBytes chunk, PdWait => chunk | _, _ => [] end ++
      match as_step E fuel tty color i s with AOk s' | AExc _ s' => arrived is' s' | _ => [] end
  end.

(** A conversation: a prompt, a line, a prompt, a line ... until an exception. *)
Inductive dres := DOk (w : world) (force : bool) | DExc (x : exn) (w : world) | DUB | DFuel.
Fixpoint dialog (ls : list str) (force : bool) (w : world) : dres :=
  match prompt tty (color (w_trace w)) force w with
  | None => DUB
  | Some (b, force') =>
      match ls with
      | [] => DOk (out b w) force'
      | l :: ls' =>
          match feed E fuel l (out b w) with
          | FOk w' => dialog ls' force' w'
          | FExc x w' => DExc x w'
          | FUB => DUB
          | FFuel => DFuel
          end
      end
  end.
End Arrived.
Definition said (d : dres) : option world := match d with DOk w _ | DExc _ w => Some w | _ => None end.
