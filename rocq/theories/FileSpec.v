(** * Specification of file sessions *)

From Verif Require Import Base FromStringModel HistoryModel TerminalModel MenuModel SessionModel SessionSpec FileModel.
Open Scope nat_scope.
Open Scope list_scope.

(** The text consists of the lines [ls], each ended by a newline, and [rest]. *)
Definition lines_of (text : str) (ls : list str) (rest : str) : Prop :=
  text = concat (map (fun l => l ++ nl) ls) ++ rest /\
  Forall (fun l => ~ In "010"%char l) ls /\ ~ In "010"%char rest.

(** How often a hook was called. *)
Definition hooked (k : hook) (sid : nat) (evs : list event) : nat :=
  length (filter (fun e => match e with
    | EvHook i k' _ => Nat.eqb i sid && match k, k' with KSesExit, KSesExit | KCliExit, KCliExit => true | _, _ => false end
    | _ => false end) evs).

(** What a file session is to do: before each line the prompt; the lines are fed in
    order until one runs the exit action; after the last one the session exits. *)
Inductive sres := SOk (w : world) | SExc (x : exn) (w : world) | SUB | SFuel.
Section Script.
Context (E : env) (fuel : nat) (tty : bool) (color : list event -> bool).
Fixpoint script (ls : list str) (force : bool) (w : world) : sres :=
  match prompt tty (color (w_trace w)) force w with
  | None => SUB
  | Some (b, force') =>
      match ls with
      | [] =>
          match session_exit E (out b w) with HOk w' => SOk w' | HExc x w' => SExc x w' | HUB => SUB | HFuel => SFuel end
      | l :: ls' =>
          match feed E fuel l (out b w) with
          | FOk w' =>
              if Nat.ltb (hooked KSesExit (w_sid w) (w_trace w)) (hooked KSesExit (w_sid w) (w_trace w')) then SOk w'
              else script ls' force' w'
          | FExc x w' => SExc x w'
          | FUB => SUB
          | FFuel => SFuel
          end
      end
  end.
Definition run_script (ls : list str) (force : bool) (w : world) : sres :=
  match session_enter E w with HOk w' => script ls force w' | HExc x w' => SExc x w' | HUB => SUB | HFuel => SFuel end.
End Script.

Definition same_end (r : lres) (s : sres) : Prop :=
  match r, s with
  | LOk f, SOk w => fs_world f = w
  | LExc x f, SExc y w => x = y /\ fs_world f = w
  | LUB, SUB => True
  | LFuel, SFuel => True
  | _, _ => False
  end.
