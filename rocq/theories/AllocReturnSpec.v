(** * Vocabulary for Return when memory runs out *)

From Verif Require Import Base TerminalModel MenuModel SessionModel ProcessorModel ProcessorSpec AllocTermModel AllocReturnModel.
Open Scope nat_scope.
Open Scope list_scope.

(** The session when the line is handed to [Feed]: a new row was begun, input is off. *)
Definition after_ret (p : proc) : world :=
  log (EvInput (w_sid (p_world p)) false) (out crlf (p_world p)).

(** Green and bold, if colours are on *)
Definition prompt_colour (color : bool) : str := if color then sgr 32 ++ sgr 1 else [].

(** Typing: keys that edit the line and Return, each with the allocations that succeed. *)
Inductive akey := AEdit (color : bool) (k : key) (ok : nat -> bool) | ARet (color color' : bool) (ok : nat -> bool).
Definition edits (k : akey) : bool :=
  match k with
  | ARet _ _ _ => true
  | AEdit _ (KAscii c) _ => negb (Ascii.eqb c "009")
  | AEdit _ (KBackspace | KCanc | KLeft | KRight | KHome | KEnd | KIgnored) _ => true
  | _ => false
  end.
(** The program, whoever calls it going on after [bad_alloc]; [None]: undefined, another
    exception, or recursion deeper than the fuel. *)
Definition a_step (E : env) (fuel : nat) (ltr tty : bool) (k : akey) (p : proc) : option proc :=
  match k with
  | AEdit color k ok =>
      match keypressed_m ltr tty color ok k (p_term p) with
      | TDone b _ t | TThrew b t => Some (p_out b (mkProc (p_world p) t))
      | TUB => None
      end
  | ARet color color' ok =>
      match return_m E fuel ltr tty color color' ok p with
      | RRan (POk p') | RThrew p' => Some p'
      | _ => None
      end
  end.
Fixpoint a_run (E : env) (fuel : nat) (ltr tty : bool) (ks : list akey) (p : proc) : option proc :=
  match ks with
  | [] => Some p
  | k :: ks' => match a_step E fuel ltr tty k p with Some p1 => a_run E fuel ltr tty ks' p1 | None => None end
  end.
(** A key that does not fail between handing over a line and the end of the prompt. *)
Definition unharmed (k : akey) : bool :=
  match k with AEdit _ _ _ => true | ARet _ _ ok => negb (ok 0 && ok 1) || (ok 2 && ok 3 && ok 4) end.
