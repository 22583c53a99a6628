(** * Model of interactive sessions
    Source: /repo/include/cli/detail/commandprocessor.h, clilocalsession.h. *)

From Verif Require Import Base FromStringModel HistoryModel PrefixModel TerminalModel MenuModel SessionModel CompletionModel.
Open Scope nat_scope.
Open Scope list_scope.

(** commandprocessor.h:164-166 data members: the session and the terminal. *)
Record proc := mkProc { p_world : world; p_term : term }.

(** Outcomes of handling a key: normal, an exception propagating to the scheduler,
    undefined behaviour, recursion deeper than the fuel. *)
Inductive pres := POk (p : proc) | PExc (x : exn) (p : proc) | PUB | PFuel.
Definition p_bind (r : pres) (f : proc -> pres) : pres :=
  match r with POk p => f p | _ => r end.
Definition of_hres (r : hres) (t : term) : pres :=
  match r with HOk w => POk (mkProc w t) | HExc x w => PExc x (mkProc w t) | HUB => PUB | HFuel => PFuel end.
Definition of_fres (r : fres) (t : term) : pres :=
  match r with FOk w => POk (mkProc w t) | FExc x w => PExc x (mkProc w t) | FUB => PUB | FFuel => PFuel end.

Definition p_out (s : str) (p : proc) : proc := mkProc (out s (p_world p)) (p_term p).
Definition p_log (e : event) (p : proc) : proc := mkProc (log e (p_world p)) (p_term p).
(** [terminal.SetLine] *)
Definition p_set_line (tty color : bool) (s : str) (p : proc) : proc :=
  let (b, t) := set_line tty color s (p_term p) in p_out b (mkProc (p_world p) t).
Definition p_reset_cursor (p : proc) : proc := mkProc (p_world p) (reset_cursor (p_term p)).
(** [session.Prompt]: the colour state of the stream is the terminal's. *)
Definition p_prompt (tty color : bool) (p : proc) : pres :=
  match prompt tty color (tm_force (p_term p)) (p_world p) with
  | None => PUB
  | Some (b, force) =>
      POk (p_out b (mkProc (p_world p) (mkTerm (tm_line (p_term p)) (tm_pos (p_term p)) force)))
  end.

Section Run.
Context (E : env) (fuel : nat) (tty : bool).

(** commandprocessor.h:91-162 [NewCommand]; [color] is the global colour flag when
    something is printed (the functions called meanwhile may change it; the
    libraries themselves do not). *)
Definition process (color : bool) (sy : symbol) (p : proc) : pres :=
  let w := p_world p in
  let line := get_line (p_term p) in
  match sy with
  | SyNothing => POk p                                                       (* 95-98 *)
  | SyEof => of_hres (session_exit E w) (p_term p)                           (* 99-103 *)
  | SyCommand cmd =>                                                         (* 104-111 *)
      let p1 := p_log (EvInput (w_sid w) false) p in
      p_bind (of_fres (feed E fuel cmd (p_world p1)) (p_term p1)) (fun p2 =>
      p_bind (p_prompt tty color p2) (fun p3 =>
      POk (p_log (EvInput (w_sid (p_world p3)) true) p3)))
  | SyDown =>                                                                (* 112-116 *)
      match next_cmd w with
      | None => PUB
      | Some (s, w1) => POk (p_set_line tty color s (mkProc w1 (p_term p)))
      end
  | SyUp =>                                                                  (* 117-122 *)
      match previous_cmd line w with
      | None => PUB
      | Some (s, w1) => POk (p_set_line tty color s (mkProc w1 (p_term p)))
      end
  | SyTab =>                                                                 (* 123-150 *)
      match get_completions (e_plat E) fuel line w with
      | GUB => PUB
      | GFuel => PFuel
      | GOk [] => POk p
      | GOk [c] => POk (p_set_line tty color (c ++ lit " ") p)
      | GOk l =>
          match common_prefix l with
          | None => PUB
          | Some pre =>
              if Nat.ltb (length line) (length pre) then POk (p_set_line tty color pre p)
              else
                p_bind (p_prompt tty color (p_out (nl ++ flat_map (fun c => tab ++ c) l ++ nl) p)) (fun p1 =>
                POk (p_set_line tty color line (p_reset_cursor p1)))
          end
      end
  | SyClear =>                                                               (* 151-159 *)
      p_bind (p_prompt tty color (p_out clear_screen p)) (fun p1 =>
      POk (p_set_line tty color line (p_reset_cursor p1)))
  end.

(** commandprocessor.h:80-84 [Keypressed], for a key and the colour flag before and
    after user code ran. *)
Record keystroke := mkStroke { ks_key : key; ks_color : bool; ks_color' : bool }.
Definition press (k : keystroke) (p : proc) : pres :=
  match keypressed tty (ks_color k) (ks_key k) (p_term p) with
  | None => PUB
  | Some (b, sy, t) => process (ks_color' k) sy (p_out b (mkProc (p_world p) t))
  end.
Fixpoint presses (ks : list keystroke) (p : proc) : pres :=
  match ks with
  | [] => POk p
  | k :: ks' => p_bind (press k p) (presses ks')
  end.

(** clilocalsession.h:63-70 the constructor of [CliLocalTerminalSession], after that
    of [CliSession] *)
Definition open_local (color : bool) (w : world) : pres :=
  p_bind (of_hres (session_enter E w) term_init) (p_prompt tty color).
End Run.
