(** * Model of Return when memory runs out

    Source: /repo/include/cli/detail/commandprocessor.h:80-84 and 104-111 over the line editor of
    AllocTermModel.v and [Feed] of AllocFeedModel.v (with its simplifications).  The
    allocations, in order: two in [Terminal::Keypressed] (0, 1), the words (2) and the
    recorded line (3) of [Feed], the text of [Prompt] (4).  A [std::bad_alloc] leaves
    [Keypressed] wherever it comes from: there is no try block and nothing is undone.

    [ltr]: the compiler evaluates the operands of the chain of cli.h:946 from left to right,
    so that the colour is written before the text is copied. *)

From Verif Require Import Base TerminalModel MenuModel SessionModel ProcessorModel AllocTermModel AllocFeedModel.
Open Scope nat_scope.
Open Scope list_scope.

(** Return was handled as [pres] says, or [bad_alloc] left its handling. *)
Inductive rres := RRan (r : pres) | RThrew (p : proc).

Section Run.
Context (E : env) (fuel : nat) (ltr tty : bool).

(** cli.h:943-951 [Prompt] *)
Definition prompt_m (color ok : bool) (p : proc) : rres :=
  match p_prompt tty color p with
  | POk p' =>
      if w_exit (p_world p) then RRan (POk p')                             (* 945 *)
      else if ok then RRan (POk p')
      else if ltr then
        let (b, force) := before_prompt color (tm_force (p_term p)) in
        RThrew (p_out b (mkProc (p_world p) (mkTerm (tm_line (p_term p)) (tm_pos (p_term p)) force)))
      else RThrew p
  | r => RRan r
  end.

(** commandprocessor.h:80-84 and 104-111 *)
Definition return_m (color color' : bool) (ok : nat -> bool) (p : proc) : rres :=
  match keypressed_m ltr tty color ok KRet (p_term p) with
  | TUB => RRan PUB
  | TThrew b t => RThrew (p_out b (mkProc (p_world p) t))
  | TDone b (SyCommand cmd) t =>
      let p0 := p_out b (mkProc (p_world p) t) in
      let p1 := p_log (EvInput (w_sid (p_world p0)) false) p0 in           (* 106 *)
      match feed_m E (ok 2) (ok 3) fuel cmd (p_world p1) with              (* 107 *)
      | MThrew w => RThrew (mkProc w t)
      | MRan r =>
          match of_fres r t with
          | POk p2 =>
              match prompt_m color' (ok 4) p2 with                         (* 108 *)
              | RRan (POk p3) => RRan (POk (p_log (EvInput (w_sid (p_world p3)) true) p3))  (* 109 *)
              | r' => r'
              end
          | r' => RRan r'
          end
      end
  | TDone b sy t => RRan (process E fuel tty color' sy (p_out b (mkProc (p_world p) t)))
  end.
End Run.
