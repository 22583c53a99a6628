(** * Model of the Windows keyboard when calls fail
    Source: /repo/include/cli/detail/winkeyboard.h.  The steps of WinKeyboardModel.v, and
    - [WaitForMultipleObjects] fails (65-71; for ever if [CreateEvent] failed or the standard input is
      no handle that can be waited for): with assertions the program is aborted; without ([NDEBUG]),
      [WaitKbHit] returns as if there were input;
    - [_getch] returns [EOF] (135-141, 147-157): a key of its own, or, after a prefix, an ignored one;
    - [Notify], that is [Post], throws an exception derived from [std::exception] (122, 125-128): [Read] ends;
    - [SetEvent] fails (90), which nobody notices.
    Not modelled: [Post] throwing something else ([Read] is [noexcept]: the program is terminated);
    failures of [std::thread]. *)

From Verif Require Import Base TerminalModel WinKeyboardModel.
Open Scope nat_scope.
Open Scope list_scope.

Inductive fact := FOk (a : hact) | FWait | FEof | FPost | FStop.
Inductive fstate := FRun (s : wkbd) | FAborted.
Definition at_w (p : hpc) (s : wkbd) : wkbd := mkWk p (wk_m s) (wk_stop s) (wk_recs s) (wk_crt s) (wk_keys s).
(** [debug]: compiled with assertions *)
Definition f_step (debug : bool) (a : fact) (s : wkbd) : option fstate :=
  match a with
  | FOk a => option_map FRun (h_step a s)
  | FWait => match wk_w s with HWait => Some (if debug then FAborted else FRun (at_w HGet s)) | _ => None end
  (** a code the runtime library holds back is returned without a call of Windows *)
  | FEof =>
      match wk_w s, wk_crt s with
      | HGet, None => Some (FRun (at_w (HNotify KEof) s))
      | HGet2, None => Some (FRun (at_w (HNotify KIgnored) s))
      | _, _ => None
      end
  | FPost => match wk_w s with HNotify _ => Some (FRun (at_w HDone s)) | _ => None end
  | FStop => match wk_m s with DStop => Some (FRun (mkWk (wk_w s) DJoin (wk_stop s) (wk_recs s) (wk_crt s) (wk_keys s))) | _ => None end
  end.
Fixpoint f_run (debug : bool) (l : list fact) (c : fstate) : option fstate :=
  match l, c with
  | [], _ => Some c
  | a :: l', FRun s => match f_step debug a s with Some c' => f_run debug l' c' | None => None end
  | _ :: _, FAborted => None
  end.
