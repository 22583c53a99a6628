(** * Model of the Linux keyboard when calls fail
    Source: /repo/include/cli/detail/linuxkeyboard.h.  The steps of KeyboardModel.v (among them a
    [select] that fails, [WSignal]), and
    - [pipe] fails (59), so that both descriptors are indeterminate, or returns one that does not fit into
      an [fd_set] (1024 or more);
    - [read] fails (165): [GetChar] returns 0 and nothing is consumed;
    - [Notify], that is [Post], throws an exception derived from [std::exception] (153, 156-159): [Read]
      ends, and leaves the pipe open;
    - [write] fails (91), or the reader is gone and the program ignores SIGPIPE: nobody notices, and the
      [close] that follows (92) makes the other end readable as well, if no child process has the descriptor;
    - [tcgetattr] or [tcsetattr] fails (221, 225, 230), for ever if the standard input is no terminal.
    Reading the indeterminate [oldt] gives a fixed value, [junk].  Not modelled: exceptions of the mutex;
    [Post] throwing something else ([Read] is [noexcept]: the program is terminated). *)

From Verif Require Import Base TerminalModel KeyboardModel.
Open Scope nat_scope.
Open Scope list_scope.

Inductive lpipe := PipeOk | PipeHigh | PipeFailed.
Inductive lact := LOk (a : kact) | LRead | LPost | LWrite | LGetattr | LSetattr.
Inductive lstate := LRun (s : kbd) | LUB.

(** linuxkeyboard.h:70 [FD_SET] out of bounds, or indeterminate descriptors (70, 91) *)
Definition trap (p : lpipe) (a : lact) (s : kbd) : bool :=
  match p, a with
  | PipeOk, _ => false
  | _, LOk WGo => match k_w s with WUnlock => true | _ => false end
  | PipeFailed, (LOk MGo | LWrite) => match k_m s with MDt1 => true | _ => false end
  | _, _ => false
  end.
Section Keyboard.
Context (sgn : bool).
(** linuxkeyboard.h:162-168 *)
Definition no_char (s : kbd) : kbd :=
  mkKbd (k_w s) (k_m s) (k_enabled s) (k_mtx s) (k_stop s) (k_reader s) (k_tty s) (k_old s) (k_ready s) (k_eof s) (k_read s ++ ["000"%char]) (k_cons s) (k_keys s).
Definition failing (a : lact) (s : kbd) : option kbd :=
  match a with
  | LOk MGo => match k_m s with MDt2 => Some (to_m MDt3 (with_pipe true (k_reader s) s)) | _ => k_step sgn MGo s end     (* 92 *)
  | LOk a => k_step sgn a s
  | LRead =>
      match k_w s with
      | WGet0 => Some (to_w (get0 sgn "000"%char) (no_char s))
      | WGet1 => Some (to_w (get1 "000"%char) (no_char s))
      | WGet2 => Some (to_w (get2 "000"%char) (no_char s))
      | WGet3 => Some (to_w (get3 "000"%char) (no_char s))
      | _ => None
      end
  | LPost => match k_w s with WNotify _ => Some (to_w WDone s) | _ => None end
  | LWrite => match k_m s with MDt1 => Some (to_m MDt2 s) | _ => None end
  | LGetattr => match k_m s with MAct0 => Some (to_m MAct1 s) | _ => None end
  | LSetattr => match k_m s with MAct1 => Some (to_m MAct2 s) | MDe0 => Some (to_m MDe1 s) | MDt0 => Some (to_m MDt1 s) | _ => None end
  end.
Definition l_step (p : lpipe) (a : lact) (s : kbd) : option lstate :=
  match k_m s with
  | MKilled => None
  | _ => if trap p a s then Some LUB else option_map LRun (failing a s)
  end.
Fixpoint l_run (p : lpipe) (l : list lact) (c : lstate) : option lstate :=
  match l, c with
  | [], _ => Some c
  | a :: l', LRun s => match l_step p a s with Some c' => l_run p l' c' | None => None end
  | _ :: _, LUB => None
  end.
End Keyboard.
