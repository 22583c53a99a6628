(** * Model of asynchronous sessions on the standard input
    Source: /repo/include/cli/detail/genericcliasyncsession.h. *)

From Verif Require Import Base FromStringModel HistoryModel StorageModel TerminalModel MenuModel SessionModel.
Open Scope nat_scope.
Open Scope list_scope.

(** How [asiolib::async_read_until] ends: a delimiter was found, the number of bytes up
    to and including it; end of file or an error; the descriptor was closed.  The stream
    buffer has the default limit (none), so [not_found] does not occur. *)
Inductive aend := AFound (n : nat) | AEnd | AAborted.
(** The pending operation: none; waiting for bytes; ended, its handler being ready. *)
Inductive pend := PdNone | PdWait | PdDone (r : aend).
(** genericcliasyncsession.h:92-93 the members [inputBuffer] and [input] (open or not),
    the session, the colour state of [std::cout], and whether the object exists. *)
Record asess := mkAs { as_world : world; as_force : bool; as_buf : str; as_pend : pend; as_open : bool; as_alive : bool }.
(** Outcomes: returned; an exception leaves [Run]; a destroyed session is used;
    other undefined behaviour; recursion too deep. *)
Inductive ares := AOk (s : asess) | AExc (x : exn) (s : asess) | AGone | AUB | AFuel.
Definition a_bind (r : ares) (f : asess -> ares) : ares := match r with AOk s => f s | _ => r end.

(** The position after the first newline. *)
Fixpoint delimiter (s : str) : option nat :=
  match s with
  | [] => None
  | c :: s' => if Ascii.eqb c "010" then Some 1 else match delimiter s' with Some n => Some (S n) | None => None end
  end.
(** [async_read_until] looks at the buffer first, when started and after each read. *)
Definition look (buf : str) : pend := match delimiter buf with Some n => PdDone (AFound n) | None => PdWait end.
Definition set_pend (q : pend) (s : asess) : asess := mkAs (as_world s) (as_force s) (as_buf s) q (as_open s) (as_alive s).
Definition set_buf (b : str) (s : asess) : asess := mkAs (as_world s) (as_force s) b (as_pend s) (as_open s) (as_alive s).

Section Async.
(** [color]: the global colour flag, that user code may change. *)
Context (E : env) (fuel : nat) (tty : bool) (color : list event -> bool).

(** genericcliasyncsession.h:59-71 [Read] *)
Definition as_read (s : asess) : ares :=
  match prompt tty (color (w_trace (as_world s))) (as_force s) (as_world s) with
  | None => AUB
  | Some (b, force) => AOk (mkAs (out b (as_world s)) force (as_buf s) (look (as_buf s)) (as_open s) (as_alive s))
  end.
(** genericcliasyncsession.h:83 [Feed] *)
Definition as_feed (line : str) (s : asess) : ares :=
  match feed E fuel line (as_world s) with
  | FOk w => AOk (mkAs w (as_force s) (as_buf s) (as_pend s) (as_open s) (as_alive s))
  | FExc x w => AExc x (mkAs w (as_force s) (as_buf s) (as_pend s) (as_open s) (as_alive s))
  | FUB => AUB
  | FFuel => AFuel
  end.
(** genericcliasyncsession.h:73-90 [NewLine] *)
Definition new_line (r : aend) (s : asess) : ares :=
  match r with
  | AFound n => a_bind (as_feed (firstn (n - 1) (as_buf s)) (set_buf (skipn n (as_buf s)) s)) as_read
  | _ => AOk (mkAs (as_world s) (as_force s) (as_buf s) (as_pend s) false (as_alive s))
  end.

(** What happens: bytes arrive at a waiting read, the input ends, the thread runs the
    ready handler, the session is destroyed (genericcliasyncsession.h:52-55): closing the
    descriptor ends a waiting read. *)
Inductive ainput := IBytes (chunk : str) | IEnd | IHandle | IDestroy.
Definition as_step (i : ainput) (s : asess) : ares :=
  match i with
  | IBytes chunk =>
      match as_pend s with PdWait => AOk (set_pend (look (as_buf s ++ chunk)) (set_buf (as_buf s ++ chunk) s)) | _ => AOk s end
  | IEnd => match as_pend s with PdWait => AOk (set_pend (PdDone AEnd) s) | _ => AOk s end
  | IHandle =>
      match as_pend s with
      | PdDone r => if as_alive s then new_line r (set_pend PdNone s) else AGone
      | _ => AOk s
      end
  | IDestroy =>
      if as_alive s then
        AOk (mkAs (as_world s) (as_force s) (as_buf s) (match as_pend s with PdWait => PdDone AAborted | q => q end) false false)
      else AOk s
  end.
(** The program goes on after an exception ([Run] is called again). *)
Fixpoint as_run (is : list ainput) (s : asess) : ares :=
  match is with
  | [] => AOk s
  | i :: is' => match as_step i s with AOk s' | AExc _ s' => as_run is' s' | r => r end
  end.
End Async.

(** genericcliasyncsession.h:46-51 the constructor: a history of one command; neither
    [Enter] nor [Exit] of the session is called by this class. *)
Definition as_start (tty : bool) (color : list event -> bool) (sid : nat) (root : cmd) (nxt : nat) (st : storage) (tr : list event) : ares :=
  as_read tty color (mkAs (open_session sid 1 root nxt st tr) false [] PdNone true true).
