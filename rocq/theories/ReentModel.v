(** * Model of user code that calls the session
    Source: /repo/include/cli/cli.h, as SessionModel.v, where user code does not call
    the functions of the session.  Here commands, actions and handlers of the user may call the
    public functions of [CliSession] (cli.h:307-391) on the session they run in, in any
    number and nesting, and set the actions and handlers, of the session or of its [Cli].
    The colour state of the stream, which [Prompt] needs, is given with the call.  The constant
    functions [GetCompletions] and [OutStream] are left out. *)

From Verif Require Import Base SplitModel FromStringModel HistoryModel StorageModel MenuModel SessionModel.
Open Scope nat_scope.
Open Scope list_scope.

(** The public functions; the number for [ExecFromHistory] is a value of [unsigned int].
    [KSet]: sets an action or a handler ([None]: an empty one), cli.h:146, 153, 162-165,
    174-177 and 349-357. *)
Inductive call :=
| KFeed (line : str) | KExit | KEnter | KHelp | KShow | KFromHistory (n : Z)
| KCurrent (id : nat) | KPrevious (line : str) | KNext | KSet (k : hook) (a : option nat)
| KPrompt (tty color force : bool).

(** ** User code
    A program: after each operation, or call, it sees the result (a string, for
    [PreviousCmd] and [NextCmd]) or the exception, that it may catch, and everything
    that happened. *)
Inductive rop := RDo (o : op) | RCall (c : call).
Inductive answer := AGot (s : option str) | AThrew (x : exn).
Inductive prog := PEnd (e : uend) | PDo (o : rop) (k : answer -> list event -> prog).

(** As [env] of SessionModel.v, whose user functions are not used, nor [e_has].  The first
    number given to [re_hook] is the action's. *)
Record renv := mkREnv {
  re_env : env;
  re_handler : nat -> nat -> list value -> list event -> prog;
  re_hook : nat -> nat -> hook -> list str -> list event -> prog
}.

(** The actions and handlers in use, cli.h:241-244, 387-388 (by number; [None]: an empty
    [std::function]); and, for the record, when they were set, called, or found empty. *)
Inductive note := NSet (k : hook) (a : option nat) | NRun (k : hook) (a : nat) | NEmpty (k : hook).
Record acts := mkActs { a_now : hook -> option nat; a_notes : list note }.
Definition hook_eqb (j k : hook) : bool :=
  match j, k with
  | KCliEnter, KCliEnter | KCliExit, KCliExit | KSesEnter, KSesEnter | KSesExit, KSesExit | KExcept, KExcept | KWrong, KWrong => true
  | _, _ => false
  end.
Definition noted (n : note) (a : acts) : acts := mkActs (a_now a) (a_notes a ++ [n]).
(** Assignment to the [std::function].  An action that replaces itself must not use its
    captures afterwards; this is left to the user. *)
Definition set_act (k : hook) (x : option nat) (a : acts) : acts :=
  noted (NSet k x) (mkActs (fun j => if hook_eqb j k then x else a_now a j) (a_notes a)).

(** The state, how many operations changed a menu so far, and the actions. *)
Record rstate := mkR { r_w : world; r_touched : nat; r_acts : acts }.
Definition upd (f : world -> world) (s : rstate) : rstate := mkR (f (r_w s)) (r_touched s) (r_acts s).
Definition upd_acts (f : acts -> acts) (s : rstate) : rstate := mkR (r_w s) (r_touched s) (f (r_acts s)).
(** Outcomes of code (a string, when it returns one), and of [Exec]. *)
Inductive rres := ROk (a : option str) (s : rstate) | RExc (x : exn) (s : rstate) | RUB | RFuel.
Inductive xres := XDone (found : bool) (s : rstate) | XExc (x : exn) (s : rstate) | XUB | XFuel.
Definition r_bind (r : rres) (f : rstate -> rres) : rres := match r with ROk _ s => f s | _ => r end.
Definition x_bind (r : xres) (f : rstate -> xres) : xres := match r with XDone false s => f s | _ => r end.

Section Run.
Context (R : renv) (rec : call -> rstate -> rres).
Notation E := (re_env R).

Definition do_op (o : op) (s : rstate) : rstate :=
  mkR (apply_op (r_w s) o) (r_touched s + if is_tree_op o then 1 else 0) (r_acts s).
Fixpoint run_prog (p : prog) (s : rstate) : rres :=
  match p with
  | PEnd UReturn => ROk None s
  | PEnd (UThrow x) => RExc x s
  | PDo (RDo o) k => let s' := do_op o s in run_prog (k (AGot None) (w_trace (r_w s'))) s'
  | PDo (RCall c) k =>
      match rec c s with
      | ROk a s' => run_prog (k (AGot a) (w_trace (r_w s'))) s'
      | RExc x s' => run_prog (k (AThrew x) (w_trace (r_w s'))) s'
      | RUB => RUB
      | RFuel => RFuel
      end
  end.
(** Calls the action in use; [none]: what happens when it is empty. *)
Definition r_hook (k : hook) (args : list str) (none : rstate -> rres) (s : rstate) : rres :=
  match a_now (r_acts s) k with
  | Some a =>
      let s1 := upd (log (EvHook (w_sid (r_w s)) k args)) (upd_acts (noted (NRun k a)) s) in
      run_prog (re_hook R a (w_sid (r_w s)) k args (w_trace (r_w s1))) s1
  | None => none (upd_acts (noted (NEmpty k)) s)
  end.
Definition r_call_user (n : nat) (args : list value) (s : rstate) : rres :=
  let s1 := upd (log (EvCall (w_sid (r_w s)) n args)) s in
  run_prog (re_handler R (w_sid (r_w s)) n args (w_trace (r_w s1))) s1.

(** ** The functions of the session *)
(** cli.h:338-347, 206-210 *)
Definition r_exit (s : rstate) : rres :=
  r_bind (r_hook KSesExit [] (RExc bad_function_call) s) (fun s1 =>
  r_bind (r_hook KCliExit [] (ROk None) s1) (fun s2 =>
  match get_commands (w_hist (r_w s2)) with
  | None => RUB
  | Some cmds => ROk None (upd (fun w => set_exit true (set_store (st_store (w_store w) cmds) w)) s2)
  end)).
(** cli.h:330-336, 200-204 *)
Definition r_enter (s : rstate) : rres :=
  r_bind (r_hook KCliEnter [] (ROk None) s) (r_hook KSesEnter [] (ROk None)).
(** cli.h:953-958 *)
Definition r_help (s : rstate) : rres :=
  match help_text (r_w s) with None => RUB | Some t => ROk None (upd (out t) s) end.
(** cli.h:359 *)
Definition r_show (s : rstate) : rres :=
  match show (w_hist (r_w s)) with None => RExc out_of_range s | Some t => ROk None (upd (out t) s) end.
(** cli.h:361-366 *)
Definition r_from_history (n : Z) (s : rstate) : rres :=
  match forget_latest (w_hist (r_w s)) with
  | None => RUB
  | Some h' =>
      let s1 := upd (set_hist h') s in
      match at_id h' n with
      | AtUB => RUB
      | AtExc => RExc out_of_range s1
      | AtOk line => rec (KFeed line) s1
      end
  end.

(** cli.h:892-907 *)
Definition r_builtin (h : hid) (args : list value) (s : rstate) : rres :=
  match h, args with
  | HHelp, _ => r_help s
  | HExit, _ => r_exit s
  | HHistory, _ => r_show s
  | HBang, [VInt n] => r_from_history n s
  | _, _ => RUB
  end.

(** ** [Exec], as in SessionModel.v *)
(** cli.h:784-793; undefined behaviour when a [std::bad_cast] escapes and a menu was
    changed meanwhile, by the function or a line it fed (any menu, and enabled flags, are
    counted; the loops one by one: LiveModel.v). *)
Definition r_run_fn (bi : hid -> list value -> rstate -> rres) (h : hid) (args : list value) (s : rstate) : xres :=
  match (match h with HUser n => r_call_user n args s | _ => bi h args s end) with
  | ROk _ s' => XDone true s'
  | RExc (XBadCast _) s' =>
      match h with
      | HUser _ => if Nat.eqb (r_touched s) (r_touched s') then XDone false s' else XUB
      | _ => XDone false s'
      end
  | RExc x s' => XExc x s'
  | RUB => XUB
  | RFuel => XFuel
  end.
(** cli.h:841-842 *)
Definition r_run_free (h : hid) (args : list str) (s : rstate) : xres :=
  match h with
  | HUser n =>
      match r_call_user n [VList args] s with
      | ROk _ s' => XDone true s'
      | RExc x s' => XExc x s'
      | RUB => XUB
      | RFuel => XFuel
      end
  | _ => XUB
  end.

Section Exec.
Context (bi : hid -> list value -> rstate -> rres).
(** cli.h:777-796, 835-845 *)
Definition r_exec_leaf (c : cmd) (toks : list str) (s : rstate) : xres :=
  match c with
  | CFn _ name en _ pars _ h =>
      if negb en then XDone false s
      else if negb (Nat.eqb (length toks) (length pars + 1)) then XDone false s
      else match toks with
           | [] => XUB
           | t :: args =>
               if str_eqb name t then
                 match convert_all E pars args with
                 | COk vs => r_run_fn bi h vs s
                 | CBad => XDone false s
                 | CUB => XUB
                 end
               else XDone false s
           end
  | CFree _ name en _ _ h =>
      if negb en then XDone false s
      else match toks with
           | [] => XUB
           | t :: args => if str_eqb name t then r_run_free h args s else XDone false s
           end
  | CMenu _ _ _ _ _ _ => XDone false s
  end.
Fixpoint r_try_all (f : cmd -> rstate -> xres) (l : list cmd) (s : rstate) : xres :=
  match l with
  | [] => XDone false s
  | k :: l' => x_bind (f k s) (r_try_all f l')
  end.
(** cli.h:654-678 *)
Fixpoint r_handle (toks : list str) (up : bool) (ctx : list cmd) (s : rstate) {struct toks} : xres :=
  match ctx with
  | CMenu id name en _ _ kids :: anc =>
      if negb en then XDone false s
      else match toks with
           | [] => XUB
           | t :: rest =>
               if str_eqb name t || (up && str_eqb (lit "..") t) then
                 match rest with
                 | [] => XDone true (upd (set_cur id) s)
                 | _ =>
                     x_bind
                       (r_try_all (fun k s1 =>
                          match k with
                          | CMenu _ _ _ _ _ _ => r_handle rest false (k :: ctx) s1
                          | _ => r_exec_leaf k rest s1
                          end) kids s)
                       (fun s1 => match anc with [] => XDone false s1 | _ => r_handle rest true anc s1 end)
                 end
               else XDone false s
           end
  | _ => XDone false s
  end.
Definition r_exec (toks : list str) (ctx : list cmd) (k : cmd) (s : rstate) : xres :=
  match k with
  | CMenu _ _ _ _ _ _ => r_handle toks false (k :: ctx) s
  | _ => r_exec_leaf k toks s
  end.
(** cli.h:509-518 *)
Definition r_scan (toks : list str) (ctx : list cmd) (s : rstate) : xres :=
  match ctx with
  | [] => XDone false s
  | m :: anc =>
      if negb (cmd_en m) then XDone false s
      else x_bind (r_try_all (r_exec toks ctx) (cmd_kids m) s)
             (fun s1 => match anc with [] => XDone false s1 | _ => r_handle toks true anc s1 end)
  end.
End Exec.

(** cli.h:220-226, 212-218 *)
Definition r_wrong_command (line : str) (s : rstate) : rres :=
  r_hook KWrong [line] (fun s => ROk None (upd (out (lit "wrong command: " ++ line ++ nl)) s)) s.
Definition r_std_exception (line what : str) (s : rstate) : rres :=
  r_hook KExcept [line; what] (fun s => ROk None (upd (out (what ++ nl)) s)) s.
Definition r_no_builtin (h : hid) (args : list value) (s : rstate) : rres := RUB.
(** cli.h:923-929 *)
Definition r_dispatch (toks : list str) (line : str) (s : rstate) : xres :=
  x_bind (r_scan r_builtin toks [global_menu] s) (fun s1 =>
  match locate (w_cur (r_w s1)) [] (w_root (r_w s1)) with
  | None => XUB
  | Some ctx =>
      x_bind (r_scan r_no_builtin toks ctx s1) (fun s2 =>
      match r_wrong_command line s2 with
      | ROk _ s3 => XDone false s3
      | RExc x s3 => XExc x s3
      | RUB => XUB
      | RFuel => XFuel
      end)
  end).
(** cli.h:912-941 *)
Definition r_feed (line : str) (s : rstate) : rres :=
  match split line with
  | None => RUB
  | Some [] => ROk None s
  | Some toks =>
      match new_command (w_hist (r_w s)) line with
      | None => RUB
      | Some h =>
          match r_dispatch toks line (upd (set_hist h) s) with
          | XDone _ s' => ROk None s'
          | XExc (XBadCast what) s' | XExc (XStd what) s' => r_std_exception line what s'
          | XExc XOther s' =>
              ROk None (upd (out (lit "Cli. Unknown exception caught handling command line """ ++ line
                                  ++ lit """" ++ nl)) s')
          | XUB => RUB
          | XFuel => RFuel
          end
      end
  end.

Definition r_call (c : call) (s : rstate) : rres :=
  match c with
  | KFeed line => r_feed line s
  | KExit => r_exit s
  | KEnter => r_enter s
  | KHelp => r_help s
  | KShow => r_show s
  | KFromHistory n => r_from_history n s
  | KCurrent id => ROk None (upd (set_cur id) s)                  (* cli.h:324 *)
  | KPrevious line =>                                            (* cli.h:368-371 *)
      match previous_cmd line (r_w s) with None => RUB | Some (t, w) => ROk (Some t) (upd (fun _ => w) s) end
  | KNext =>                                                     (* cli.h:373-376 *)
      match next_cmd (r_w s) with None => RUB | Some (t, w) => ROk (Some t) (upd (fun _ => w) s) end
  | KSet k a => ROk None (upd_acts (set_act k a) s)
  | KPrompt tty color force =>                                   (* cli.h:943-951 *)
      match prompt tty color force (r_w s) with None => RUB | Some (t, _) => ROk None (upd (out t) s) end
  end.
End Run.

(** Calls nested at most [fuel] deep; [RFuel]: deeper. *)
Fixpoint run_call (R : renv) (fuel : nat) (c : call) (s : rstate) : rres :=
  match fuel with
  | O => RFuel
  | S n => r_call R (run_call R n) c s
  end.
