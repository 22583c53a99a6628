(** * Model of the telnet server: connections, the scheduler's queue, disconnection
    Source: /repo/include/cli/detail/server.h, detail/genericasioremotecli.h,
    detail/inputdevice.h:59-62.  One thread runs the asio context; handlers (posted
    tasks, completions of reads and accepts) run in the order they became ready. *)

From Verif Require Import Base FromStringModel HistoryModel StorageModel TerminalModel MenuModel SessionModel ProcessorModel TelnetModel.
Open Scope nat_scope.
Open Scope list_scope.

(** Handlers waiting in the context: a posted key (inputdevice.h:61), a completed
    [async_read_some] (server.h:65-76) and a completed [async_accept] (143-147; the
    boolean: without error). *)
Inductive rresult := RData (chunk : str) | REof | RError.
Inductive task := TkKey (sid : nat) (k : key) | TkRead (sid : nat) (r : rresult) | TkAccept (ok : bool).

(** A [CliTelnetSession]: genericasioremotecli.h:543-547 and its bases.  [c_reading]:
    an [async_read_some] is pending; its handler keeps the session alive (server.h:63). *)
Record conn := mkConn { c_dev : tdev; c_term : term; c_cur : nat; c_hist : history; c_exit : bool; c_reading : bool }.
(** The [Cli] (root menu, storage), the sessions by number ([None]: not existing or
    destroyed), the next number, the ready handlers, whether an accept is pending, and
    the events so far.  The bytes sent, telnet replies included: WireModel.v. *)
Record server := mkServer {
  sv_root : cmd; sv_next : nat; sv_store : storage; sv_trace : list event;
  sv_conns : nat -> option conn; sv_sid : nat; sv_queue : list task; sv_accepting : bool }.

(** Outcomes of running a handler: returned; an exception leaves [Run] of the scheduler;
    a destroyed session is used; other undefined behaviour; recursion too deep. *)
Inductive vres := VOk (s : server) | VExc (x : exn) (s : server) | VGone | VUB | VFuel.

Section Server.
(** [E]: the user's code; its hook [KSesExit] is the action given to
    [CliGenericTelnetServer::ExitAction] (set if [e_has E KSesExit]).  [net]: whether
    [shutdown] of an open socket succeeds.  [color]: the global colour flag before and
    after user code of a key ran. *)
Context (E : env) (net : nat -> list event -> bool) (size fuel : nat) (tty : bool) (color : list event -> bool * bool).

(** Whether the session has closed its socket: an exit action of it returned and the
    shutdown succeeded. *)
Definition returns (r : uresult) : bool := match ur_end r with UReturn => true | UThrow _ => false end.
Fixpoint closed_in (sid : nat) (seen rest : list event) : bool :=
  match rest with
  | [] => false
  | e :: rest' =>
      let seen' := seen ++ [e] in
      match e with
      | EvHook i KSesExit args => Nat.eqb i sid && returns (e_hook E sid KSesExit args seen') && net sid seen'
      | _ => false
      end || closed_in sid seen' rest'
  end.
Definition closed (sid : nat) (tr : list event) : bool := e_has E KSesExit && closed_in sid [] tr.

(** genericasioremotecli.h:454-461: the session's exit action calls the server's (a copy,
    maybe empty) and then [Disconnect] (server.h:55-59): [shutdown] of a closed or
    disconnected socket throws.  The session's enter action is the default (does
    nothing): the one given to the server (genericasioremotecli.h:567-570) is not used. *)
Definition telnet_env : env :=
  mkEnv (e_plat E) (e_real E) (e_custom E) (e_handler E)
    (fun sid k args tr =>
      match k with
      | KSesExit =>
          if e_has E KSesExit then
            let r := e_hook E sid KSesExit args tr in
            match ur_end r with
            | UThrow _ => r
            | UReturn =>
                if closed sid (removelast tr) then mkURes (ur_ops r) (UThrow (XStd (lit "shutdown: Bad file descriptor")))
                else if net sid tr then r
                else mkURes (ur_ops r) (UThrow (XStd (lit "shutdown: Transport endpoint is not connected")))
            end
          else mkURes [] (UThrow bad_function_call)
      | _ => e_hook E sid k args tr
      end)
    (fun k => match k with KSesExit => true | KSesEnter => false | _ => e_has E k end).

(** A session seen as in SessionModel.v and ProcessorModel.v, and back. *)
Definition proc_of (sv : server) (sid : nat) (c : conn) : proc :=
  mkProc (mkWorld (sv_root sv) (sv_next sv) (sv_store sv) sid (c_cur c) (c_hist c) (c_exit c) (sv_trace sv)) (c_term c).
Definition upd_conn (f : nat -> option conn) (sid : nat) (c : option conn) : nat -> option conn :=
  fun i => if Nat.eqb i sid then c else f i.
Definition set_conns (f : nat -> option conn) (q : list task) (sv : server) : server :=
  mkServer (sv_root sv) (sv_next sv) (sv_store sv) (sv_trace sv) f (sv_sid sv) q (sv_accepting sv).
(** After a key: if the socket got closed, a pending read is cancelled, its handler
    becomes ready. *)
Definition after_key (sv : server) (sid : nat) (c : conn) (p : proc) : server :=
  let w := p_world p in
  let cut := c_reading c && closed sid (w_trace w) in
  mkServer (w_root w) (w_next w) (w_store w) (w_trace w)
    (upd_conn (sv_conns sv) sid (Some (mkConn (c_dev c) (p_term p) (w_cur w) (w_hist w) (w_exit w) (c_reading c && negb cut))))
    (sv_sid sv) (sv_queue sv ++ if cut then [TkRead sid RError] else []) (sv_accepting sv).

(** server.h:61-77 the handler of a read; destroying it destroys the session. *)
Definition run_read (sid : nat) (r : rresult) (c : conn) (sv : server) : server :=
  match closed sid (sv_trace sv), r with
  | false, RData chunk =>
      let '(d, (ks, _)) := receive chunk (c_dev c) in
      set_conns (upd_conn (sv_conns sv) sid (Some (mkConn d (c_term c) (c_cur c) (c_hist c) (c_exit c) true)))
        (sv_queue sv ++ map (TkKey sid) ks) sv
  | _, _ => set_conns (upd_conn (sv_conns sv) sid None) (sv_queue sv) sv
  end.

(** server.h:141-148 the handler of an accept, with [CreateSession]
    (genericasioremotecli.h:576-579), [Start] (server.h:45-49) and [OnConnect]
    (genericasioremotecli.h:464-469).  An exception destroys the session, and there is
    no further [Accept]. *)
Definition run_accept (ok : bool) (sv : server) : vres :=
  if ok then
    let sid := sv_sid sv in
    let w0 := open_session sid size (sv_root sv) (sv_next sv) (sv_store sv) (sv_trace sv) in
    match p_bind (of_hres (session_enter telnet_env (out (flat_map written greeting) w0)) term_init) (p_prompt tty (fst (color (sv_trace sv)))) with
    | POk p =>
        let w := p_world p in
        VOk (mkServer (w_root w) (w_next w) (w_store w) (w_trace w)
          (upd_conn (sv_conns sv) sid (Some (mkConn dev_init (p_term p) (w_cur w) (w_hist w) (w_exit w) true)))
          (S sid) (sv_queue sv) true)
    | PExc x p =>
        let w := p_world p in
        VExc x (mkServer (w_root w) (w_next w) (w_store w) (w_trace w) (sv_conns sv) (S sid) (sv_queue sv) (sv_accepting sv))
    | PUB => VUB
    | PFuel => VFuel
    end
  else VOk (mkServer (sv_root sv) (sv_next sv) (sv_store sv) (sv_trace sv) (sv_conns sv) (sv_sid sv) (sv_queue sv) true).

Definition run_task (t : task) (sv : server) : vres :=
  match t with
  | TkAccept ok => run_accept ok sv
  | TkRead sid r => match sv_conns sv sid with Some c => VOk (run_read sid r c sv) | None => VGone end
  | TkKey sid k =>
      match sv_conns sv sid with
      | None => VGone
      | Some c =>
          let (c1, c2) := color (sv_trace sv) in
          match press telnet_env fuel tty (mkStroke k c1 c2) (proc_of sv sid c) with
          | POk p => VOk (after_key sv sid c p)
          | PExc x p => VExc x (after_key sv sid c p)
          | PUB => VUB
          | PFuel => VFuel
          end
      end
  end.

(** What happens: the thread runs the first handler, or something arrives: a client
    connects, or a pending read of an open socket completes. *)
Inductive input := IRun | IConnect (ok : bool) | IRead (sid : nat) (r : rresult).
Definition sv_step (i : input) (sv : server) : vres :=
  match i with
  | IRun =>
      match sv_queue sv with
      | [] => VOk sv
      | t :: q => run_task t (set_conns (sv_conns sv) q sv)
      end
  | IConnect ok =>
      if sv_accepting sv then
        VOk (mkServer (sv_root sv) (sv_next sv) (sv_store sv) (sv_trace sv) (sv_conns sv) (sv_sid sv) (sv_queue sv ++ [TkAccept ok]) false)
      else VOk sv
  | IRead sid r =>
      match sv_conns sv sid with
      | Some c =>
          if c_reading c then
            VOk (set_conns (upd_conn (sv_conns sv) sid (Some (mkConn (c_dev c) (c_term c) (c_cur c) (c_hist c) (c_exit c) false)))
              (sv_queue sv ++ [TkRead sid r]) sv)
          else VOk sv
      | None => VOk sv
      end
  end.
(** The program goes on after an exception ([Run] is called again). *)
Fixpoint sv_run (is : list input) (sv : server) : vres :=
  match is with
  | [] => VOk sv
  | i :: is' => match sv_step i sv with VOk sv' | VExc _ sv' => sv_run is' sv' | r => r end
  end.
(** The exceptions that left [Run]. *)
Fixpoint sv_thrown (is : list input) (sv : server) : list exn :=
  match is with
  | [] => []
  | i :: is' => match sv_step i sv with VOk sv' => sv_thrown is' sv' | VExc x sv' => x :: sv_thrown is' sv' | _ => [] end
  end.
End Server.

(** server.h:127-136 the constructor of a server *)
Definition server_init (root : cmd) (nxt : nat) (st : storage) : server :=
  mkServer root nxt st [] (fun _ => None) 0 [] true.
