(** * C64: asynchronous sessions on the standard input *)

From Verif Require Import Base FromStringModel HistoryModel StorageModel TerminalModel MenuModel SessionModel FileSpec AsyncModel AsyncSpec AsyncProofs Demo.
Open Scope nat_scope.
Open Scope list_scope.

(** In every state: the lines fed are the first complete lines of the bytes that arrived,
    each once, in order, each after a prompt; all of them when the session waits for
    bytes, and also when it has stopped unless user code threw. *)
Theorem C64_lines : forall E fuel tty color sid root nxt st tr s0 is s,
  as_start tty color sid root nxt st tr = AOk s0 -> as_run E fuel tty color is s0 = AOk s ->
  exists fed waiting rest, lines_of (arrived E fuel tty color is s0) (fed ++ waiting) rest /\
    let d := dialog E fuel tty color fed false (open_session sid 1 root nxt st tr) in
    said d = Some (as_world s) /\ (as_pend s = PdWait -> waiting = []) /\ (as_pend s = PdNone -> waiting = [] \/ exists x, d = DExc x (as_world s)).
Proof. intros E fuel tty color sid root nxt st tr s0 is s. exact (async_lines E fuel tty color _ sid root nxt st tr s0 is s eq_refl). Qed.
Print Assumptions C64_lines.
(** The pieces in which the bytes arrive do not matter. *)
Theorem C64_chunks : forall E fuel tty color sid root nxt st tr s0 is is' s s', as_start tty color sid root nxt st tr = AOk s0 ->
  as_run E fuel tty color is s0 = AOk s -> as_run E fuel tty color is' s0 = AOk s' -> as_pend s = PdWait -> as_pend s' = PdWait ->
  arrived E fuel tty color is s0 = arrived E fuel tty color is' s0 -> as_world s = as_world s'.
Proof. exact async_chunks. Qed.
Print Assumptions C64_chunks.
(** At the end of the input the session stops: nothing more is run or printed, and
    its input is closed. *)
Theorem C64_end : forall E fuel tty color s is, as_pend s = PdWait -> as_alive s = true ->
  exists s', as_run E fuel tty color (IEnd :: IHandle :: is) s = AOk s' /\ as_world s' = as_world s /\ as_pend s' = PdNone /\ as_buf s' = as_buf s /\ as_open s' = false.
Proof. exact async_end. Qed.
Print Assumptions C64_end.
(** It lives until it is destroyed, and its input is open while it reads. *)
Theorem C64_alive : forall E fuel tty color sid root nxt st tr s0 is s, as_start tty color sid root nxt st tr = AOk s0 -> as_run E fuel tty color is s0 = AOk s ->
  (as_alive s = true <-> ~ In IDestroy is) /\ (as_pend s <> PdNone -> as_alive s = true -> as_open s = true) /\ (as_alive s = false -> as_open s = false).
Proof. exact async_alive. Qed.
Print Assumptions C64_alive.
(** Destroying a session that has stopped is safe. *)
Theorem C64_gone : forall E fuel tty color is s, as_alive s = true -> as_run E fuel tty color is s = AGone ->
  exists is1 is2 s1, is = is1 ++ IDestroy :: is2 /\ as_run E fuel tty color is1 s = AOk s1 /\ as_pend s1 <> PdNone.
Proof. exact async_gone. Qed.
Print Assumptions C64_gone.

Definition no_colour (tr : list event) : bool := false.
Definition demo_async : ares := as_start false no_colour 0 demo_root 20 (StVolatile 10 []) [].
Definition async_demo (is : list ainput) : ares := a_bind demo_async (as_run full_env 3 false no_colour is).
Definition calls (w : world) : list event := filter (fun e => match e with EvCall _ _ _ => true | _ => false end) (w_trace w).
Definition hooks (w : world) : list event := filter (fun e => match e with EvHook _ _ _ => true | _ => false end) (w_trace w).
Example C64_nonvacuous : exists s0 s s', let is := [IBytes (lit "add 1"); IBytes (lit " 2" ++ nl ++ lit "sub" ++ nl ++ lit "de"); IHandle; IBytes (lit "zz"); IHandle; IBytes (lit "ep" ++ nl); IHandle] in
  let is' := map (fun c => IBytes [c]) (lit "add 1 2") ++ [IBytes nl; IHandle; IBytes (lit "sub" ++ nl); IHandle; IBytes (lit "deep" ++ nl); IHandle] in
  demo_async = AOk s0 /\ as_run full_env 3 false no_colour is s0 = AOk s /\ as_run full_env 3 false no_colour is' s0 = AOk s' /\
  as_pend s = PdWait /\ as_pend s' = PdWait /\ as_alive s = true /\
  arrived full_env 3 false no_colour is s0 = lit "add 1 2" ++ nl ++ lit "sub" ++ nl ++ lit "deep" ++ nl /\
  arrived full_env 3 false no_colour is s0 = arrived full_env 3 false no_colour is' s0 /\
  w_cur (as_world s) = 15 /\ calls (as_world s) = [EvCall 0 0 [VInt 1; VInt 2]].
Proof. eexists _, _, _. cbn zeta. split; [vm_compute; reflexivity|]. repeat (split; [vm_compute; reflexivity|]). vm_compute. reflexivity. Qed.
Print Assumptions C64_nonvacuous.

(** A last line without newline is not run, and the end of the input does not run the
    exit actions. *)
Theorem C64_unterminated_refuted : exists s, let is := [IBytes (lit "add 1 2"); IEnd; IHandle] in
  async_demo is = AOk s /\ as_pend s = PdNone /\ calls (as_world s) = [] /\ hooks (as_world s) = [] /\ w_exit (as_world s) = false /\
  e_has full_env KCliExit = true /\ e_has full_env KSesExit = true.
Proof. eexists. cbn zeta. split; [vm_compute; reflexivity|]. repeat (split; [vm_compute; reflexivity|]). vm_compute. reflexivity. Qed.
Print Assumptions C64_unterminated_refuted.
(** The enter actions are never run by this kind of session. *)
Theorem C64_enter_refuted : exists s, async_demo [IBytes (lit "add 1 2" ++ nl); IHandle] = AOk s /\ calls (as_world s) <> [] /\ hooks (as_world s) = [] /\
  e_has full_env KCliEnter = true /\ e_has full_env KSesEnter = true.
Proof. eexists. split; [vm_compute; reflexivity|]. split; [vm_compute; discriminate|]. repeat (split; [vm_compute; reflexivity|]). vm_compute. reflexivity. Qed.
Print Assumptions C64_enter_refuted.
(** After the command exit the session goes on reading and running lines, without
    prompts; another exit runs the exit actions again. *)
Theorem C64_exit_refuted : exists s, async_demo [IBytes (lit "exit" ++ nl ++ lit "add 1 2" ++ nl ++ lit "exit" ++ nl); IHandle; IHandle; IHandle] = AOk s /\
  calls (as_world s) = [EvCall 0 0 [VInt 1; VInt 2]] /\
  hooks (as_world s) = [EvHook 0 KSesExit []; EvHook 0 KCliExit []; EvHook 0 KSesExit []; EvHook 0 KCliExit []] /\ as_pend s = PdWait.
Proof. eexists. split; [vm_compute; reflexivity|]. repeat (split; [vm_compute; reflexivity|]). vm_compute. reflexivity. Qed.
Print Assumptions C64_exit_refuted.
(** Destroyed while it waits for input: the handler of the cancelled read uses the
    destroyed session. *)
Theorem C64_destroyed_refuted : exists s, async_demo [IBytes (lit "exit" ++ nl); IHandle] = AOk s /\ w_exit (as_world s) = true /\
  as_run full_env 3 false no_colour [IDestroy; IHandle] s = AGone.
Proof. eexists. split; [vm_compute; reflexivity|]. split; vm_compute; reflexivity. Qed.
Print Assumptions C64_destroyed_refuted.
(** When the user's exception handler throws, the session reads no further line. *)
Definition throw_env : env := mkEnv (mkPlatform true false) (fun _ _ => None) (fun _ _ => None) (fun _ _ _ _ => mkURes [] (UThrow (XStd (lit "a")))) (fun _ _ _ _ => mkURes [] (UThrow (XStd (lit "b")))) (fun _ => true).
Theorem C64_throws_refuted : exists s0 s1 s, demo_async = AOk s0 /\
  as_run throw_env 3 false no_colour [IBytes (lit "add 1 2" ++ nl ++ lit "add 3 4" ++ nl)] s0 = AOk s1 /\ as_step throw_env 3 false no_colour IHandle s1 = AExc (XStd (lit "b")) s /\
  as_buf s = lit "add 3 4" ++ nl /\ forall is, exists s', as_run throw_env 3 false no_colour is s = AOk s' /\ as_world s' = as_world s.
Proof.
  eexists _, _, _. do 3 (split; [vm_compute; reflexivity|]). split; [reflexivity|]. intros is.
  match goal with |- context[as_run _ _ _ _ is ?s] => destruct (idle_run throw_env 3 false no_colour is s eq_refl) as (s' & H & Hw & _) end. exists s'. split; assumption.
Qed.
Print Assumptions C64_throws_refuted.
