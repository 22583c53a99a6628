(** * C116: [Exit] when memory runs out *)

From Verif Require Import Base StorageModel HistoryModel MenuModel SessionModel SessionSpec FileSpec
  AllocExitModel AllocExitSpec AllocExitProofs Demo.
Open Scope nat_scope.
Open Scope list_scope.

(** C116: an [Exit] there is no memory for has run each exit action once; the session is not
    over and is where it was; without memory for the copy of the commands nothing is stored. *)
Theorem C116_threw : forall E ok left w w', exit_m E ok left w = XThrew w' ->
  same_place w w' /\
  ((ok = false /\ w_store w' = w_store w) \/ (ok = true /\ left = Some (w_store w'))) /\
  exists evs, w_trace w' = w_trace w ++ evs /\ hooked KSesExit (w_sid w) evs = 1 /\
    hooked KCliExit (w_sid w) evs = (if e_has E KCliExit then 1 else 0).
Proof. exact threw. Qed.
Print Assumptions C116_threw.

(** All that is seen of it is what is seen of an [Exit] with memory: same output, same calls,
    same menus. *)
Theorem C116_seen : forall E ok left w w' v, exit_m E ok left w = XThrew w' -> session_exit E w = HOk v ->
  w_trace v = w_trace w' /\ w_root v = w_root w' /\ w_next v = w_next w' /\ same_place w w'.
Proof. exact threw_as. Qed.
Print Assumptions C116_seen.

(** However often that happens: an [Exit] that succeeds at last stores the commands once, as
    if it were the first, but the exit actions have run as often as it was tried. *)
Theorem C116_retried : forall E n w w1 w2 cmds, tried E n w w1 -> get_commands (w_hist w) = Some cmds ->
  session_exit E w1 = HOk w2 ->
  w_exit w2 = true /\ w_store w2 = st_store (w_store w) cmds /\ w_hist w2 = w_hist w /\
  exists evs, w_trace w2 = w_trace w ++ evs /\ hooked KSesExit (w_sid w) evs = S n /\
    hooked KCliExit (w_sid w) evs = (if e_has E KCliExit then S n else 0).
Proof. exact retried. Qed.
Print Assumptions C116_retried.

(** Otherwise [Exit] does what it does with memory (C37); so it does if there is memory. *)
Theorem C116_ran : forall E ok left w r, exit_m E ok left w = XRan r -> r = session_exit E w.
Proof. exact ran. Qed.
Print Assumptions C116_ran.
Theorem C116_enough : forall E w, exit_m E true None w = XRan (session_exit E w).
Proof. exact enough. Qed.
Print Assumptions C116_enough.

(** For everybody else, having no memory for the commands is like an exit action that throws
    [bad_alloc] after all others: what is proved of sessions with any user code (C37,
    C53, C67) holds for sessions that cannot exit. *)
Theorem C116_action : forall E left w,
  session_exit (starved E) w = match exit_m E false left w with XThrew w' => HExc bad_alloc w' | XRan r => r end.
Proof. exact starved_exit. Qed.
Print Assumptions C116_action.

(** A session with commands to store *)
Definition busy_world : world :=
  match feed full_env 3 (lit "add 1 2") demo_world with FOk w => w | _ => demo_world end.

(** The exit action of a session may run twice. *)
Theorem C116_once_refuted : exists w1 w2, exit_m full_env false None busy_world = XThrew w1 /\
  exit_m full_env true None w1 = XRan (HOk w2) /\ w_exit w1 = false /\ w_exit w2 = true /\
  hooked KSesExit (w_sid w2) (w_trace w2) = S (S (hooked KSesExit (w_sid busy_world) (w_trace busy_world))).
Proof.
  do 2 eexists. split; [vm_compute; reflexivity|]. split; [vm_compute; reflexivity|]. repeat split; vm_compute; reflexivity.
Qed.
Print Assumptions C116_once_refuted.

(** A [Store] that fails with the commands inserted has them stored twice at the next [Exit]. *)
Theorem C116_stored_refuted : exists cmds st w1 w2, get_commands (w_hist busy_world) = Some cmds /\
  st = st_store (w_store busy_world) cmds /\ exit_m full_env true (Some st) busy_world = XThrew w1 /\
  exit_m full_env true None w1 = XRan (HOk w2) /\ w_store w2 <> st_store (w_store busy_world) cmds.
Proof.
  do 4 eexists. split; [vm_compute; reflexivity|]. split; [reflexivity|]. split; [vm_compute; reflexivity|].
  split; [vm_compute; reflexivity|]. vm_compute. discriminate.
Qed.
Print Assumptions C116_stored_refuted.

(** The command [exit] may leave the session running: [Feed] reports [bad_alloc] like any
    exception of a command. *)
Theorem C116_command_refuted : exists w a, feed (starved full_env) 3 (lit "exit") busy_world = FOk w /\
  w_exit w = false /\ hooked KSesExit (w_sid w) (w_trace w) = S (hooked KSesExit (w_sid busy_world) (w_trace busy_world)) /\
  In (EvHook (w_sid w) KExcept a) (w_trace w) /\ In (lit "std::bad_alloc") a.
Proof.
  do 2 eexists. split; [vm_compute; reflexivity|]. split; [vm_compute; reflexivity|]. split; [vm_compute; reflexivity|].
  split; [vm_compute; repeat ((left; reflexivity) || right)|vm_compute; repeat ((left; reflexivity) || right)].
Qed.
Print Assumptions C116_command_refuted.

Example C116_nonvacuous : exists w1 w2 w3 cmds, tried full_env 2 busy_world w2 /\
  exit_m full_env false None busy_world = XThrew w1 /\ w1 <> busy_world /\
  get_commands (w_hist busy_world) = Some cmds /\ cmds <> [] /\ session_exit full_env w2 = HOk w3.
Proof.
  do 4 eexists. split.
  { eapply tried_S with (left := None); [eapply tried_S with (left := None); [apply tried_0|]|]; vm_compute; reflexivity. }
  split; [vm_compute; reflexivity|]. split; [intro H; apply (f_equal (fun w => length (w_trace w))) in H; vm_compute in H; discriminate|].
  split; [vm_compute; reflexivity|]. split; [discriminate|]. vm_compute. reflexivity.
Qed.
