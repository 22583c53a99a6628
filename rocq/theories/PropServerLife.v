(** * C69: destroying a telnet server *)

From Verif Require Import Base FromStringModel HistoryModel StorageModel TerminalModel MenuModel SessionModel ProcessorModel TelnetModel ServerModel ServerSpec
  AcceptSpec ServerLifeModel ServerLifeSpec ServerLifeProofs Demo PropServer.
Open Scope nat_scope.
Open Scope list_scope.

(** In every state a server reaches, if it is destroyed, then the scheduler can run at
    most the handlers that are ready: running one more uses the destroyed server. *)
Theorem C69_destroyed : forall E net size fuel tty color, enter_returns E -> forall root nxt st is sv is' al sv',
  sv_run E net size fuel tty color is (server_init root nxt st) = VOk sv ->
  l_run E net size fuel tty color (LDestroy :: is') true sv = LOk al sv' ->
  length (filter is_run is') <= length (sv_queue sv).
Proof. exact doom. Qed.
Print Assumptions C69_destroyed.
(** Until then its sessions go on as if it had not been destroyed. *)
Theorem C69_sessions : forall E net size fuel tty color sv is al sv',
  sv_accepting sv = true -> (forall ok, ~ In (IConnect ok) is) ->
  l_run E net size fuel tty color (LDestroy :: map LIn is) true sv = LOk al sv' ->
  exists sv'', sv_run E net size fuel tty color is sv = VOk sv'' /\ sv_conns sv'' = sv_conns sv' /\ sv_trace sv'' = sv_trace sv' /\
    sv_store sv'' = sv_store sv' /\ sv_root sv'' = sv_root sv'.
Proof. exact sessions_go_on. Qed.
Print Assumptions C69_sessions.

(** Keys of two clients wait when the server is destroyed. *)
Definition keys_wait : list input := [IConnect true; IRun; IConnect true; IRun; IRead 1 (RData (lit "l")); IRead 0 (RData (lit "e")); IRun; IRun].
Example C69_nonvacuous : enter_returns full_env /\ exists sv sv', demo_server full_env tcp_ok keys_wait = VOk sv /\ sv_accepting sv = true /\
  sv_queue sv = [TkKey 1 (KAscii "l"); TkKey 0 (KAscii "e")] /\
  l_run full_env tcp_ok 5 3 false no_color [LDestroy; LIn IRun; LIn IRun] true sv = LOk false sv' /\
  sv_trace sv' = sv_trace sv ++ [EvOut 1 (lit "l"); EvOut 0 (lit "e")].
Proof.
  split; [intros _ sid args tr; reflexivity|]. eexists. eexists. do 4 (split; [vm_compute; reflexivity|]). vm_compute. reflexivity.
Qed.
Print Assumptions C69_nonvacuous.

(** So a server cannot be destroyed while the scheduler runs on: not even one that no
    client ever connected to. *)
Theorem C69_running_refuted : exists E net size fuel tty color root nxt st,
  enter_returns E /\ l_run E net size fuel tty color [LDestroy; LIn IRun] true (server_init root nxt st) = LDead.
Proof.
  exists full_env, tcp_ok, 5, 3, false, no_color, demo_root, 20, (StVolatile 10 []). split; [intros _ sid args tr; reflexivity|reflexivity].
Qed.
Print Assumptions C69_running_refuted.
