(** * C68: clients that connect to a telnet server *)

From Verif Require Import Base FromStringModel HistoryModel StorageModel TerminalModel MenuModel SessionModel ProcessorModel TelnetModel ServerModel ServerSpec
  IsolationSpec AcceptSpec AcceptProofs Demo PropServer.
Open Scope nat_scope.
Open Scope list_scope.

(** What happens in each session begins with the telnet negotiation and then the call of
    the global enter action, if there is one; no enter action is called later, and never
    one of a session.  Nothing happens in sessions that are not open. *)
Theorem C68_begin : forall E net size fuel tty color root nxt st is sv,
  sv_run E net size fuel tty color is (server_init root nxt st) = VOk sv -> forall sid,
  (sid < sv_sid sv -> exists evs,
     own sid (sv_trace sv) = EvOut sid hello :: (if e_has E KCliEnter then [EvHook sid KCliEnter []] else []) ++ evs /\ Forall no_enter evs) /\
  (sv_sid sv <= sid -> own sid (sv_trace sv) = []).
Proof. exact begins. Qed.
Print Assumptions C68_begin.

(** If the global enter action returns: the server is waiting for a client, or one has
    connected and its session will be opened. *)
Theorem C68_accepting : forall E net size fuel tty color, enter_returns E -> forall root nxt st is sv,
  sv_run E net size fuel tty color is (server_init root nxt st) = VOk sv ->
  accepts (sv_queue sv) = if sv_accepting sv then 0 else 1.
Proof. exact accepting. Qed.
Print Assumptions C68_accepting.
(** When a client connects, then once the handlers that were ready have run, it has a new
    session, whose input is being read, and the server waits for the next client. *)
Theorem C68_connect : forall E net size fuel tty color, enter_returns E -> forall root nxt st is sv sv',
  sv_run E net size fuel tty color is (server_init root nxt st) = VOk sv -> sv_accepting sv = true ->
  sv_run E net size fuel tty color (IConnect true :: runs (length (sv_queue sv) + 1)) sv = VOk sv' ->
  sv_sid sv' = S (sv_sid sv) /\ sv_accepting sv' = true /\ exists c, sv_conns sv' (sv_sid sv) = Some c /\ c_reading c = true.
Proof. exact connects. Qed.
Print Assumptions C68_connect.

(** Two clients are connected, one has typed and its key waits. *)
Definition waiting_key : list input := [IConnect true; IRun; IConnect true; IRun; IRead 1 (RData (lit "l")); IRun].
Example C68_nonvacuous : enter_returns full_env /\ e_has full_env KCliEnter = true /\
  exists sv sv', demo_server full_env tcp_ok waiting_key = VOk sv /\ sv_accepting sv = true /\ sv_queue sv = [TkKey 1 (KAscii "l")] /\ sv_sid sv = 2 /\
  sv_run full_env tcp_ok 5 3 false no_color (IConnect true :: runs 2) sv = VOk sv'.
Proof.
  split; [intros _ sid args tr; reflexivity|]. split; [reflexivity|]. eexists. eexists. do 4 (split; [vm_compute; reflexivity|]). vm_compute. reflexivity.
Qed.
Print Assumptions C68_nonvacuous.

(** The action given to [EnterAction] of the server is never called. *)
Theorem C68_enter_action_refuted : exists E root st is sv, e_has E KSesEnter = true /\
  (forall sid k args tr, ur_end (e_hook E sid k args tr) = UReturn) /\
  demo_server E tcp_ok is = VOk sv /\ is = [IConnect true; IRun] /\ root = demo_root /\ st = StVolatile 10 [] /\ sv_sid sv = 1 /\
  forall net size fuel tty color is' sv', sv_run E net size fuel tty color is' (server_init root 20 st) = VOk sv' ->
    ~ exists sid args, In (EvHook sid KSesEnter args) (sv_trace sv').
Proof.
  exists full_env, demo_root, (StVolatile 10 []), [IConnect true; IRun]. eexists. split; [reflexivity|]. split; [reflexivity|].
  split; [vm_compute; reflexivity|]. do 4 (split; [reflexivity|]).
  intros net size fuel tty color is' sv' Hr (sid & args & Hin).
  destruct (begins full_env net size fuel tty color demo_root 20 (StVolatile 10 []) is' sv' Hr sid) as (H1 & H2).
  assert (Ho : In (EvHook sid KSesEnter args) (own sid (sv_trace sv'))) by (apply filter_In; split; [exact Hin|apply Nat.eqb_refl]).
  destruct (Nat.lt_ge_cases sid (sv_sid sv')) as [Hl|Hl].
  - destruct (H1 Hl) as (evs & He & Hq). rewrite He in Ho. destruct Ho as [Ho|Ho]; [discriminate|]. cbn in Ho. destruct Ho as [Ho|Ho]; [discriminate|].
    rewrite Forall_forall in Hq. exact (Hq _ Ho).
  - rewrite (H2 Hl) in Ho. exact Ho.
Qed.
Print Assumptions C68_enter_action_refuted.

(** If the global enter action throws once, for one client, no client is ever accepted
    again. *)
Definition enter_throws : env :=
  mkEnv (e_plat full_env) (e_real full_env) (e_custom full_env) (e_handler full_env)
    (fun sid k args tr => match k, sid with KCliEnter, 1 => mkURes [] (UThrow (XStd (lit "busy"))) | _, _ => e_hook full_env sid k args tr end) (e_has full_env).
Theorem C68_throw_refuted : exists E is sv,
  (forall sid args tr, ur_end (e_hook E sid KCliEnter args tr) = UReturn <-> sid <> 1) /\
  is = [IConnect true; IRun; IConnect true; IRun] /\ demo_server E tcp_ok is = VOk sv /\
  sv_thrown E tcp_ok 5 3 false no_color is (server_init demo_root 20 (StVolatile 10 [])) = [XStd (lit "busy")] /\
  forall is' sv', sv_run E tcp_ok 5 3 false no_color is' sv = VOk sv' -> sv_accepting sv' = false /\ accepts (sv_queue sv') = 0 /\ sv_sid sv' = 2.
Proof.
  exists enter_throws, [IConnect true; IRun; IConnect true; IRun]. eexists. split.
  { intros sid args tr. destruct sid as [|[|sid]]; cbn; split; try discriminate; try reflexivity. intros H. destruct H. reflexivity. }
  split; [reflexivity|]. split; [vm_compute; reflexivity|]. split; [vm_compute; reflexivity|].
  intros is' sv' Hr. match type of Hr with sv_run _ _ _ _ _ _ _ ?s = _ => pose proof (stuck_run enter_throws tcp_ok 5 3 false no_color 2 is' s) as H end.
  rewrite Hr in H. apply H. split; [reflexivity|]. split; reflexivity.
Qed.
Print Assumptions C68_throw_refuted.
