(** * C46 to C48: properties of LoopScheduler *)

From Verif Require Import Base SchedulerModel SchedulerSpec SchedulerProofs.

(** C46: whatever [n] threads do, in any order: what was taken from the queue, followed
    by what is in it, is what was posted, in posting order; *)
Theorem C46_fifo : forall n l s, reaches n l s -> s_taken s ++ s_tasks s = map snd (s_posted s).
Proof. exact reach_queue. Qed.
Print Assumptions C46_fifo.
(** posting order is program order for each thread: all its calls, but the one that has
    not got the mutex or not pushed yet; *)
Theorem C46_posted : forall n i l s t, reaches n l s -> nth_error (s_thr s) i = Some t ->
  post_calls i l = posted_by i s ++ match th_pc t with PPost0 j | PPost1 j => [j] | _ => [] end.
Proof. intros n i l s t H Hi. pose proof (reach_posts n i l s H) as Hp. unfold posts_inv in Hp. rewrite Hi in Hp. exact Hp. Qed.
Print Assumptions C46_posted.
(** every task taken is started exactly once, or its thread is about to start it; *)
Theorem C46_once : forall n l s, reaches n l s -> Permutation (s_taken s) (begun s ++ in_flight s).
Proof. exact reach_flight. Qed.
Print Assumptions C46_once.
(** and if one thread executes the tasks, they are started in posting order. *)
Theorem C46_order : forall n e l s, reaches n l s -> executor e l -> exists rest, map snd (s_posted s) = begun s ++ rest.
Proof.
  intros n e l s H He. rewrite <- (reach_queue n l s H), (proj2 (reach_solo n e l s H He)), <- app_assoc. eauto.
Qed.
Print Assumptions C46_order.

Definition task (k : nat) : job := mkJob k true.
(** Thread 0 posts two tasks, the second after the first was taken; thread 1 runs. *)
Definition demo_acts : list act :=
  [ACall 1 CRun; AGo 1; AGo 1; ACall 0 (CPost (task 1)); AGo 0; AGo 0; AGo 0; AGo 0; AGo 1; AGo 1; AGo 1; AGo 1;
   ACall 0 (CPost (task 2)); AGo 0; AGo 0; ACall 1 (CPost (task 3)); AGo 0; AGo 0; AGo 1; AGo 1; AGo 1; AGo 1; AReturn 1; AGo 1; AGo 1; AGo 1; AGo 1].
Example C46_nonvacuous : exists s, reaches 2 demo_acts s /\ executor 1 demo_acts /\ s_posted s = [(0, task 1); (0, task 2); (1, task 3)] /\ begun s = [task 1; task 2] /\ s_tasks s = [task 3].
Proof.
  eexists. split; [vm_compute; reflexivity|]. split; [|split; [reflexivity|split; reflexivity]].
  intros j c Hin. cbn in Hin. repeat (destruct Hin as [Hin|Hin]; [try discriminate Hin; injection Hin as <- <-; exact Logic.I || reflexivity|]). destruct Hin.
Qed.
Print Assumptions C46_nonvacuous.
(** With two executing threads, a task may be overtaken between being taken and started. *)
Definition overtaking : list act :=
  [ACall 0 (CPost (task 1)); AGo 0; AGo 0; AGo 0; AGo 0; ACall 0 (CPost (task 2)); AGo 0; AGo 0; AGo 0; AGo 0;
   ACall 1 CExec; AGo 1; AGo 1; AGo 1; ACall 2 CExec; AGo 2; AGo 2; AGo 2; AGo 2; AGo 1].
Theorem C46_overtaken_refuted : exists n l s, reaches n l s /\ map snd (s_posted s) = [task 1; task 2] /\ begun s = [task 2; task 1].
Proof. exists 3, overtaking. eexists. split; [vm_compute; reflexivity|]. split; reflexivity. Qed.
Print Assumptions C46_overtaken_refuted.

(** C47: a thread sleeping in [ExecOne] while a task is queued or the scheduler is
    stopped is woken by the next step of the thread that has the mutex; *)
Theorem C47_wakes : forall n l s i t, reaches n l s -> nth_error (s_thr s) i = Some t -> sleeping t -> (s_tasks s <> [] \/ s_running s = false) ->
  exists j s' t', s_mtx s = Some j /\ sched_step (AGo j) s = Some s' /\ nth_error (s_thr s') i = Some t' /\ ~ sleeping t'.
Proof.
  intros n l s i t Hr Hi Hsl Hq. destruct (reach_woken n l s Hr i t Hi Hsl) as [(H1 & H2)|(j & tj & Hm & Hj & Hn)]; [destruct Hq; congruence|].
  assert (Hne : j <> i). { intros ->. rewrite Hi in Hj. injection Hj as <-. destruct Hsl as (c & Hc). destruct Hn as [H|H]; congruence. }
  exists j. cbn [sched_step]. rewrite Hj. unfold go. destruct Hn as [-> | ->]; eexists _, (wake t); (split; [exact Hm|]); (split; [reflexivity|]);
    cbn [set_thr notify_all s_thr]; rewrite put_other by exact Hne; rewrite nth_error_map, Hi; (split; [reflexivity|apply wake_awake]).
Qed.
Print Assumptions C47_wakes.
(** when no thread can make a step in the scheduler, every thread is in user code, or
    sleeps because the queue is empty and the scheduler runs; *)
Theorem C47_quiescent : forall n l s, reaches n l s -> (forall i, sched_step (AGo i) s = None) ->
  forall i t, nth_error (s_thr s) i = Some t -> in_user t \/ (sleeping t /\ s_running s = true /\ s_tasks s = []).
Proof.
  intros n l s Hr Hq i t Hi. destruct (quiet_threads s (reach_mutex n l s Hr) Hq i t Hi) as [H|H]; [left; exact H|right]. split; [exact H|].
  destruct (reach_woken n l s Hr i t Hi H) as [Hl|(j & tj & Hm & Hj & Hn)]; [exact Hl|]. exfalso.
  destruct (holder_moves s j tj Hj) as (s' & Hs); [destruct Hn as [-> | ->]; reflexivity|]. rewrite Hq in Hs. discriminate.
Qed.
Print Assumptions C47_quiescent.
(** and such a state comes after finitely many steps, if user code makes no call. *)
Theorem C47_finite : forall s, exists bound, forall is s', sched_run (goes is) s = Some s' -> length is <= bound.
Proof. intros s. exists (measure s). intros is s' H. pose proof (goes_bounded is s s' H). lia. Qed.
Print Assumptions C47_finite.
Example C47_nonvacuous : exists s t, let l := [ACall 1 CExec; AGo 1; AGo 1; ACall 0 (CPost (task 1)); AGo 0; AGo 0] in
  reaches 2 l s /\ nth_error (s_thr s) 1 = Some t /\ sleeping t /\ s_tasks s <> [] /\
  exists s', reaches 2 [ACall 1 CExec; AGo 1; AGo 1] s' /\ (forall i, sched_step (AGo i) s' = None) /\ s_tasks s' = [].
Proof.
  eexists _, _. cbn zeta. split; [vm_compute; reflexivity|]. split; [reflexivity|]. split; [eexists; reflexivity|]. split; [discriminate|].
  eexists. split; [vm_compute; reflexivity|]. split; [|reflexivity]. intros [|[|i]]; [reflexivity|reflexivity|]. cbn. destruct i; reflexivity.
Qed.
Print Assumptions C47_nonvacuous.

(** C48: once stopped, the scheduler stays stopped and no task is taken; the only tasks
    still started are those a thread had taken before; *)
Theorem C48_final : forall n l0 s l s', reaches n l0 s -> s_running s = false -> sched_run l s = Some s' ->
  s_running s' = false /\ s_taken s' = s_taken s /\ exists new, begun s' = begun s ++ new /\ Permutation (new ++ in_flight s') (in_flight s).
Proof.
  intros n l0 s l s' Hr Hs H. destruct (run_stopped l s s' Hs H) as (H1 & H2). split; [exact H1|]. split; [exact H2|].
  destruct (run_log l s s' H) as (new & Hl). exists (begun_of new). unfold begun at 1. rewrite Hl, begun_app. split; [reflexivity|].
  assert (Hr' : reaches n (l0 ++ l) s') by (unfold reaches; rewrite (run_app _ _ _ _ Hr); exact H).
  pose proof (reach_flight n l0 s Hr) as P1. pose proof (reach_flight n (l0 ++ l) s' Hr') as P2. unfold flight_inv in *. rewrite H2, P1 in P2. unfold begun in P2 at 2. rewrite Hl, begun_app, <- app_assoc in P2.
  apply Permutation_app_inv_l in P2. symmetry. exact P2.
Qed.
Print Assumptions C48_final.
(** a thread that is not running a task gets false from every call of [ExecOne] and
    [PollOne]; others get true at most for the tasks they are in; *)
Theorem C48_false : forall i s l s', s_running s = false -> sched_run l s = Some s' ->
  ret_true i (s_log s') <= ret_true i (s_log s) + match nth_error (s_thr s) i with Some t => length (th_frames t) + length (flight t) | None => 0 end.
Proof. intros i s l s' Hs H. pose proof (run_due i l s s' Hs H) as Hd. unfold due in Hd. lia. Qed.
Print Assumptions C48_false.
(** Only [Stop] stops the scheduler. *)
Theorem C48_stop : forall n l s, reaches n l s -> s_running s = false -> exists i, In (ACall i CStop) l.
Proof. exact stopped_by_stop. Qed.
Print Assumptions C48_stop.
(** [Run] returns, and [ExecOne] returns false, only when the scheduler is stopped;
    [PollOne] returns false only then or when there is no task. *)
Theorem C48_only : forall n l s i, reaches n l s -> In (SRunRet i) (s_log s) -> s_running s = false.
Proof. intros n l s i H. exact (proj2 (reach_refusing n l s H) i). Qed.
Print Assumptions C48_only.
Theorem C48_returns_false : forall n l s i s', reaches n l s -> sched_step (AGo i) s = Some s' ->
  In (SRet i false) (skipn (length (s_log s)) (s_log s')) ->
  s_running s = false \/ (s_tasks s = [] /\ exists t, nth_error (s_thr s) i = Some t /\ th_pc t = PPollF).
Proof. exact returns_false. Qed.
Print Assumptions C48_returns_false.
(** when no thread can make a step, all are in user code, *)
Theorem C48_returns : forall n l s, reaches n l s -> s_running s = false -> (forall i, sched_step (AGo i) s = None) ->
  forall i t, nth_error (s_thr s) i = Some t -> in_user t.
Proof. intros n l s Hr Hs Hq i t Hi. destruct (C47_quiescent n l s Hr Hq i t Hi) as [H|(_ & H & _)]; [exact H|congruence]. Qed.
Print Assumptions C48_returns.
(** and all calls of [Run] of a thread that is not in a task have returned. *)
Theorem C48_run : forall n l s i t, reaches n l s -> s_running s = false -> (forall j, sched_step (AGo j) s = None) -> (forall j, ~ In (AThrow j) l) ->
  nth_error (s_thr s) i = Some t -> th_frames t = [] -> run_rets i (s_log s) = run_calls i l.
Proof.
  intros n l s i t Hr Hs Hq Hth Hi Hf. pose proof (run_opened i l _ _ Hth Hr) as H. unfold opened in H at 1. rewrite Hi in H. pose proof (C48_returns n l s Hr Hs Hq i t Hi) as Hu. unfold in_user in Hu.
  unfold open_runs in H at 1. rewrite Hu, Hf in H. cbn [open_pc filter length] in H. change (run_rets i (s_log (sched_init n))) with 0 in H.
  assert (H0 : opened i (sched_init n) = 0). { unfold opened. destruct (nth_error (s_thr (sched_init n)) i) as [t0|] eqn:H0; [|reflexivity]. apply init_thr in H0 as ->. reflexivity. }
  lia.
Qed.
Print Assumptions C48_run.
(** Two threads run, one sleeping and one in a task, which calls [Stop] and returns. *)
Definition stopping : list act :=
  [ACall 0 CRun; AGo 0; AGo 0; ACall 1 CRun; AGo 1; AGo 1; ACall 2 (CPost (task 1)); AGo 2; AGo 2; AGo 2; AGo 2; AGo 0; AGo 0; AGo 0; AGo 0; AGo 1; AGo 1;
   ACall 0 CStop; AGo 0; AGo 0; AGo 0; AGo 0; AReturn 0; AGo 0; AGo 0; AGo 0; AGo 1; AGo 1; AGo 1].
Example C48_nonvacuous : exists s, reaches 3 stopping s /\ s_running s = false /\ (forall i, sched_step (AGo i) s = None) /\ (forall j, ~ In (AThrow j) stopping) /\
  run_rets 0 (s_log s) = 1 /\ run_rets 1 (s_log s) = 1 /\ begun s = [task 1].
Proof.
  eexists. split; [vm_compute; reflexivity|]. split; [reflexivity|]. split; [intros [|[|[|i]]]; try reflexivity; cbn; destruct i; reflexivity|]. split; [|split; [reflexivity|split; reflexivity]].
  intros j Hin. cbn in Hin. repeat (destruct Hin as [Hin|Hin]; [discriminate Hin|]). exact Hin.
Qed.
Print Assumptions C48_nonvacuous.
Example C48_poll_nonvacuous : exists s s', reaches 1 [ACall 0 CPoll; AGo 0; AGo 0] s /\ s_running s = true /\ sched_step (AGo 0) s = Some s' /\
  In (SRet 0 false) (skipn (length (s_log s)) (s_log s')).
Proof. eexists _, _. split; [vm_compute; reflexivity|]. split; [reflexivity|]. split; [reflexivity|]. left. reflexivity. Qed.
Print Assumptions C48_poll_nonvacuous.
(** A task may be started after [Stop] returned, if another thread had taken it. *)
Theorem C48_in_flight_refuted : exists n l1 l2 s1 s2 t, reaches n l1 s1 /\ s_running s1 = false /\ nth_error (s_thr s1) 0 = Some t /\ in_user t /\
  sched_run l2 s1 = Some s2 /\ begun s1 = [] /\ begun s2 = [task 1].
Proof.
  exists 2, [ACall 0 (CPost (task 1)); AGo 0; AGo 0; AGo 0; AGo 0; ACall 1 CExec; AGo 1; AGo 1; AGo 1; ACall 0 CStop; AGo 0; AGo 0; AGo 0; AGo 0], [AGo 1]. eexists _, _, _.
  split; [vm_compute; reflexivity|]. split; [reflexivity|]. split; [reflexivity|]. split; [reflexivity|]. split; [vm_compute; reflexivity|]. split; reflexivity.
Qed.
Print Assumptions C48_in_flight_refuted.
