(** * C66: properties of the schedulers based on asio *)

From Verif Require Import Base SchedulerModel SchedulerProofs AsioSchedModel AsioSchedSpec AsioSchedProofs.
Open Scope nat_scope.
Open Scope list_scope.

(** C66: whatever [n] threads do, with the scheduler and with its context, in any order,
    with the old or the new asio: what was taken from the queue, followed by what is in
    it, is what was posted (or became ready), in that order; *)
Theorem C66_fifo : forall old owned ops n l s, areaches old owned ops n l s -> a_taken s ++ a_queue s = submitted l.
Proof. exact areach_queue. Qed.
(** every task taken is started exactly once, or its thread is about to start it; *)
Theorem C66_once : forall old owned ops n l s, areaches old owned ops n l s -> Permutation (a_taken s) (abegun s ++ a_flight s).
Proof. exact areach_flight. Qed.
(** and if one thread runs the tasks, they are started in the order of posting. *)
Theorem C66_order : forall old owned ops n e l s, areaches old owned ops n l s -> aexecutor e l -> exists rest, submitted l = abegun s ++ rest.
Proof.
  intros old owned ops n e l s H He. rewrite <- (areach_queue _ _ _ _ _ _ H), (proj2 (areach_solo _ _ _ _ _ _ _ H He)), <- app_assoc. eauto.
Qed.
(** A scheduler with a context of its own runs until it is stopped: before that, [Run]
    does not return (unless a task throws), and [ExecOne] returns only after a task; *)
Theorem C66_runs : forall old ops n l s, areaches old true ops n l s -> never_stopped l ->
  a_stopped s = false /\ (forall i, ~ returned i HRun s) /\ (forall i, exec_rets i (a_log s) <= begun_by i (a_log s)).
Proof.
  intros old ops n l s H He. destruct (areach_work _ _ _ _ _ H He) as (H1 & _ & _ & _ & H5). split; [exact H1|]. split; [exact H5|].
  intros i. pose proof (areach_exec _ _ _ _ _ i H He) as Hx. unfold exec_inv in Hx. lia.
Qed.
(** with a context of the application, that nobody stops, it runs as long as something
    is left to do; *)
Theorem C66_external : forall old ops n l s, areaches old false ops n l s -> never_stopped l ->
  (forall l1 l2 s1, l = l1 ++ l2 -> areaches old false ops n l1 s1 -> left s1 <> 0) -> a_stopped s = false.
Proof.
  intros old ops n l s H He Hb. destruct (a_stopped s) eqn:Hs; [|reflexivity]. destruct (areach_idle _ _ _ _ _ H He Hs) as (l1 & l2 & s1 & Hl & Hr & Hz). destruct (Hb l1 l2 s1 Hl Hr Hz).
Qed.
(** once stopped, it stays so unless the application restarts the context, no task is
    taken, and the only tasks still started are those a thread had taken before; *)
Theorem C66_final : forall old owned ops n l0 s l s', areaches old owned ops n l0 s -> a_stopped s = true -> arun old l s = Some s' -> no_restart l ->
  a_stopped s' = true /\ a_taken s' = a_taken s /\ exists new, abegun s' = abegun s ++ new /\ Permutation (new ++ a_flight s') (a_flight s).
Proof.
  intros old owned ops n l0 s l s' H0 H1 Hr Hn. destruct (arun_stopped _ _ _ _ Hr Hn H1) as (H2 & H3). split; [exact H2|]. split; [exact H3|].
  exact (stopped_begun _ _ _ _ _ _ _ _ H0 H1 Hr Hn).
Qed.
(** [Stop] called by a thread in user code, together with its next steps, stops; *)
Theorem C66_stop : forall old s i fs, nth_error (a_thr s) i = Some (mkAThr QUser fs) ->
  exists k s', k <= 4 /\ arun old (BCall i DStop :: repeat (BGo i) k) s = Some s' /\ a_stopped s' = true /\ nth_error (a_thr s') i = Some (mkAThr QUser fs).
Proof.
  intros old s i fs Hi. destruct (a_guard s && negb old) eqn:Hg; [exists 4|exists 2]; eexists; (split; [lia|]);
    cbn [repeat arun astep]; rewrite Hi; cbn [at_pc acalled at_frames]; unfold aset_thr at 1; cbn [a_thr]; rewrite (put_same _ _ _ _ Hi); unfold ago at 1; cbn [at_pc at_frames a_guard aset_thr]; rewrite Hg;
    repeat (rewrite ?(put_same _ _ _ _ Hi); unfold ago at 1; cbn [at_pc at_frames a_guard aset_thr aset_stopped aset_guard work_finished a_thr astep arun];
            try (erewrite put_same by (eapply put_same; eassumption)); try (erewrite put_same by (eapply put_same; eapply put_same; eassumption));
            try (erewrite put_same by (do 3 (eapply put_same); eassumption)); try (erewrite put_same by (do 4 (eapply put_same); eassumption))).
  all: split; [reflexivity|]; split; [reflexivity|]; cbn [a_thr aset_thr aset_stopped aset_guard work_finished].
  - erewrite put_same by (do 4 (eapply put_same); eassumption). reflexivity.
  - erewrite put_same by (do 2 (eapply put_same); eassumption). reflexivity.
Qed.
(** threads get stuck in the scheduler only when there is nothing to run and it is not
    stopped, and after finitely many steps, if user code makes no call. *)
Theorem C66_quiescent : forall old s, (forall i, astep old (BGo i) s = None) -> forall i t, nth_error (a_thr s) i = Some t ->
  at_pc t = QUser \/ (waits t /\ a_queue s = [] /\ a_stopped s = false).
Proof. exact aquiet. Qed.
Theorem C66_finite : forall old s is s', arun old (agoes is) s = Some s' -> length is <= 4 * length (a_thr s).
Proof. intros old s is s' H. pose proof (agoes_bounded old is s s' H). pose proof (weight_bound (a_thr s)). lia. Qed.
(** The exceptions that leave the run functions are those thrown by tasks, and one for
    each empty task; *)
Theorem C66_exceptions : forall old owned ops n l s i, areaches old owned ops n l s ->
  excs_by i false (a_log s) = throws_by i l /\ excs_by i true (a_log s) = empties_by i (a_log s).
Proof. exact areach_exc. Qed.
(** and as long as one thread only calls [Stop], any number of times, the context counts
    exactly what is left to do, and the guard until it is given up. *)
Theorem C66_work : forall old owned ops n e l s, areaches old owned ops n l s -> stopper e l ->
  (guarding e s /\ a_work s = Z.of_nat (S (left s))) \/ (~ guarding e s /\ a_work s = Z.of_nat (left s)).
Proof. exact areach_stopper. Qed.
(** Every call of a run function ends at most once, normally or by an exception: the
    calls made are those ended, and those a thread is still inside. *)
Theorem C66_ends : forall old owned ops n l s i, areaches old owned ops n l s -> forall h,
  run_calls i h l = run_ends i h (a_log s) + match nth_error (a_thr s) i with Some t => run_inside h t | None => 0 end.
Proof. exact areach_calls. Qed.
Print Assumptions C66_ends.
Print Assumptions C66_exceptions.
Print Assumptions C66_work.
Print Assumptions C66_fifo.
Print Assumptions C66_once.
Print Assumptions C66_order.
Print Assumptions C66_runs.
Print Assumptions C66_external.
Print Assumptions C66_final.
Print Assumptions C66_stop.
Print Assumptions C66_quiescent.
Print Assumptions C66_finite.

Definition atask (k : nat) : job := mkJob k true.
(** Thread 1 runs; thread 0 posts two tasks, the first one posts a third; then [Stop]. *)
Definition adone_acts : list aact :=
  [BCall 1 (DRun HRun); BGo 1; BCall 0 (DPost (atask 1)); BGo 1; BCall 0 (DPost (atask 2)); BGo 1; BCall 1 (DPost (atask 3)); BReturn 1; BGo 1; BGo 1; BReturn 1].
Definition astop_acts : list aact := [BCall 0 DStop; BGo 0; BGo 0; BGo 0; BGo 0; BGo 1].
Example C66_nonvacuous : exists s s', areaches false true 0 2 adone_acts s /\ never_stopped adone_acts /\ aexecutor 1 adone_acts /\
  abegun s = [atask 1; atask 2] /\ a_queue s = [atask 3] /\ arun false astop_acts s = Some s' /\ no_restart astop_acts /\ a_stopped s' = true /\ returned 1 HRun s' /\
  (forall i, astep false (BGo i) s' = None).
Proof.
  eexists _, _. split; [vm_compute; reflexivity|]. split; [intros i; split; intros H; cbn in H; repeat (destruct H as [H|H]; [discriminate H|]); exact H|].
  split. { intros j c H. cbn in H. repeat (destruct H as [H|H]; [try discriminate H; injection H; intros; congruence|]). destruct H. }
  split; [reflexivity|]. split; [reflexivity|]. split; [vm_compute; reflexivity|]. split; [intros i H; cbn in H; repeat (destruct H as [H|H]; [discriminate H|]); exact H|].
  split; [reflexivity|]. split; [cbn; auto|]. intros [|[|i]]; [reflexivity|reflexivity|]. cbn. destruct i; reflexivity.
Qed.
(** The application's context has a pending operation; [PollOne] finds nothing, the
    operation completes, [ExecOne] runs its handler, which starts another one. *)
Example C66_external_nonvacuous : exists l s, areaches true false 1 1 l s /\ never_stopped l /\ abegun s = [atask 7] /\ left s = 1 /\ a_stopped s = false /\
  (forall l1 l2 s1, l = l1 ++ l2 -> areaches true false 1 1 l1 s1 -> left s1 <> 0).
Proof.
  exists [BCall 0 (DRun HPoll); BGo 0; BGo 0; BReady (atask 7); BCall 0 (DRun HExec); BGo 0; BGo 0; BGo 0; BCall 0 DStart; BReturn 0]. eexists.
  split; [vm_compute; reflexivity|]. split; [intros i; split; intros H; cbn in H; repeat (destruct H as [H|H]; [discriminate H|]); exact H|].
  split; [reflexivity|]. split; [reflexivity|]. split; [reflexivity|]. intros l1 l2 s1 Hl Hr. unfold areaches in Hr.
  do 10 (destruct l1 as [|? l1]; [vm_compute in Hr; injection Hr as <-; discriminate|injection Hl as <- Hl]).
  destruct l1; [vm_compute in Hr; injection Hr as <-; discriminate|discriminate Hl].
Qed.

(** A task throws, then an empty one; [Stop] is called twice, the second time while a
    task is queued. *)
Example C66_stopper_nonvacuous : exists l s s', areaches false true 0 2 l s /\ stopper 0 l /\ throws_by 1 l = 1 /\ empties_by 1 (a_log s) = 1 /\
  guarding 0 s /\ left s = 1 /\ arun false [BCall 0 DStop; BGo 0; BGo 0; BGo 0; BGo 0; BCall 0 DStop; BGo 0; BGo 0] s = Some s' /\ ~ guarding 0 s' /\ a_work s' = 1%Z.
Proof.
  exists [BCall 0 (DPost (atask 1)); BCall 0 (DPost (mkJob 2 false)); BCall 0 (DPost (atask 3)); BCall 1 (DRun HRun); BGo 1; BGo 1; BGo 1; BThrow 1; BCall 1 (DRun HPoll); BGo 1; BGo 1; BGo 1].
  eexists _, _. split; [vm_compute; reflexivity|]. split; [intros j H; cbn in H; repeat (destruct H as [H|H]; [discriminate H|]); destruct H|].
  split; [reflexivity|]. split; [reflexivity|]. split; [split; [reflexivity|intros t Ht; injection Ht as <-; discriminate]|]. split; [reflexivity|]. split; [vm_compute; reflexivity|].
  split; [intros (H & _); discriminate H|reflexivity].
Qed.

(** [PollOne], [ExecOne] or [Run] called when the application's context has nothing to do
    stop it: a task posted after that is never run, though nobody called [Stop]. *)
Theorem C66_idle_refuted : forall h, exists l s, areaches false false 0 1 l s /\ never_stopped l /\ no_restart l /\
  submitted l = [atask 1] /\ l = [BCall 0 (DRun h); BGo 0; BCall 0 (DPost (atask 1))] /\
  forall l' s', arun false l' s = Some s' -> no_restart l' -> abegun s' = [].
Proof.
  intros h. eexists _, _. split; [|split; [|split; [|split; [|split; [reflexivity|]]]]]; try (vm_compute; reflexivity).
  - intros i; split; intros H; cbn in H; repeat (destruct H as [H|H]; [discriminate H|]); exact H.
  - intros i H; cbn in H; repeat (destruct H as [H|H]; [discriminate H|]); exact H.
  - intros l' s' Hr Hn.
    match type of Hr with arun _ _ ?s = _ => assert (H0 : areaches false false 0 1 [BCall 0 (DRun h); BGo 0; BCall 0 (DPost (atask 1))] s) by (vm_compute; reflexivity) end.
    destruct (stopped_begun false false 0 1 _ _ _ _ H0 eq_refl Hr Hn) as (new & -> & Hp). apply Permutation_nil in Hp || (symmetry in Hp; apply Permutation_nil in Hp).
    apply app_eq_nil in Hp as (-> & _). reflexivity.
Qed.
(** An empty task makes [Run] throw (with a [LoopScheduler] it is skipped). *)
Theorem C66_empty_refuted : exists l s, areaches false true 0 1 l s /\ In (QExc 0 HRun true) (a_log s) /\ submitted l = [mkJob 5 false].
Proof. exists [BCall 0 (DPost (mkJob 5 false)); BCall 0 (DRun HRun); BGo 0; BGo 0; BGo 0]. eexists. split; [vm_compute; reflexivity|]. split; [cbn; auto|reflexivity]. Qed.
(** [Stop] is not safe to call from two threads: both can be about to read or write the
    guard (a data race), and then the work given up twice. *)
Theorem C66_race_refuted : exists l s s', areaches false true 0 2 l s /\ (forall i, i < 2 -> exists t, nth_error (a_thr s) i = Some t /\ touches_guard t) /\
  arun false [BGo 0; BGo 1] s = Some s' /\ (a_work s' < 0)%Z.
Proof.
  exists [BCall 0 DStop; BCall 1 DStop; BGo 0; BGo 1]. eexists _, _. split; [vm_compute; reflexivity|]. split.
  - intros [|[|i]] H; [| |lia]; (eexists; split; [reflexivity|right; left; reflexivity]).
  - split; [vm_compute; reflexivity|vm_compute; reflexivity].
Qed.
