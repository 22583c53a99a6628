(** * C97: destroying a LoopScheduler *)

From Coq Require Import Permutation.
From Verif Require Import Base SchedulerModel SchedulerSpec SchedulerProofs SchedEndModel SchedEndSpec SchedEndProofs.

(** C97: when the destructor comes to destroy the members, no thread waits for the condition variable any more: this part is
    defined unless a thread holds the mutex. *)
Theorem C97_notified : forall n l x i t, zreaches n l x -> z_phase x = Ending i -> nth_error (s_thr (z_s x)) i = Some t -> in_user t ->
  (forall j t', nth_error (s_thr (z_s x)) j = Some t' -> ~ sleeping t') /\
  zstep ZFree x = match s_mtx (z_s x) with None => ZOk (mkEnding (z_s x) Ended) | Some _ => ZUB end.
Proof.
  intros n l x i t Hr Hp Hi Hu. pose proof (zrun_inv l _ x (Logic.I : end_inv (z_init n)) Hr) as Inv. unfold end_inv in Inv. rewrite Hp in Inv.
  destruct Inv as (t0 & Hi0 & Ht). rewrite Hi in Hi0. injection Hi0 as <-. unfold in_user in Hu. rewrite Hu in Ht. destruct Ht as [_ Ha]. split.
  - intros j t' Hj (c & Hc). specialize (Ha j t' Hj). unfold asleep in Ha. rewrite Hc in Ha. discriminate.
  - unfold zstep. rewrite Hp. unfold is_user. rewrite Hi, Hu. destruct (s_mtx (z_s x)); [reflexivity|].
    destruct (existsb asleep (s_thr (z_s x))) eqn:He; [|reflexivity]. apply existsb_exists in He as (t' & Hin & Hs).
    apply In_nth_error in Hin as [j Hj]. rewrite (Ha j t' Hj) in Hs. discriminate.
Qed.
Print Assumptions C97_notified.
(** Afterwards, if no other thread calls the scheduler, all is well iff every thread is done with it: it is in no function of
    the scheduler, except in a task called by [ExecOne] or [PollOne] or about to call one, and in no task called by [Run]. *)
Theorem C97_safe : forall x l, z_phase x = Ended -> (forall i t, nth_error (s_thr (z_s x)) i = Some t -> ~ involved t) -> silent l -> zrun l x <> ZUB.
Proof. exact (fun x l He Hc Hs => clear_run l x He Hc Hs). Qed.
Print Assumptions C97_safe.
Theorem C97_unsafe : forall x i t, z_phase x = Ended -> nth_error (s_thr (z_s x)) i = Some t -> involved t -> exists l, silent l /\ zrun l x = ZUB.
Proof. intros [s p] i t He. cbn [z_phase] in He. subst p. exact (involved_bad i t s). Qed.
Print Assumptions C97_unsafe.
(** Calling a function of the scheduler, or destroying it again, is undefined behaviour. *)
Theorem C97_called : forall x i t c, z_phase x = Ended -> nth_error (s_thr (z_s x)) i = Some t -> in_user t ->
  zstep (ZAct (ACall i c)) x = ZUB /\ zstep (ZDestroy i) x = ZUB.
Proof.
  intros x i t c He Hi Hu. unfold in_user in Hu. unfold zstep. rewrite He. unfold is_user. cbn [sched_step use_of]. rewrite Hi, Hu. auto.
Qed.
Print Assumptions C97_called.
(** Until it is destroyed, it is used as in C39 to C42; and what does not exist cannot destroy it. *)
Theorem C97_usable : forall x a, z_phase x = Usable -> zstep (ZAct a) x = match sched_step a (z_s x) with Some s => ZOk (mkEnding s Usable) | None => ZNo end.
Proof. intros x a H. unfold zstep. rewrite H. destruct (sched_step a (z_s x)); reflexivity. Qed.
Print Assumptions C97_usable.
Theorem C97_nobody : forall x i, nth_error (s_thr (z_s x)) i = None -> zstep (ZDestroy i) x = ZNo.
Proof. intros x i H. unfold zstep, is_user. rewrite H. destruct (z_phase x); reflexivity. Qed.
Print Assumptions C97_nobody.
(** The tasks still queued are dropped: what was posted is what was taken and what is left, and from then on nothing is taken;
    what was taken is started once, or about to be. *)
Theorem C97_dropped : forall n l x, zreaches n l x -> z_phase x = Ended ->
  map snd (s_posted (z_s x)) = s_taken (z_s x) ++ s_tasks (z_s x) /\
  forall l' x', zrun l' x = ZOk x' ->
    s_taken (z_s x') = s_taken (z_s x) /\ s_tasks (z_s x') = s_tasks (z_s x) /\ Permutation (s_taken (z_s x)) (begun (z_s x') ++ in_flight (z_s x')).
Proof.
  intros n l x Hr He. destruct (zrun_sched l _ _ Hr) as (l0 & H0). cbn [z_init z_s] in H0.
  split; [symmetry; exact (reach_queue n l0 (z_s x) H0)|]. intros l' x' H. destruct (ended_tasks l' x x' He H) as (H1 & H2 & _).
  split; [exact H2|]. split; [exact H1|]. destruct (zrun_sched l' _ _ H) as (l1 & H3). rewrite <- H2.
  apply (reach_flight n (l0 ++ l1)). unfold reaches. rewrite sched_run_app, H0. exact H3.
Qed.
Print Assumptions C97_dropped.

(** A task called by [ExecOne] of thread 0 destroys the scheduler, while another is queued. *)
Definition job_ (n : nat) : job := mkJob n true.
Definition zgo (i k : nat) : list zact := repeat (ZAct (AGo i)) k.
Definition zpost (i : nat) (j : nat) : list zact := ZAct (ACall i (CPost (job_ j))) :: zgo i 4.
Definition own_task (c : call) : list zact :=
  zpost 1 1 ++ zpost 1 2 ++ ZAct (ACall 0 c) :: zgo 0 4 ++ ZDestroy 0 :: zgo 0 4 ++ [ZFree].
Example C97_nonvacuous : exists x, zreaches 2 (own_task CExec) x /\ z_phase x = Ended /\
  (forall i t, nth_error (s_thr (z_s x)) i = Some t -> ~ involved t) /\ s_tasks (z_s x) = [job_ 2] /\
  exists x', zrun [ZAct (AReturn 0)] x = ZOk x' /\ begun (z_s x') = [job_ 1] /\ s_log (z_s x') = [SBegin 0 (job_ 1); SRet 0 true].
Proof.
  eexists. split; [vm_compute; reflexivity|]. split; [reflexivity|]. split.
  { intros [|[|i]] t H; cbn in H; [injection H as <-|injection H as <-|destruct i; discriminate]; cbn; intuition discriminate. }
  split; [reflexivity|]. eexists. split; [vm_compute; reflexivity|]. split; reflexivity.
Qed.

(** The [Stop] of the destructor does not make it safe to destroy a scheduler whose [Run] another thread is in: that thread is
    woken, and locks a mutex that is gone. *)
Theorem C97_waiting_refuted : exists l x, zreaches 2 l x /\ z_phase x = Ended /\ In (ZAct (ACall 1 CRun)) l /\ In (ZDestroy 0) l /\
  zrun [ZAct (AGo 1)] x = ZUB.
Proof.
  exists (ZAct (ACall 1 CRun) :: zgo 1 2 ++ ZDestroy 0 :: zgo 0 4 ++ [ZFree]). eexists. split; [vm_compute; reflexivity|].
  split; [reflexivity|]. split; [left; reflexivity|]. split; [do 3 right; left; reflexivity|reflexivity].
Qed.
Print Assumptions C97_waiting_refuted.
(** Nor may a task called by [Run] destroy the scheduler. *)
Theorem C97_own_task_refuted : exists x, zreaches 2 (own_task CRun) x /\ z_phase x = Ended /\ zrun [ZAct (AReturn 0); ZAct (AGo 0)] x = ZUB.
Proof. eexists. split; [vm_compute; reflexivity|]. split; [reflexivity|reflexivity]. Qed.
Print Assumptions C97_own_task_refuted.
(** Nor may it be destroyed while another thread is in [Post]. *)
Theorem C97_posting_refuted : exists l x, zreaches 2 l x /\ z_phase x = Ending 0 /\ zrun [ZFree] x = ZUB.
Proof.
  exists (ZAct (ACall 1 (CPost (job_ 1))) :: ZDestroy 0 :: zgo 0 4 ++ zgo 1 1). eexists. split; [vm_compute; reflexivity|]. split; reflexivity.
Qed.
Print Assumptions C97_posting_refuted.
