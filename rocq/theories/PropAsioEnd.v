(** * C98: destroying a scheduler based on asio *)

From Coq Require Import Permutation.
From Verif Require Import Base SchedulerModel AsioSchedModel AsioSchedSpec AsioSchedProofs AsioEndModel AsioEndSpec AsioEndProofs.
Open Scope nat_scope.
Open Scope list_scope.

(** C98: with a context of its own, the destructor is defined iff no thread is in [Stop] when it begins, and none is in a function
    of the scheduler or the context, or in a task, when the context is deleted (the guard is always given up before); *)
Theorem C98_begin : forall old owned ops n l x i, ereaches old owned ops n l x -> ae_phase x = AUsable -> a_user i (ae_s x) = true ->
  (estep old owned (EDestroy i) x = AEUB <-> exists j t, nth_error (a_thr (ae_s x)) j = Some t /\ stopping t).
Proof.
  intros old owned ops n l x i _ Hp Hu. unfold estep. rewrite Hu, Hp. cbn [negb]. destruct (existsb in_stop (a_thr (ae_s x))) eqn:He.
  - split; [|reflexivity]. intros _. apply existsb_exists in He as (t & Hin & Ht). apply In_nth_error in Hin as [j Hj]. apply in_stop_stopping in Ht. eauto.
  - split; [destruct owned; discriminate|]. intros (j & t & Hj & Ht). apply in_stop_stopping in Ht.
    assert (existsb in_stop (a_thr (ae_s x)) = true) by (apply existsb_exists; exists t; split; [eapply nth_error_In; exact Hj|exact Ht]). congruence.
Qed.
Print Assumptions C98_begin.
Theorem C98_delete : forall old owned ops n l x i, ereaches old owned ops n l x -> ae_phase x = AEnding i ->
  (estep old owned EDelete x = AEUB <-> exists j t, nth_error (a_thr (ae_s x)) j = Some t /\ ~ outside t).
Proof.
  intros old owned ops n l x i H Hp. destruct (ereach_inv old owned ops n l x H) as [[_ I] _]. rewrite Hp in I. destruct I as (_ & _ & Hg).
  unfold estep. rewrite Hp, Hg, orb_false_r. destruct (existsb inside (a_thr (ae_s x))) eqn:He.
  - split; [|reflexivity]. intros _. apply existsb_exists in He as (t & Hin & Ht). apply In_nth_error in Hin as [j Hj]. exists j, t. split; [exact Hj|].
    intros Ho. apply inside_outside in Ho. congruence.
  - split; [discriminate|]. intros (j & t & Hj & Ht). destruct (Ht (no_inside _ He j t Hj)).
Qed.
Print Assumptions C98_delete.
(** Only a thread in code of the user begins to destroy; meanwhile it does nothing else, and what the others do with the context goes on. *)
Theorem C98_beginner : forall old owned x i, estep old owned (EDestroy i) x <> AENo -> exists t, nth_error (a_thr (ae_s x)) i = Some t /\ at_pc t = QUser.
Proof.
  intros old owned x i H. unfold estep, a_user in H. destruct (nth_error (a_thr (ae_s x)) i) as [t|]; [|destruct (H eq_refl)]. exists t. split; [reflexivity|]. destruct (at_pc t); try reflexivity; destruct (H eq_refl).
Qed.
Print Assumptions C98_beginner.
Theorem C98_meanwhile : forall old owned x i a b, ae_phase x = AEnding i -> context_only a -> on_context [a] = [b] ->
  estep old owned a x = match b with
    | BCall j _ | BGo j | BReturn j | BThrow j => if Nat.eqb j i then AENo else match astep old b (ae_s x) with Some s => AEOk (mkAEnd s (AEnding i) (ae_dropped x)) | None => AENo end
    | BReady _ => match astep old b (ae_s x) with Some s => AEOk (mkAEnd s (AEnding i) (ae_dropped x)) | None => AENo end
    end.
Proof.
  intros old owned x i a b Hp Hc Hb. destruct a as [a|j jb|j h|j|]; try discriminate Hb; cbn in Hb; injection Hb as <-; cbn [estep as_ctx]; rewrite Hp.
  - destruct a as [j c|j|j|j|jb]; unfold by_other; cbn [aactor]; try (destruct (Nat.eqb j i); cbn [negb]; [reflexivity|]); destruct (astep _ _ _); unfold elift; rewrite ?Hp; try reflexivity. cbn [of_sched]. destruct c; try destruct Hc; reflexivity.
  - unfold by_other. cbn [aactor]. destruct (Nat.eqb j i); cbn [negb]; [reflexivity|]. unfold elift. destruct (astep _ _ _); rewrite ?Hp; reflexivity.
  - unfold by_other. cbn [aactor]. destruct (Nat.eqb j i); cbn [negb]; [reflexivity|]. unfold elift. destruct (astep _ _ _); rewrite ?Hp; reflexivity.
Qed.
Print Assumptions C98_meanwhile.
(** the destructor gives up the work of the guard, unless [Stop] has, and no other: what counts then is what there is to do; *)
Theorem C98_guard : forall old ops n e l x i x', ereaches old true ops n l x -> ae_phase x = AUsable -> stopper e (on_context l) ->
  estep old true (EDestroy i) x = AEOk x' -> a_work (ae_s x') = Z.of_nat (left (ae_s x')).
Proof. exact guard_given_up. Qed.
Print Assumptions C98_guard.
(** the tasks not yet taken are dropped: what was submitted is what was taken, all of it started, and what is dropped; nothing is left to do, no
    pending operation either; *)
Theorem C98_dropped : forall old ops n l x, ereaches old true ops n l x -> ae_phase x = AEnded ->
  e_submitted l = a_taken (ae_s x) ++ ae_dropped x /\ Permutation (a_taken (ae_s x)) (abegun (ae_s x)) /\ left (ae_s x) = 0.
Proof.
  intros old ops n l x H Hp. destruct (ereach_inv old true ops n l x H) as [[F I] Q]. rewrite Hp in I. destruct I as (Hq & Hf & Ho & Hn).
  rewrite Hq, app_nil_r in Q. split; [symmetry; exact Q|]. split; [|unfold left; rewrite Hq, Hn, (outside_busy _ Ho); reflexivity]. unfold aflight_inv in F. rewrite Hf, app_nil_r in F. exact F.
Qed.
Print Assumptions C98_dropped.
(** and from then on neither the scheduler nor the context may be used. *)
Theorem C98_called : forall old owned x i t a, ae_phase x = AEnded -> nth_error (a_thr (ae_s x)) i = Some t -> at_pc t = QUser ->
  (exists j, a = EAct (BCall i (DPost j))) \/ a = EAct (BCall i DStop) \/ (exists h, a = EAct (BCall i (DRun h))) \/ a = EDestroy i \/
  (owned = true /\ ((exists c, a = EAct (BCall i c)) \/ (exists j, a = ECtxPost i j) \/ exists h, a = ECtxRun i h)) ->
  estep old owned a x = AEUB.
Proof.
  intros old owned x i t a Hp Hi Hu H.
  destruct H as [(j & ->)|[->|[(h & ->)|[->|(-> & [(c & ->)|[(j & ->)|(h & ->)]])]]]]; unfold estep; cbn [as_ctx]; rewrite ?Hp; cbn [astep];
    try (unfold a_user); rewrite Hi, Hu; cbn [negb of_sched]; try reflexivity; destruct owned; reflexivity.
Qed.
Print Assumptions C98_called.
(** With a context of the application, the destructor changes nothing of the context, and whatever uses only the context goes on
    as it would have: the tasks posted are run with it. *)
Theorem C98_borrowed : forall old ops n l x i, ereaches old false ops n l x -> ae_phase x = AUsable -> a_user i (ae_s x) = true ->
  (forall j t, nth_error (a_thr (ae_s x)) j = Some t -> ~ stopping t) ->
  forall l', (forall a, In a l' -> context_only a) ->
  erun old false (EDestroy i :: l') x = match arun old (on_context l') (ae_s x) with Some s' => AEOk (mkAEnd s' AEnded []) | None => AENo end.
Proof.
  intros old ops n l x i H Hp Hu Hn l' Hl. destruct (ereach_inv old false ops n l x H) as [[_ I] _]. rewrite Hp in I.
  cbn [erun estep]. rewrite Hu, Hp. cbn [negb]. destruct (existsb in_stop (a_thr (ae_s x))) eqn:He.
  - apply existsb_exists in He as (t & Hin & Ht). apply In_nth_error in Hin as [j Hj]. apply in_stop_stopping in Ht. destruct (Hn j t Hj Ht).
  - rewrite I. apply borrowed. exact Hl.
Qed.
Print Assumptions C98_borrowed.

Definition bgo (i k : nat) : list eact := repeat (EAct (BGo i)) k.
Definition tsk (n : nat) : job := mkJob n true.
(** Two tasks are posted, one is run, the scheduler is destroyed. *)
Definition one_of_two : list eact :=
  [EAct (BCall 1 (DPost (tsk 1))); ECtxPost 1 (tsk 2); EAct (BCall 0 (DRun HExec))] ++ bgo 0 3 ++ [EAct (BReturn 0); EDestroy 0].
(** The scheduler is stopped with one task in the queue and one operation pending. *)
Definition stop_first : list eact := [EAct (BCall 1 (DPost (tsk 1))); EAct (BCall 0 DStop)] ++ bgo 0 4.
Example C98_nonvacuous :
  (exists x, ereaches false true 0 2 (one_of_two ++ [EDelete]) x /\ ae_phase x = AEnded /\ abegun (ae_s x) = [tsk 1] /\ ae_dropped x = [tsk 2]) /\
  (exists x, ereaches false false 1 2 one_of_two x /\ ae_phase x = AEnded /\
     exists x', erun false false (ECtxRun 1 HExec :: bgo 1 3) x = AEOk x' /\ abegun (ae_s x') = [tsk 1; tsk 2]) /\
  (exists x x', ereaches false true 1 2 stop_first x /\ ae_phase x = AUsable /\ stopper 0 (on_context stop_first) /\
     estep false true (EDestroy 0) x = AEOk x' /\ left (ae_s x') = 2).
Proof.
  split; [|split; [|do 2 eexists; split; [vm_compute; reflexivity|]; split; [reflexivity|]; split;
    [intros j Hj; cbn in Hj; intuition congruence|split; vm_compute; reflexivity]]]; eexists; (split; [vm_compute; reflexivity|]); (split; [reflexivity|]).
  - split; reflexivity.
  - eexists. split; [vm_compute; reflexivity|reflexivity].
Qed.
(** Stopping the scheduler before destroying it is not enough: a thread may still be in [Run]. *)
Theorem C98_running_refuted : exists l x, ereaches false true 0 2 l x /\ In (EAct (BCall 0 DStop)) l /\ ae_phase x = AUsable /\
  erun false true [EDestroy 0; EDelete] x = AEUB.
Proof.
  exists (EAct (BCall 1 (DRun HRun)) :: bgo 1 1 ++ EAct (BCall 0 DStop) :: bgo 0 4). eexists. split; [vm_compute; reflexivity|].
  split; [do 2 right; left; reflexivity|]. split; reflexivity.
Qed.
Print Assumptions C98_running_refuted.
(** Nor may a task destroy the scheduler that runs it. *)
Theorem C98_own_task_refuted : exists l x, ereaches false true 0 1 l x /\ abegun (ae_s x) = [tsk 1] /\ ae_phase x = AUsable /\
  erun false true [EDestroy 0; EDelete] x = AEUB.
Proof.
  exists (EAct (BCall 0 (DPost (tsk 1))) :: EAct (BCall 0 (DRun HExec)) :: bgo 0 3). eexists. split; [vm_compute; reflexivity|].
  split; [reflexivity|]. split; reflexivity.
Qed.
Print Assumptions C98_own_task_refuted.
