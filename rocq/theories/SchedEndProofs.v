(** * Proofs about the end of a LoopScheduler *)

From Verif Require Import Base SchedulerModel SchedulerSpec SchedulerProofs SchedEndModel SchedEndSpec.

Lemma zlift_ok p r x : zlift p r = ZOk x -> exists s, r = Some s /\ x = mkEnding s p.
Proof. destruct r; [|discriminate]. intros H. injection H as <-. eauto. Qed.

(** ** Nobody waits when the members are destroyed *)
Definition no_sleeper (s : sched) : Prop := forall j t, nth_error (s_thr s) j = Some t -> asleep t = false.

Lemma put_awake i t' s : asleep t' = false -> no_sleeper s -> forall j t, nth_error (put i t' (s_thr s)) j = Some t -> asleep t = false.
Proof. intros Ha Hn j t Hj. apply put_nth in Hj as [(_ & ->)|(_ & H)]; [exact Ha|exact (Hn _ _ H)]. Qed.
Lemma wake_awake t : asleep (wake t) = false.
Proof. destruct t as [p fs]. unfold wake. cbn [th_pc]. destruct p; reflexivity. Qed.
Lemma notify_awake s : no_sleeper (notify_all s).
Proof. intros j t H. cbn [notify_all s_thr] in H. rewrite nth_error_map in H. destruct (nth_error (s_thr s) j); [|discriminate]. injection H as <-. apply wake_awake. Qed.

Lemma step_awake a s s' : s_running s = false -> no_sleeper s -> sched_step a s = Some s' -> no_sleeper s'.
Proof.
  intros Hr Hn Hs. destruct a as [i c|i|i|i|i]; cbn [sched_step] in Hs;
    (destruct (nth_error (s_thr s) i) as [t|] eqn:Hi; [|discriminate]); destruct t as [p fs]; cbn [th_pc th_frames] in *.
  - destruct p; try discriminate. injection Hs as <-. intros j t. cbn [set_thr s_thr]. apply put_awake; [destruct c; reflexivity|exact Hn].
  - unfold go in Hs. cbn [th_pc th_frames] in Hs.
    destruct p; try discriminate;
      try (destruct (s_mtx s); [discriminate|]);
      try (rewrite Hr in Hs);
      try (destruct (j_call j));
      try (injection Hs as <-);
      try (intros j' t; cbn [set_thr set_mtx push stop_running add_log ret s_thr]; apply put_awake; [reflexivity|exact Hn]);
      try (intros j' t; cbn [set_thr set_mtx s_thr]; apply put_awake; [reflexivity|apply notify_awake]);
      try (intros j' t; cbn [set_thr set_mtx push stop_running add_log ret s_thr]; apply put_awake; [destruct c; reflexivity|exact Hn]).
  - destruct p; try discriminate. injection Hs as <-. intros j t. cbn [set_thr s_thr]. apply put_awake; [reflexivity|exact Hn].
  - destruct p; try discriminate. destruct fs as [|f fs]; [discriminate|]. injection Hs as <-. intros j t. cbn [ret set_thr add_log s_thr].
    apply put_awake; [destruct f as [[]|]; reflexivity|exact Hn].
  - destruct p; try discriminate. destruct fs as [|f fs]; [discriminate|]. injection Hs as <-. intros j t. cbn [set_thr s_thr]. apply put_awake; [reflexivity|exact Hn].
Qed.

(** The thread in the destructor. *)
Definition end_inv (x : ending) : Prop :=
  match z_phase x with
  | Ending i => exists t, nth_error (s_thr (z_s x)) i = Some t /\
      match th_pc t with
      | PStop0 | PStop1 => True
      | PStop2 => s_running (z_s x) = false
      | PStop3 | PUser => s_running (z_s x) = false /\ no_sleeper (z_s x)
      | _ => False
      end
  | Usable => True
  | Ended => s_running (z_s x) = false /\ no_sleeper (z_s x) 
  end.

Lemma step_thread a s s' i t : sched_step a s = Some s' -> actor a <> i -> nth_error (s_thr s) i = Some t -> asleep t = false ->
  nth_error (s_thr s') i = Some t.
Proof.
  intros Hs Ha Hi Hw.
  assert (Hwk : wake t = t) by (destruct t as [p fs]; unfold wake; cbn [th_pc]; destruct p; try reflexivity; discriminate Hw).
  destruct a as [k c|k|k|k|k]; cbn [actor] in Ha; cbn [sched_step] in Hs;
    (destruct (nth_error (s_thr s) k) as [t'|] eqn:Hk; [|discriminate]); destruct t' as [p fs]; cbn [th_pc th_frames] in *.
  1,3,4,5: destruct p; try discriminate; try (destruct fs; [discriminate|]); injection Hs as <-; cbn [set_thr ret add_log s_thr]; rewrite put_other by auto; exact Hi.
  unfold go in Hs. cbn [th_pc th_frames] in Hs.
  destruct p; try discriminate;
    try (destruct (s_mtx s); [discriminate|]);
    try (destruct (s_running s)); try (unfold pop in Hs; destruct (s_tasks s));
    try (destruct (j_call j)); try (injection Hs as <-); cbn [set_thr set_mtx push stop_running notify_all add_log ret s_thr];
    rewrite put_other by auto; try (rewrite nth_error_map, Hi; cbn [option_map]; congruence); exact Hi.
Qed.

Lemma zstep_inv a x x' : end_inv x -> zstep a x = ZOk x' -> end_inv x'.
Proof.
  unfold zstep. destruct x as [s ph]. cbn [z_s z_phase]. intros I H. destruct ph as [|i|].
  - destruct a as [a|i|]; [| |discriminate].
    + apply zlift_ok in H as (s' & _ & ->). exact Logic.I.
    + destruct (is_user i s) eqn:Hu; [|discriminate]. apply zlift_ok in H as (s' & Hs & ->). cbn [sched_step] in Hs.
      destruct (nth_error (s_thr s) i) as [t|] eqn:Hi; [|discriminate]. destruct (th_pc t); try discriminate. injection Hs as <-.
      unfold end_inv. cbn [z_phase z_s]. eexists. split; [cbn [set_thr s_thr]; eapply put_same; exact Hi|exact Logic.I].
  - unfold end_inv in I. cbn [z_phase z_s] in I. destruct I as (t & Hi & Ht).
    assert (Hw : asleep t = false) by (unfold asleep; destruct (th_pc t); try reflexivity; contradiction).
    destruct a as [a|j|]; [| |].
    + destruct (Nat.eqb (actor a) i) eqn:Ha.
      * apply Nat.eqb_eq in Ha. unfold is_user in H. rewrite Hi in H.
        destruct (th_pc t) eqn:Hp; try contradiction; cbn [andb] in H; try discriminate;
          apply zlift_ok in H as (s' & Hs & ->); destruct a as [k c|k|k|k|k]; cbn [actor] in Ha; subst k; cbn [sched_step] in Hs; rewrite Hi, ?Hp in Hs; try discriminate;
          unfold go in Hs; rewrite Hp in Hs; unfold end_inv; cbn [z_phase z_s].
        -- destruct (s_mtx s); [discriminate|]. injection Hs as <-. cbn [set_thr set_mtx s_thr]. eexists. split; [eapply put_same; exact Hi|exact Logic.I].
        -- injection Hs as <-. cbn [set_thr stop_running s_thr]. eexists. split; [eapply put_same; exact Hi|reflexivity].
        -- injection Hs as <-. cbn [set_thr notify_all s_thr]. eexists.
           split; [eapply put_same; rewrite nth_error_map, Hi; reflexivity|]. cbn [th_pc]. split; [exact Ht|].
           intros j' t'. cbn [set_thr s_thr]. apply put_awake; [reflexivity|apply notify_awake].
        -- injection Hs as <-. cbn [set_thr set_mtx s_thr]. eexists. split; [eapply put_same; exact Hi|]. cbn [th_pc]. destruct Ht as [H1 H2]. split; [exact H1|].
           intros j' t'. cbn [set_thr set_mtx s_thr]. apply (put_awake i _ (set_mtx None s)); [reflexivity|exact H2].
      * cbn [andb] in H. apply Nat.eqb_neq in Ha. apply zlift_ok in H as (s' & Hs & ->). unfold end_inv. cbn [z_phase z_s].
        exists t. split; [eapply step_thread; eauto|].
        destruct (th_pc t); auto; try (exact (proj1 (step_stopped _ _ _ Ht Hs)));
          destruct Ht as [H1 H2]; (split; [exact (proj1 (step_stopped _ _ _ H1 Hs))|exact (step_awake _ _ _ H1 H2 Hs)]).
    + destruct (is_user j s); discriminate.
    + unfold is_user in H. rewrite Hi in H. destruct (th_pc t); try discriminate. destruct (s_mtx s); [discriminate|].
      destruct (existsb asleep (s_thr s)); [discriminate|]. injection H as <-. exact Ht.
  - destruct I as [H1 H2]. cbn [z_s] in *. destruct a as [a|j|]; [|destruct (is_user j s); discriminate|discriminate].
    destruct (sched_step a s) as [s'|] eqn:Hs; [|destruct (_ && _); discriminate].
    destruct (use_of a s); [discriminate|]. injection H as <-. split; [exact (proj1 (step_stopped _ _ _ H1 Hs))|exact (step_awake _ _ _ H1 H2 Hs)].
Qed.
Lemma zrun_inv l : forall x x', end_inv x -> zrun l x = ZOk x' -> end_inv x'.
Proof.
  induction l as [|a l IH]; intros x x' I H; cbn [zrun] in H; [injection H as <-; exact I|].
  destruct (zstep a x) as [x1| |] eqn:Hs; try discriminate. exact (IH x1 x' (zstep_inv a x x1 I Hs) H).
Qed.

(** ** The scheduler of an execution with its end *)
Lemma zstep_sched a x x' : zstep a x = ZOk x' -> exists l, sched_run l (z_s x) = Some (z_s x').
Proof.
  unfold zstep. destruct x as [s ph]. cbn [z_s z_phase]. destruct ph as [|i|], a as [a|j|]; try discriminate; intros H.
  - apply zlift_ok in H as (s' & Hs & ->). exists [a]. cbn [sched_run z_s]. rewrite Hs. reflexivity.
  - destruct (is_user j s); [|discriminate]. apply zlift_ok in H as (s' & Hs & ->). exists [ACall j CStop]. cbn [sched_run z_s]. rewrite Hs. reflexivity.
  - destruct (_ && _); [discriminate|]. apply zlift_ok in H as (s' & Hs & ->). exists [a]. cbn [sched_run z_s]. rewrite Hs. reflexivity.
  - destruct (is_user j s); discriminate.
  - destruct (is_user i s); [|discriminate]. destruct (s_mtx s); [discriminate|]. destruct (existsb asleep (s_thr s)); [discriminate|]. injection H as <-. exists []. reflexivity.
  - destruct (sched_step a s) as [s'|] eqn:Hs; [|destruct (_ && _); discriminate]. destruct (use_of a s); [discriminate|]. injection H as <-.
    exists [a]. cbn [sched_run z_s]. rewrite Hs. reflexivity.
  - destruct (is_user j s); discriminate.
Qed.
Lemma sched_run_app l1 : forall l2 s, sched_run (l1 ++ l2) s = match sched_run l1 s with Some s' => sched_run l2 s' | None => None end.
Proof. induction l1 as [|a l1 IH]; intros l2 s; cbn [app sched_run]; [reflexivity|]. destruct (sched_step a s); [apply IH|reflexivity]. Qed.
Lemma zrun_sched l : forall x x', zrun l x = ZOk x' -> exists l', sched_run l' (z_s x) = Some (z_s x').
Proof.
  induction l as [|a l IH]; intros x x' H; cbn [zrun] in H; [injection H as <-; exists []; reflexivity|].
  destruct (zstep a x) as [x1| |] eqn:Hs; try discriminate. destruct (zstep_sched a x x1 Hs) as (l1 & H1). destruct (IH x1 x' H) as (l2 & H2).
  exists (l1 ++ l2). rewrite sched_run_app, H1. exact H2.
Qed.

(** ** After the end *)
Lemma ended_stays l : forall x x', z_phase x = Ended -> zrun l x = ZOk x' -> z_phase x' = Ended.
Proof.
  induction l as [|a l IH]; intros x x' E H; cbn [zrun] in H; [injection H as <-; exact E|].
  destruct (zstep a x) as [x1| |] eqn:Hs; try discriminate. apply (IH x1 x'); [|exact H].
  unfold zstep in Hs. rewrite E in Hs. destruct a as [a|j|]; [|destruct (is_user j (z_s x)); discriminate|discriminate].
  destruct (sched_step a (z_s x)) as [s'|]; [|destruct (_ && _); discriminate]. destruct (use_of a (z_s x)); [discriminate|]. injection Hs as <-. reflexivity.
Qed.

(** No task is taken, none is pushed. *)
Lemma unused_step a s s' : use_of a s = false -> sched_step a s = Some s' -> s_tasks s' = s_tasks s /\ s_taken s' = s_taken s /\ s_posted s' = s_posted s.
Proof.
  intros Hu Hs. destruct a as [k c|k|k|k|k]; cbn [use_of] in Hu; try discriminate; cbn [sched_step] in Hs;
    (destruct (nth_error (s_thr s) k) as [t'|] eqn:Hk; [|discriminate]); destruct t' as [p fs]; cbn [th_pc th_frames] in *.
  2,3: destruct p; try discriminate; try (destruct fs; [discriminate|]); injection Hs as <-; auto.
  destruct p; try discriminate; unfold go in Hs; cbn [th_pc th_frames] in Hs; destruct (j_call j); injection Hs as <-; auto.
Qed.
Lemma ended_tasks l : forall x x', z_phase x = Ended -> zrun l x = ZOk x' ->
  s_tasks (z_s x') = s_tasks (z_s x) /\ s_taken (z_s x') = s_taken (z_s x) /\ s_posted (z_s x') = s_posted (z_s x).
Proof.
  induction l as [|a l IH]; intros x x' E H; cbn [zrun] in H; [injection H as <-; auto|].
  destruct (zstep a x) as [x1| |] eqn:Hs; try discriminate.
  assert (E1 : z_phase x1 = Ended) by (apply (ended_stays [a] x); [exact E|cbn [zrun]; rewrite Hs; reflexivity]).
  destruct (IH x1 x' E1 H) as (H1 & H2 & H3). rewrite H1, H2, H3.
  unfold zstep in Hs. rewrite E in Hs. destruct a as [a|j|]; [|destruct (is_user j (z_s x)); discriminate|discriminate].
  destruct (sched_step a (z_s x)) as [s'|] eqn:Ha; [|destruct (_ && _); discriminate]. destruct (use_of a (z_s x)) eqn:Hu; [discriminate|]. injection Hs as <-.
  exact (unused_step a _ _ Hu Ha).
Qed.

(** If no thread is involved, nothing goes wrong. *)
Definition clear_ (s : sched) : Prop := forall i t, nth_error (s_thr s) i = Some t -> ~ involved t.
Lemma put_clear i t' s l : s_thr s = put i t' l -> ~ involved t' -> (forall j t, nth_error l j = Some t -> ~ involved t) -> clear_ s.
Proof. intros E Ht Hn j t Hj. rewrite E in Hj. apply put_nth in Hj as [(_ & ->)|(_ & H)]; [exact Ht|exact (Hn _ _ H)]. Qed.
Lemma clear_step a s : clear_ s -> match a with ACall _ _ => False | _ => True end ->
  (use_of a s = false \/ (exists i, a = ASpurious i /\ sched_step a s = None)) /\ forall s', sched_step a s = Some s' -> clear_ s'.
Proof.
  intros C Hc. destruct a as [k c|k|k|k|k]; [contradiction| | | |]; cbn [use_of sched_step];
    (destruct (nth_error (s_thr s) k) as [t|] eqn:Hk; [|split; [eauto|discriminate]]); pose proof (C _ _ Hk) as Ct; destruct t as [p fs]; unfold involved in Ct; cbn [th_pc th_frames] in *.
  - destruct p; try (exfalso; apply Ct; exact Logic.I).
    + split; [left; reflexivity|discriminate].
    + destruct c; [|exfalso; apply Ct; exact Logic.I]. split; [left; reflexivity|]. intros s' Hs. unfold go in Hs. cbn [th_pc th_frames] in Hs.
      destruct (j_call j); injection Hs as <-; (eapply put_clear; [reflexivity| |exact C]); unfold involved; cbn [th_pc th_frames]; [|exact Ct].
      intros [H|H]; [discriminate H|exact (Ct H)].
    + split; [left; reflexivity|]. intros s' Hs. unfold go in Hs. cbn [th_pc th_frames] in Hs.
      destruct (j_call j); injection Hs as <-; (eapply put_clear; [reflexivity| |exact C]); unfold involved; cbn [th_pc th_frames]; [|exact Ct].
      intros [H|H]; [discriminate H|exact (Ct H)].
  - destruct p; try (exfalso; apply Ct; exact Logic.I); (split; [right; eauto|discriminate]).
  - split; [left; reflexivity|]. intros s' Hs. destruct p; try discriminate. destruct fs as [|f fs]; [discriminate|]. injection Hs as <-.
    eapply put_clear; [reflexivity| |exact C]. unfold involved.
    destruct f as [[]|]; cbn [th_pc th_frames]; [intros H; apply Ct; right; exact H|exfalso; apply Ct; left; reflexivity|intros H; apply Ct; right; exact H].
  - split; [left; reflexivity|]. intros s' Hs. destruct p; try discriminate. destruct fs as [|f fs]; [discriminate|]. injection Hs as <-.
    eapply put_clear; [reflexivity| |exact C]. unfold involved. cbn [th_pc th_frames]. intros H. apply Ct. right. exact H.
Qed.
Lemma clear_run l : forall x, z_phase x = Ended -> clear_ (z_s x) -> silent l -> zrun l x <> ZUB.
Proof.
  induction l as [|a l IH]; intros x E C S; cbn [zrun]; [discriminate|].
  pose proof (S a (or_introl eq_refl)) as Sa. assert (Sl : silent l) by (intros b Hb; apply S; right; exact Hb).
  unfold zstep. rewrite E. destruct a as [a|j|]; [|contradiction|discriminate].
  destruct (clear_step a (z_s x) C ltac:(destruct a; auto)) as [U K].
  destruct (sched_step a (z_s x)) as [s'|] eqn:Hs.
  - destruct U as [U|(i & _ & U)]; [|discriminate]. rewrite U. apply (IH (mkEnding s' Ended)); [reflexivity|exact (K s' eq_refl)|exact Sl].
  - destruct U as [U|(i & -> & _)]; [rewrite U; discriminate|]. rewrite andb_false_r. discriminate.
Qed.

(** If a thread is, something may. *)
Lemma use_bad i t s : nth_error (s_thr s) i = Some t -> uses (th_pc t) = true -> zstep (ZAct (AGo i)) (mkEnding s Ended) = ZUB.
Proof.
  intros Hi Hu. unfold zstep. cbn [z_phase z_s use_of]. rewrite Hi, Hu. destruct (sched_step (AGo i) s); reflexivity.
Qed.
Lemma returns_bad i fs : forall s, nth_error (s_thr s) i = Some (mkThr PUser fs) -> In (FExec ByRun) fs ->
  exists k, zrun (repeat (ZAct (AReturn i)) k ++ [ZAct (AGo i)]) (mkEnding s Ended) = ZUB.
Proof.
  induction fs as [|f fs IH]; intros s Hi Hin; [contradiction|].
  assert (Hs : sched_step (AReturn i) s = Some (ret i f true fs s)) by (cbn [sched_step]; rewrite Hi; reflexivity).
  assert (Hz : zstep (ZAct (AReturn i)) (mkEnding s Ended) = ZOk (mkEnding (ret i f true fs s) Ended)).
  { unfold zstep. cbn [z_phase z_s]. rewrite Hs. reflexivity. }
  assert (Hdec : f = FExec ByRun \/ f <> FExec ByRun) by (destruct f as [[]|]; auto; right; discriminate).
  destruct Hdec as [->|Hf].
  - exists 1. cbn [repeat app zrun]. rewrite Hz. cbn [ret] in *.
    rewrite (use_bad i (mkThr (PExec0 ByRun) fs)); [reflexivity| |reflexivity]. cbn [add_log set_thr s_thr]. eapply put_same. exact Hi.
  - destruct (IH (ret i f true fs s)) as (k & Hk).
    + unfold ret. cbn [add_log set_thr s_thr]. rewrite (put_same _ _ _ _ Hi). destruct f as [[]|]; try reflexivity. congruence.
    + destruct Hin as [H|H]; [congruence|exact H].
    + exists (S k). cbn [repeat app zrun]. rewrite Hz. exact Hk.
Qed.
Lemma involved_bad i t s : nth_error (s_thr s) i = Some t -> involved t ->
  exists l, silent l /\ zrun l (mkEnding s Ended) = ZUB.
Proof.
  intros Hi Hv. destruct (uses (th_pc t)) eqn:Hu.
  { exists [ZAct (AGo i)]. split; [intros a [<-|[]]; exact Logic.I|]. cbn [zrun]. rewrite (use_bad i t s Hi Hu). reflexivity. }
  assert (Sil : forall k, silent (repeat (ZAct (AReturn i)) k ++ [ZAct (AGo i)])).
  { intros k a Ha. apply in_app_or in Ha as [Ha|[<-|[]]]; [apply repeat_spec in Ha as ->|]; exact Logic.I. }
  destruct t as [p fs]. unfold involved in Hv. cbn [th_pc th_frames] in *. destruct p; try discriminate.
  - destruct (returns_bad i fs s Hi Hv) as (k & Hk). eauto.
  - (* before a task of [ExecOne] *)
    assert (Hs : sched_step (AGo i) s = if j_call j then Some (add_log [SBegin i j] (set_thr i (mkThr PUser (FExec c :: fs)) s))
                 else Some (ret i (FExec c) true fs (add_log [SBegin i j] s))) by (cbn [sched_step]; rewrite Hi; reflexivity).
    assert (Hz : forall s', sched_step (AGo i) s = Some s' -> zstep (ZAct (AGo i)) (mkEnding s Ended) = ZOk (mkEnding s' Ended)).
    { intros s' H. unfold zstep. cbn [z_phase z_s use_of]. rewrite H, Hi. reflexivity. }
    destruct (j_call j).
    + destruct (returns_bad i (FExec c :: fs) (add_log [SBegin i j] (set_thr i (mkThr PUser (FExec c :: fs)) s))) as (k & Hk).
      * cbn [add_log set_thr s_thr]. eapply put_same. exact Hi.
      * destruct c; [right; exact Hv|left; reflexivity].
      * exists (ZAct (AGo i) :: (repeat (ZAct (AReturn i)) k ++ [ZAct (AGo i)])). split.
        { intros a [<-|Ha]; [exact Logic.I|exact (Sil k a Ha)]. }
        cbn [zrun]. rewrite (Hz _ Hs). exact Hk.
    + destruct c.
      * destruct (returns_bad i fs (ret i (FExec ByUser) true fs (add_log [SBegin i j] s))) as (k & Hk).
        { unfold ret. cbn [add_log set_thr s_thr]. eapply put_same. exact Hi. }
        { exact Hv. }
        exists (ZAct (AGo i) :: (repeat (ZAct (AReturn i)) k ++ [ZAct (AGo i)])). split.
        { intros a [<-|Ha]; [exact Logic.I|exact (Sil k a Ha)]. }
        cbn [zrun]. rewrite (Hz _ Hs). exact Hk.
      * exists [ZAct (AGo i); ZAct (AGo i)]. split; [intros a [<-|[<-|[]]]; exact Logic.I|].
        cbn [zrun]. rewrite (Hz _ Hs). rewrite (use_bad i (mkThr (PExec0 ByRun) fs)); [reflexivity| |reflexivity].
        unfold ret. cbn [add_log set_thr s_thr]. eapply put_same. exact Hi.
  - assert (Hs : sched_step (AGo i) s = if j_call j then Some (add_log [SBegin i j] (set_thr i (mkThr PUser (FPoll :: fs)) s))
                 else Some (ret i FPoll true fs (add_log [SBegin i j] s))) by (cbn [sched_step]; rewrite Hi; reflexivity).
    assert (Hz : forall s', sched_step (AGo i) s = Some s' -> zstep (ZAct (AGo i)) (mkEnding s Ended) = ZOk (mkEnding s' Ended)).
    { intros s' H. unfold zstep. cbn [z_phase z_s use_of]. rewrite H, Hi. reflexivity. }
    destruct (j_call j).
    + destruct (returns_bad i (FPoll :: fs) (add_log [SBegin i j] (set_thr i (mkThr PUser (FPoll :: fs)) s))) as (k & Hk).
      * cbn [add_log set_thr s_thr]. eapply put_same. exact Hi.
      * right. exact Hv.
      * exists (ZAct (AGo i) :: (repeat (ZAct (AReturn i)) k ++ [ZAct (AGo i)])). split.
        { intros a [<-|Ha]; [exact Logic.I|exact (Sil k a Ha)]. }
        cbn [zrun]. rewrite (Hz _ Hs). exact Hk.
    + destruct (returns_bad i fs (ret i FPoll true fs (add_log [SBegin i j] s))) as (k & Hk).
      { unfold ret. cbn [add_log set_thr s_thr]. eapply put_same. exact Hi. }
      { exact Hv. }
      exists (ZAct (AGo i) :: (repeat (ZAct (AReturn i)) k ++ [ZAct (AGo i)])). split.
      { intros a [<-|Ha]; [exact Logic.I|exact (Sil k a Ha)]. }
      cbn [zrun]. rewrite (Hz _ Hs). exact Hk.
Qed.
