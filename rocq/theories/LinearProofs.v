(** * LoopScheduler is linearizable *)

From Verif Require Import Base SchedulerModel SchedulerSpec SchedulerProofs LinearModel LinearSpec.

Definition call_of (c : caller) : call := match c with ByUser => CExec | ByRun => CRun end.
Definition doing_of (p : pc) : doing :=
  match p with
  | PUser => Idle
  | PPost0 j | PPost1 j => Wants (CPost j)
  | PPost2 | PPost3 | PStop2 | PStop3 => Has RDone
  | PStop0 | PStop1 => Wants CStop
  | PStopped0 | PStopped1 => Wants CStopped
  | PExec0 c | PExec1 c | PSleep c | PWoke c => Wants (call_of c)
  | PExecF c => Has (RNo (FExec c))
  | PExec2 c j | PExec3 c j => Has (RTask (FExec c) j)
  | PPoll0 | PPoll1 => Wants CPoll
  | PPollF => Has (RNo FPoll)
  | PPoll2 j | PPoll3 j => Has (RTask FPoll j)
  end.
Definition user_of (t : thread) : user := mkUser (doing_of (th_pc t)) (th_frames t).
Definition view (l : list thread) (i : nat) : user := match nth_error l i with Some t => user_of t | None => mkUser Idle [] end.
Definition shown_as (s : sched) : atomic := mkAtomic (s_tasks s) (s_running s) (view (s_thr s)).
Definition same (s : sched) (a : atomic) : Prop :=
  q_tasks a = s_tasks s /\ q_up a = s_running s /\ forall i, q_user a i = view (s_thr s) i.

Lemma takes_of c : takes (call_of c) = Some (FExec c).
Proof. destruct c; reflexivity. Qed.
Lemma wake_user t : user_of (wake t) = user_of t.
Proof. unfold wake, user_of. destruct (th_pc t) eqn:E; rewrite ?E; reflexivity. Qed.
Lemma view_wake l i : view (map wake l) i = view l i.
Proof. unfold view. rewrite nth_error_map. destruct (nth_error l i); cbn; [apply wake_user|reflexivity]. Qed.
Lemma view_put l i t x : nth_error l i = Some t -> view (put i x l) i = user_of x.
Proof. intros H. unfold view. rewrite (put_same i x t l H). reflexivity. Qed.
Lemma view_put_other l i x k : k <> i -> view (put i x l) k = view l k.
Proof. intros H. unfold view. rewrite put_other by congruence. reflexivity. Qed.
Lemma wake_nth l i t : nth_error l i = Some t -> nth_error (map wake l) i = Some (wake t).
Proof. intros H. rewrite nth_error_map, H. reflexivity. Qed.

Lemma stays s s' a t x i : same s a -> nth_error (s_thr s) i = Some t ->
  s_thr s' = put i x (s_thr s) \/ s_thr s' = put i x (map wake (s_thr s)) -> user_of x = user_of t ->
  s_tasks s' = s_tasks s -> s_running s' = s_running s -> exists a', atomic_run a [] a' /\ same s' a'.
Proof.
  intros (H1 & H2 & H3) Hi Ht Hx Hq Hu. exists a. split; [apply r_stay|]. split; [congruence|]. split; [congruence|].
  intros k. rewrite H3. destruct (Nat.eq_dec k i) as [->|Hk].
  - assert (Hv : view (s_thr s') i = user_of x).
    { destruct Ht as [-> | ->]; [exact (view_put _ _ _ _ Hi)|]. eapply view_put, wake_nth, Hi. }
    rewrite Hv, Hx. unfold view. rewrite Hi. reflexivity.
  - destruct Ht as [-> | ->]; rewrite view_put_other by exact Hk; [reflexivity|symmetry; apply view_wake].
Qed.
Lemma moves s s' a t x i evs : same s a -> nth_error (s_thr s) i = Some t ->
  s_thr s' = put i x (s_thr s) \/ s_thr s' = put i x (map wake (s_thr s)) ->
  local i (user_of t) (s_tasks s) (s_running s) evs (user_of x) (s_tasks s') (s_running s') ->
  exists a', atomic_run a evs a' /\ same s' a'.
Proof.
  intros (H1 & H2 & H3) Hi Ht Hl. exists (shown_as s'). split; [|split; [|split]; reflexivity].
  change evs with ([] ++ evs). eapply r_step; [apply r_stay|]. exists i. cbn [shown_as q_user q_tasks q_up].
  rewrite H1, H2, H3. split.
  - assert (Hv : view (s_thr s') i = user_of x).
    { destruct Ht as [-> | ->]; [exact (view_put _ _ _ _ Hi)|]. eapply view_put, wake_nth, Hi. }
    rewrite Hv. unfold view. rewrite Hi. exact Hl.
  - intros k Hk. rewrite H3. destruct Ht as [-> | ->]; rewrite view_put_other by exact Hk; [reflexivity|apply view_wake].
Qed.
Lemma run_trans a e1 b e2 c : atomic_run a e1 b -> atomic_run b e2 c -> atomic_run a (e1 ++ e2) c.
Proof.
  intros H1 H2. revert H1. induction H2; intros H1; [rewrite app_nil_r; exact H1|]. rewrite app_assoc. eapply r_step; eauto.
Qed.

Ltac stay := eapply stays; [eassumption|eassumption|cbn; first [left; reflexivity|right; reflexivity]|unfold user_of; cbn; congruence|reflexivity|reflexivity].
Ltac lock_case H := destruct (s_mtx _); [discriminate|]; injection H as <-; stay.
Lemma step_seen x s s' a : sched_step x s = Some s' -> same s a -> exists a', atomic_run a (seen x s) a' /\ same s' a'.
Proof.
  intros H Ha. destruct x as [i c|i|i|i|i]; cbn [sched_step seen] in *.
  - destruct (nth_error (s_thr s) i) as [t|] eqn:Hi; [|discriminate]. destruct t as [p fs]. cbn [th_pc th_frames] in *. destruct p; try discriminate.
    injection H as <-. eapply moves; [eassumption|eassumption|left; reflexivity|]. unfold user_of. cbn. destruct c; apply l_call.
  - destruct (nth_error (s_thr s) i) as [t|] eqn:Hi; [|discriminate]. destruct t as [p fs]. cbn [th_pc]. unfold go in H. cbn [th_pc th_frames] in H.
    destruct p as [|j|j| | | | | | | | |c|c|c|c|c|c j|c j| | | |j|j]; cbn [seen_go]; try discriminate;
      try (destruct (s_mtx s); [discriminate|]; injection H as <-; stay);
      try (injection H as <-; stay).
    + injection H as <-. eapply moves; [eassumption|eassumption|left; reflexivity|]. apply l_post.
    + injection H as <-. eapply moves; [eassumption|eassumption|left; reflexivity|]. apply l_done.
    + injection H as <-. eapply moves; [eassumption|eassumption|left; reflexivity|]. apply l_stop.
    + injection H as <-. eapply moves; [eassumption|eassumption|left; reflexivity|]. apply l_done.
    + (* Stopped *)
      injection H as <-. destruct Ha as (H1 & H2 & H3).
      set (a1 := mkAtomic (q_tasks a) (q_up a) (fun k => if Nat.eq_dec k i then mkUser (Has (RSaid (negb (s_running s)))) fs else q_user a k)).
      exists (shown_as (set_thr i (mkThr PUser fs) (set_mtx None s))). split; [|split; [|split]; reflexivity].
      change [VStopped i (negb (s_running s))] with (([] ++ []) ++ [VStopped i (negb (s_running s))]). apply (r_step a ([] ++ []) a1).
      * apply (r_step a [] a [] a1); [apply r_stay|]. exists i. cbn [a1 q_user q_tasks q_up]. destruct (Nat.eq_dec i i) as [_|E]; [|congruence].
        rewrite H3. unfold view. rewrite Hi. unfold user_of. cbn [th_pc th_frames doing_of]. rewrite <- H2. split; [apply l_stopped|].
        intros k Hk. destruct (Nat.eq_dec k i); [contradiction|reflexivity].
      * exists i. cbn [a1 q_user q_tasks q_up]. destruct (Nat.eq_dec i i) as [_|E]; [|congruence]. cbn [shown_as set_thr set_mtx q_user q_tasks q_up s_tasks s_running s_thr].
        rewrite (view_put _ _ _ _ Hi). rewrite H1, H2. split; [apply l_said|].
        intros k Hk. destruct (Nat.eq_dec k i); [contradiction|]. rewrite H3. apply view_put_other, Hk.
    + destruct (s_running s) eqn:Hr.
      * unfold pop in H. destruct (s_tasks s) as [|j q] eqn:Hq; injection H as <-; [stay; fail|].
        eapply moves; [eassumption|eassumption|left; reflexivity|]. cbn. rewrite Hq, Hr. apply l_take, takes_of.
      * injection H as <-. eapply moves; [eassumption|eassumption|left; reflexivity|]. cbn. rewrite Hr. apply l_refuse, takes_of.
    + injection H as <-. eapply moves; [eassumption|eassumption|left; reflexivity|]. cbn. destruct c; [apply (l_no i (FExec ByUser))|apply (l_no i (FExec ByRun))].
    + destruct (j_call j) eqn:Hj; injection H as <-; (eapply moves; [eassumption|eassumption|left; reflexivity|]).
      * apply l_begin, Hj.
      * destruct c; [apply (l_skip i (FExec ByUser) j)|apply (l_skip i (FExec ByRun) j)]; exact Hj.
    + destruct (s_running s) eqn:Hr.
      * unfold pop in H. destruct (s_tasks s) as [|j q] eqn:Hq; injection H as <-; (eapply moves; [eassumption|eassumption|left; reflexivity|]); cbn; rewrite Hq, Hr.
        -- apply l_empty.
        -- apply l_take; reflexivity.
      * injection H as <-. eapply moves; [eassumption|eassumption|left; reflexivity|]. cbn. rewrite Hr. apply l_refuse; reflexivity.
    + injection H as <-. eapply moves; [eassumption|eassumption|left; reflexivity|]. apply (l_no i FPoll).
    + destruct (j_call j) eqn:Hj; injection H as <-; (eapply moves; [eassumption|eassumption|left; reflexivity|]).
      * apply l_begin, Hj.
      * apply (l_skip i FPoll j); exact Hj.
  - destruct (nth_error (s_thr s) i) as [t|] eqn:Hi; [|discriminate]. destruct t as [p fs]. cbn [th_pc] in H. destruct p; try discriminate. injection H as <-. stay.
  - destruct (nth_error (s_thr s) i) as [t|] eqn:Hi; [|discriminate]. destruct t as [p fs]. cbn [th_pc th_frames] in *. destruct p; try discriminate. destruct fs as [|f fs]; [discriminate|].
    injection H as <-. eapply moves; [eassumption|eassumption|left; reflexivity|]. destruct f as [[]|]; [apply (l_end i (FExec ByUser))|apply (l_end i (FExec ByRun))|apply (l_end i FPoll)].
  - destruct (nth_error (s_thr s) i) as [t|] eqn:Hi; [|discriminate]. destruct t as [p fs]. cbn [th_pc th_frames] in *. destruct p; try discriminate. destruct fs as [|f fs]; [discriminate|].
    injection H as <-. eapply moves; [eassumption|eassumption|left; reflexivity|]. apply l_throw.
Qed.
Lemma observed l : forall s a evs s', observe l s = Some (evs, s') -> same s a -> exists a', atomic_run a evs a' /\ same s' a'.
Proof.
  induction l as [|x l IH]; intros s a evs s' H Ha; cbn [observe] in H; [injection H as <- <-; exists a; split; [apply r_stay|exact Ha]|].
  destruct (sched_step x s) as [s1|] eqn:Hs; [|discriminate]. destruct (observe l s1) as [[v s2]|] eqn:Ho; [|discriminate]. injection H as <- <-.
  destruct (step_seen x s s1 a Hs Ha) as (a1 & R1 & Ha1). destruct (IH s1 a1 v s2 Ho Ha1) as (a2 & R2 & Ha2). exists a2. split; [exact (run_trans _ _ _ _ _ R1 R2)|exact Ha2].
Qed.
Lemma init_same n : same (sched_init n) atomic_init.
Proof.
  split; [reflexivity|]. split; [reflexivity|]. intros i. unfold view. destruct (nth_error (s_thr (sched_init n)) i) as [t|] eqn:H; [|reflexivity].
  apply init_thr in H as ->. reflexivity.
Qed.
Lemma linearizable n l s evs : observe l (sched_init n) = Some (evs, s) -> exists a, atomic_run atomic_init evs a /\ q_tasks a = s_tasks s /\ q_up a = s_running s.
Proof. intros H. destruct (observed l _ _ _ _ H (init_same n)) as (a & R & H1 & H2 & _). eauto. Qed.
Lemma observe_run l : forall s, sched_run l s = option_map snd (observe l s).
Proof.
  induction l as [|x l IH]; intros s; [reflexivity|]. cbn [sched_run observe]. destruct (sched_step x s) as [s1|]; [|reflexivity].
  rewrite IH. destruct (observe l s1) as [[v s2]|]; reflexivity.
Qed.

(** ** Stopped *)
Definition note (k : nat) (a : option call) (e : vis) : option call := match e with VCall i c => if Nat.eqb i k then Some c else a | _ => a end.
Definition last_call (k : nat) (evs : list vis) : option call := fold_left (note k) evs None.
Lemma note_none k m : (forall c, ~ In (VCall k c) m) -> forall x, fold_left (note k) m x = x.
Proof.
  induction m as [|e m IH]; intros H x; [reflexivity|]. cbn. rewrite IH; [|intros c Hc; apply (H c); right; exact Hc].
  destruct e; try reflexivity. cbn. destruct (Nat.eqb_spec i k) as [->|]; [|reflexivity]. exfalso. apply (H c). left. reflexivity.
Qed.
Lemma last_call_is k a c m : (forall c, ~ In (VCall k c) m) -> last_call k (a ++ VCall k c :: m) = Some c.
Proof. intros H. unfold last_call. rewrite fold_left_app. cbn. rewrite Nat.eqb_refl. apply note_none, H. Qed.
Lemma last_call_app k a b : (forall c, ~ In (VCall k c) b) -> last_call k (a ++ b) = last_call k a.
Proof. intros H. unfold last_call. rewrite fold_left_app. apply note_none, H. Qed.
Lemma returned_app a b : stop_returned a -> stop_returned (a ++ b).
Proof.
  intros (k & x & m & y & -> & H). exists k, x, m, (y ++ b). split; [|exact H]. rewrite <- app_assoc. cbn. rewrite <- app_assoc. reflexivity.
Qed.
Lemma called_app a b : stop_called a -> stop_called (a ++ b).
Proof. intros (k & H). exists k. apply in_or_app. left. exact H. Qed.
Lemma own_events i u q up evs u' q' up' : local i u q up evs u' q' up' -> forall k c, In (VCall k c) evs -> k = i /\ evs = [VCall i c] /\ u' = mkUser (Wants c) (u_in u).
Proof.
  intros H k c Hin. destruct H; unfold hands in Hin; cbn in Hin;
    repeat match type of Hin with context [match ?f with _ => _ end] => destruct f; cbn in Hin end;
    repeat (destruct Hin as [Hin|Hin]; [try discriminate; injection Hin as <- <-; auto|]); destruct Hin.
Qed.
Lemma split_events {A} (a b p m : list A) e : a ++ b = p ++ e :: m ->
  (exists m', a = p ++ e :: m' /\ m = m' ++ b) \/ (exists p', p = a ++ p' /\ b = p' ++ e :: m).
Proof.
  revert p. induction a as [|x a IH]; intros p H.
  - right. exists p. split; [reflexivity|exact H].
  - destruct p as [|y p]; cbn in H; injection H as -> H.
    + left. exists a. split; [reflexivity|]. symmetry. exact H.
    + destruct (IH p H) as [(m' & -> & ->)|(p' & -> & ->)]; [left; exists m'; split; reflexivity|right; exists p'; split; reflexivity].
Qed.
Definition calm (evs : list vis) (a : atomic) : Prop :=
  (q_up a = false -> stop_called evs) /\
  (stop_returned evs -> q_up a = false) /\
  forall k, match u_doing (q_user a k) with
            | Wants CStop => last_call k evs = Some CStop
            | Wants (CPost j) => last_call k evs = Some (CPost j)
            | Wants CPoll => last_call k evs = Some CPoll
            | Has (RNo (FExec _)) => stop_called evs
            | Has (RNo FPoll) => last_call k evs = Some CPoll
            | Has RDone => exists c, last_call k evs = Some c /\ (c = CStop -> q_up a = false)
            | Has (RSaid true) => stop_called evs
            | Has (RSaid false) => forall p m, evs = p ++ VCall k CStopped :: m -> (forall c, ~ In (VCall k c) m) -> ~ stop_returned p
            | _ => True
            end.
Definition sound (evs : list vis) : Prop :=
  (forall p i m, evs = p ++ VStopped i true :: m -> stop_called p) /\
  (forall p i m r, evs = p ++ VCall i CStopped :: m ++ VStopped i false :: r -> (forall c, ~ In (VCall i c) m) -> ~ stop_returned p) /\
  (forall p i m, evs = p ++ VRun i :: m -> stop_called p) /\
  (forall p i m r, evs = p ++ VCall i CExec :: m ++ VOne i false :: r -> (forall c, ~ In (VCall i c) m) -> stop_called (p ++ VCall i CExec :: m)).
Lemma last_call_in k evs c : last_call k evs = Some c -> In (VCall k c) evs.
Proof.
  unfold last_call. rewrite <- (rev_involutive evs). induction (rev evs) as [|e l IH]; [discriminate|]. cbn [rev]. rewrite fold_left_app. cbn.
  intros H. apply in_or_app. destruct e; cbn in H; try (left; apply IH, H). destruct (Nat.eqb_spec i k) as [->|]; [|left; apply IH, H].
  injection H as ->. right. left. reflexivity.
Qed.
Lemma stays_down i u q up e u' q' up' : local i u q up e u' q' up' -> up = false -> up' = false.
Proof. destruct 1; intros; try assumption; try reflexivity; discriminate. Qed.
Lemma went_down i u q up e u' q' up' : local i u q up e u' q' up' -> up' = false -> up = false \/ u_doing u = Wants CStop.
Proof. destruct 1; intros; try (left; assumption); try discriminate. right. reflexivity. Qed.
Lemma calm_step evs a e a' : calm evs a -> sound evs -> atomic_step a e a' -> calm (evs ++ e) a' /\ sound (evs ++ e).
Proof.
  intros (C1 & C2 & C3) (S1 & S2 & S3 & S4) (i & Hl & Ho). pose proof (stays_down _ _ _ _ _ _ _ _ Hl) as Hdown.
  pose proof (own_events _ _ _ _ _ _ _ _ Hl) as Hown. pose proof (C3 i) as Ci.
  split; [split; [|split]|split; [|split; [|split]]].
  - intros Hup. destruct (went_down _ _ _ _ _ _ _ _ Hl Hup) as [H|H]; [apply called_app, C1, H|]. rewrite H in Ci.
    exists i. apply in_or_app. left. apply last_call_in, Ci.
  - intros (k & x & m & y & E & Hm). rewrite app_comm_cons, app_assoc in E. destruct (split_events _ _ _ _ _ E) as [(m' & E' & _)|(p' & E' & He)].
    + apply Hdown, C2. exists k, x, m, m'. split; [|exact Hm]. rewrite E', <- app_assoc. reflexivity.
    + apply Hdown. remember (q_user a i) as u; remember (q_user a' i) as u'; remember (q_up a) as up. clear Hdown Hown.
      assert (Hlast : p' = [] -> last_call k evs = Some CStop). { intros ->. rewrite app_nil_r in E'. rewrite <- E'. apply last_call_is, Hm. }
      destruct Hl; unfold hands in He; repeat match type of He with context [match ?f with _ => _ end] => destruct f end;
        destruct p' as [|? [|? [|? ?]]]; cbn in He; try discriminate He.
      injection He as <- <-. destruct Ci as (c & Hc & Hup). apply Hup. rewrite Hlast in Hc by reflexivity. congruence.
  - intros k. destruct (Nat.eq_dec k i) as [->|Hk].
    + remember (q_user a i) as u; remember (q_user a' i) as u'; remember (q_up a) as up; remember (q_up a') as up'.
      assert (Hfree : forall c, e <> [VCall i c] -> ~ In (VCall i c) e). { intros c Hne Hin. apply Hne. exact (proj1 (proj2 (Hown _ _ Hin))). }
      destruct Hl as [c fs q up|j fs q up|fs q up|fs q up|c f j fs q Ht|c f fs q Ht|fs|fs q up|b fs q up|f fs q up|f j fs q up Hj|f j fs q up Hj|f fs q up|f fs q up]; cbn [u_doing] in *; try exact Logic.I.
      * destruct c; try exact Logic.I; apply last_call_is; intros c [].
      * rewrite app_nil_r. eexists. split; [exact Ci|discriminate].
      * rewrite app_nil_r. eexists. split; [exact Ci|reflexivity].
      * rewrite app_nil_r. destruct up; cbn.
        -- intros p m E Hm Hr. subst evs. specialize (C2 (returned_app _ _ Hr)). discriminate.
        -- apply C1. reflexivity.
      * rewrite app_nil_r. destruct f as [g|]; [apply C1; reflexivity|]. destruct c; try discriminate Ht. exact Ci.
      * rewrite app_nil_r. exact Ci.
      * destruct f as [[]|]; exact Logic.I.
      * destruct f as [[]|]; exact Logic.I.
    + rewrite (Ho k Hk). assert (Hno : forall c, ~ In (VCall k c) e). { intros c Hin. apply Hk. exact (proj1 (Hown _ _ Hin)). }
      specialize (C3 k). destruct (u_doing (q_user a k)) as [|[]|[|[]|[]|]]; try exact Logic.I; try (rewrite last_call_app by exact Hno; exact C3).
      * destruct C3 as (c & Hc & Hup). exists c. rewrite last_call_app by exact Hno. split; [exact Hc|]. intros Hs. apply Hdown, Hup, Hs.
      * apply called_app, C3.
      * intros p m E Hm. destruct (split_events _ _ _ _ _ E) as [(m' & E' & ->)|(p' & _ & He)].
        -- apply (C3 p m' E'). intros c Hin. apply (Hm c). apply in_or_app. left. exact Hin.
        -- exfalso. apply (Hno CStopped). rewrite He. apply in_or_app. right. left. reflexivity.
      * apply called_app, C3.
  - intros p k m E. destruct (split_events _ _ _ _ _ E) as [(m' & E' & _)|(p' & -> & He)]; [exact (S1 _ _ _ E')|]. apply called_app.
    remember (q_user a i) as u; remember (q_user a' i) as u'. clear Hown Hdown E.
    destruct Hl; unfold hands in He; repeat match type of He with context [match ?f with _ => _ end] => destruct f end;
      destruct p' as [|? [|? [|? ?]]]; cbn in He; try discriminate He. injection He as <- -> _. exact Ci.
  - intros p k m r E Hm. rewrite app_comm_cons, app_assoc in E. destruct (split_events _ _ _ _ _ E) as [(m' & E' & _)|(p' & E' & He)].
    + rewrite <- app_assoc in E'. exact (S2 p k m m' E' Hm).
    + remember (q_user a i) as u; remember (q_user a' i) as u'. clear Hown Hdown E.
      destruct Hl; unfold hands in He; repeat match type of He with context [match ?f with _ => _ end] => destruct f end;
        destruct p' as [|? [|? [|? ?]]]; cbn in He; try discriminate He. injection He as <- -> _. cbn in Ci.
      rewrite app_nil_r in E'. exact (Ci p m (eq_sym E') Hm).
  - intros p k m E. destruct (split_events _ _ _ _ _ E) as [(m' & E' & _)|(p' & -> & He)]; [exact (S3 _ _ _ E')|]. apply called_app.
    remember (q_user a i) as u; remember (q_user a' i) as u'. clear Hown Hdown E.
    destruct Hl; unfold hands in He; repeat match type of He with context [match ?f with _ => _ end] => destruct f end;
      destruct p' as [|? [|? [|? ?]]]; cbn in He; try discriminate He. exact Ci.
  - intros p k m r E Hm. rewrite app_comm_cons, app_assoc in E. destruct (split_events _ _ _ _ _ E) as [(m' & E' & _)|(p' & E' & He)].
    + rewrite <- app_assoc in E'. exact (S4 p k m m' E' Hm).
    + remember (q_user a i) as u; remember (q_user a' i) as u'. clear Hown Hdown E.
      destruct Hl; unfold hands in He; repeat match type of He with context [match ?f with _ => _ end] => destruct f end;
        destruct p' as [|? [|? [|? ?]]]; cbn in He; try discriminate He; cbn in Ci; rewrite app_nil_r in E'; rewrite E'; [exact Ci|].
      exfalso. injection He as <- _. rewrite <- E', last_call_is in Ci by exact Hm. discriminate.
Qed.
Lemma run_calm a0 evs a : atomic_run a0 evs a -> a0 = atomic_init -> calm evs a /\ sound evs.
Proof.
  induction 1 as [s|s evs s1 e s2 _ IH Hs]; intros ->.
  - split; [split; [discriminate|split]|split; [|split; [|split]]].
    + intros (k & x & m & y & E & _). destruct x; discriminate.
    + intros k. exact Logic.I.
    + intros [|] ? ? E; discriminate.
    + intros [|] ? ? ? E; discriminate.
    + intros [|] ? ? E; discriminate.
    + intros [|] ? ? ? E; discriminate.
  - destruct (IH eq_refl) as (H1 & H2). exact (calm_step _ _ _ _ H1 H2 Hs).
Qed.
