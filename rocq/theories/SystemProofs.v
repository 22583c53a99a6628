(** * Proofs about a local session on LoopScheduler *)

From Verif Require Import Base FromStringModel HistoryModel StorageModel TerminalModel TelnetSpec MenuModel SessionModel ProcessorModel KeyboardModel KeyboardSpec KeyboardProofs SchedulerModel SchedulerSpec SchedulerProofs
  LocalModel LocalSpec LocalProofs SystemModel SystemSpec.
Open Scope nat_scope.
Open Scope list_scope.

(** ** Threads that post, stop and ask *)
Definition poster (p : pc) : bool :=
  match p with PUser | PPost0 _ | PPost1 _ | PPost2 | PPost3 | PStop0 | PStop1 | PStop2 | PStop3 | PStopped0 | PStopped1 => true | _ => false end.
Definition pnext (p : pc) : pc :=
  match p with
  | PPost0 j => PPost1 j | PPost1 _ => PPost2 | PPost2 => PPost3
  | PStop0 => PStop1 | PStop1 => PStop2 | PStop2 => PStop3 | PStopped0 => PStopped1
  | _ => PUser
  end.
Definition pushes (p : pc) : list job := match p with PPost1 j => [j] | _ => [] end.
Definition stops (p : pc) : bool := match p with PStop1 => true | _ => false end.

Lemma wake_poster t : poster (th_pc t) = true -> wake t = t.
Proof. destruct t as [[] ?]; cbn; intros H; try discriminate; reflexivity. Qed.

Lemma go_poster i c t c' : nth_error (s_thr c) i = Some t -> poster (th_pc t) = true -> sched_step (AGo i) c = Some c' ->
  nth_error (s_thr c') i = Some (mkThr (pnext (th_pc t)) (th_frames t)) /\
  (forall j, j <> i -> nth_error (s_thr c') j = nth_error (s_thr c) j \/ nth_error (s_thr c') j = option_map wake (nth_error (s_thr c) j)) /\
  s_tasks c' = s_tasks c ++ pushes (th_pc t) /\ s_running c' = (s_running c && negb (stops (th_pc t))).
Proof.
  intros Hi Hp Hs. cbn [sched_step] in Hs. rewrite Hi in Hs. destruct t as [p fs]. unfold go in Hs. cbn [th_pc th_frames] in *.
  assert (Hm : nth_error (map wake (s_thr c)) i = Some (wake (mkThr p fs))) by (rewrite nth_error_map, Hi; reflexivity).
  destruct p; try discriminate; cases_go Hs; injection Hs as <-; cbn [set_thr set_mtx notify_all push stop_running s_thr s_tasks s_running pnext pushes stops];
    rewrite ?app_nil_r, ?Bool.andb_true_r, ?Bool.andb_false_r; (split; [eapply put_same; eassumption|]); (split; [|split; reflexivity]);
    intros ? Hj; rewrite put_other by congruence; rewrite ?nth_error_map; auto.
Qed.

(** ** Names *)
Lemma keys_app names a b : keys_of names (a ++ b) = keys_of names a ++ keys_of names b.
Proof. apply flat_map_app. Qed.
Definition job_ok (names : list task) (j : job) : Prop :=
  match nth_error names (j_id j) with Some (TKey _) => j_call j = true | Some TApp => True | None => False end.
Lemma nth_more {A} (l : list A) x i y : nth_error l i = Some y -> nth_error (l ++ [x]) i = Some y.
Proof. intros H. rewrite nth_error_app1; [exact H|]. apply nth_error_Some. congruence. Qed.
Lemma nth_last {A} (l : list A) x : nth_error (l ++ [x]) (length l) = Some x.
Proof. rewrite nth_error_app2, Nat.sub_diag by lia. reflexivity. Qed.
Lemma job_more names x j : job_ok names j -> job_ok (names ++ [x]) j /\ keys_of (names ++ [x]) [j] = keys_of names [j].
Proof.
  unfold job_ok, keys_of. cbn [flat_map]. destruct (nth_error names (j_id j)) as [t|] eqn:E; [|intros []]. rewrite (nth_more _ x _ _ E). auto.
Qed.
Lemma jobs_more names x js : Forall (job_ok names) js -> Forall (job_ok (names ++ [x])) js /\ keys_of (names ++ [x]) js = keys_of names js.
Proof.
  induction 1 as [|j js Hj Hjs IH]; [split; [constructor|reflexivity]|]. destruct IH as (I1 & I2). destruct (job_more names x j Hj) as (J1 & J2).
  split; [constructor; assumption|]. change (j :: js) with ([j] ++ js). rewrite !keys_app, I2, J2. reflexivity.
Qed.

(** ** Invariant *)
Definition posts_app (names : list task) (p : pc) : Prop := match p with PPost0 j | PPost1 j => nth_error names (j_id j) = Some TApp | _ => True end.
Definition flight_ok (names : list task) (p : pc) : Prop := match p with PExec2 _ j | PExec3 _ j | PPoll2 j | PPoll3 j => job_ok names j | _ => True end.
Definition thr0 (s : sys) (t : thread) : Prop :=
  posts_app (y_names s) (th_pc t) /\ flight_ok (y_names s) (th_pc t) /\ (outside s = false -> poster (th_pc t) = true) /\ (y_key s <> None -> th_frames t <> []).
Definition thr1 (names : list task) (kw : wpc) (t : thread) : Prop :=
  th_frames t = [] /\
  match th_pc t with
  | PUser => True
  | PPost0 j | PPost1 j => exists k, kw = WNotify k /\ nth_error names (j_id j) = Some (TKey k) /\ j_call j = true
  | PPost2 | PPost3 => exists k, kw = WNotify k
  | _ => False
  end.
Definition thr2 (names : list task) (t : thread) : Prop := poster (th_pc t) = true /\ posts_app names (th_pc t).
Definition life_ok (s : sys) : Prop :=
  match y_life s, y_key s with SLive, _ | SOver, None | SOver, Some (KTask _) | _, None => True | _, _ => False end.
Record wf (s : sys) : Prop := mkWf {
  wf_mutex : mutex (y_sched s);
  wf_0 : exists t, nth_error (s_thr (y_sched s)) 0 = Some t /\ thr0 s t;
  wf_1 : exists t, nth_error (s_thr (y_sched s)) 1 = Some t /\ thr1 (y_names s) (k_w (y_kbd s)) t;
  wf_2 : forall i t, nth_error (s_thr (y_sched s)) (S (S i)) = Some t -> thr2 (y_names s) t;
  wf_tasks : Forall (job_ok (y_names s)) (s_tasks (y_sched s));
  wf_life : life_ok s }.

(** ** The state of LocalModel.v *)
Definition main_of (s : sys) : lpc :=
  match y_life s with
  | SCtor => LCtor
  | SLive => match y_key s with Some (KDeact k) => LDeact k | Some KAct => LAct | _ => LTask end
  | SDtor => LDtor
  | SOver => LOver
  end.
Definition stopped_of (s : sys) : bool := match waiting s with [] => negb (s_running (y_sched s)) | _ => false end.
Definition abs (s : sys) (q : list key) : local :=
  mkLocal (y_kbd s) (waiting s ++ q) (stopped_of s) (main_of s) (y_proc s) (y_done s) (y_thrown s).
Definition sim (s : sys) (a : local) : Prop := exists q, keys_of (y_names s) (s_tasks (y_sched s)) = q ++ pending s /\ a = abs s q.

(** What the other threads see of a step: they may be woken. *)
Definition seen_as (o o' : option thread) : Prop := o' = o \/ o' = option_map wake o.
Definition wait_of (names : list task) (ky : option kpc) (p : option pc) : list key :=
  match p with
  | Some (PExec2 _ j) | Some (PExec3 _ j) | Some (PPoll2 j) | Some (PPoll3 j) => keys_of names [j]
  | _ => match ky with Some (KTask k) => [k] | _ => [] end
  end.
Definition pend_of (kw : wpc) (p : option pc) : list key := match p, kw with Some PPost2, WNotify k | Some PPost3, WNotify k => [k] | _, _ => [] end.
Lemma waiting_eq s : waiting s = wait_of (y_names s) (y_key s) (pc_of 0 s).
Proof. reflexivity. Qed.
Lemma pending_eq s : pending s = pend_of (k_w (y_kbd s)) (pc_of 1 s).
Proof. reflexivity. Qed.
Lemma seen_wait names key o o' : seen_as o o' -> wait_of names key (option_map th_pc o') = wait_of names key (option_map th_pc o).
Proof. intros [->| ->]; [reflexivity|]. destruct o as [[[] ?]|]; reflexivity. Qed.
Lemma seen_pend kw o o' : seen_as o o' -> pend_of kw (option_map th_pc o') = pend_of kw (option_map th_pc o).
Proof. intros [->| ->]; [reflexivity|]. destruct o as [[[] ?]|]; reflexivity. Qed.
Lemma seen_0 s t o' : thr0 s t -> seen_as (Some t) o' -> exists t', o' = Some t' /\ thr0 s t'.
Proof.
  intros H [->| ->]; [eauto|]. exists (wake t). split; [reflexivity|]. destruct H as (H1 & H2 & H3 & H4). destruct t as [p fs]. destruct p; cbn [wake th_pc th_frames] in *; repeat split; auto.
Qed.
Lemma seen_1 names kw t o' : thr1 names kw t -> seen_as (Some t) o' -> exists t', o' = Some t' /\ thr1 names kw t'.
Proof.
  intros H [->| ->]; [eauto|]. exists (wake t). split; [reflexivity|]. destruct t as [p fs]. destruct p; cbn [wake th_pc th_frames] in *; exact H.
Qed.
Lemma seen_2 names o o' t' : (forall t, o = Some t -> thr2 names t) -> seen_as o o' -> o' = Some t' -> thr2 names t'.
Proof.
  intros H [->| ->] He; [apply H, He|]. destruct o as [t|]; [|discriminate]. injection He as <-. specialize (H _ eq_refl). rewrite (wake_poster t (proj1 H)). exact H.
Qed.
Lemma pc_nth i s : pc_of i s = option_map th_pc (nth_error (s_thr (y_sched s)) i).
Proof. unfold pc_of. destruct (nth_error _ i); reflexivity. Qed.
Lemma in_sched_inv a s s' : in_sched a s = YOk s' -> exists c, sched_step a (y_sched s) = Some c /\ s' = y_set_sched c s.
Proof. unfold in_sched. destruct (sched_step a (y_sched s)) as [c|]; [|discriminate]. intros H. injection H as <-. eauto. Qed.

(** A step of the scheduler by a thread other than the keyboard's that posts, stops or asks *)
Lemma poster_step i s c t q : wf s -> i <> 1 -> nth_error (s_thr (y_sched s)) i = Some t -> poster (th_pc t) = true -> sched_step (AGo i) (y_sched s) = Some c ->
  keys_of (y_names s) (s_tasks (y_sched s)) = q ++ pending s ->
  let s' := y_set_sched c s in
  wf s' /\ keys_of (y_names s') (s_tasks (y_sched s')) = q ++ pending s' /\
  (abs s' q = abs s q \/ (abs s' q = set_stopped (abs s q) /\ s_running c = false)).
Proof.
  intros [Hmx (t0 & H0 & T0) (t1 & H1 & T1) H2 Ht Hl] Hi1 Hi Hp Hs Hq s'. destruct (go_poster i _ t c Hi Hp Hs) as (G1 & G2 & G3 & G4).
  assert (Hpa : posts_app (y_names s) (th_pc t)).
  { destruct i as [|[|i]]; [rewrite H0 in Hi; injection Hi as <-; apply T0|congruence|apply (H2 _ _ Hi)]. }
  assert (Hn : posts_app (y_names s) (pnext (th_pc t)) /\ flight_ok (y_names s) (pnext (th_pc t)) /\ poster (pnext (th_pc t)) = true /\ Forall (job_ok (y_names s)) (pushes (th_pc t)) /\ keys_of (y_names s) (pushes (th_pc t)) = []).
  { destruct (th_pc t); try discriminate Hp; cbn [posts_app flight_ok pnext pushes poster] in *; repeat split; try exact Hpa; try (apply Forall_nil); try reflexivity.
    - constructor; [|constructor]. unfold job_ok. rewrite Hpa. exact Logic.I.
    - unfold keys_of. cbn [flat_map]. rewrite Hpa. reflexivity. }
  destruct Hn as (N1 & N2 & N3 & N4 & N5).
  assert (S1 : seen_as (nth_error (s_thr (y_sched s)) 1) (nth_error (s_thr c) 1)) by (apply G2; congruence).
  assert (W' : waiting s' = waiting s).
  { rewrite !waiting_eq, !pc_nth. cbn [s' y_set_sched y_names y_key y_sched]. destruct i as [|i].
    - rewrite G1, Hi. cbn [option_map th_pc]. destruct (th_pc t); try discriminate Hp; reflexivity.
    - apply seen_wait, G2. congruence. }
  assert (P' : pending s' = pending s).
  { rewrite !pending_eq, !pc_nth. cbn [s' y_set_sched y_kbd y_sched]. apply seen_pend, S1. }
  split; [constructor; cbn [s' y_set_sched y_names y_key y_sched y_kbd y_life]|split].
  - exact (step_mutex _ _ _ Hmx Hs).
  - destruct i as [|i].
    + exists (mkThr (pnext (th_pc t)) (th_frames t)). split; [exact G1|]. rewrite H0 in Hi. injection Hi as ->. destruct T0 as (A1 & A2 & A3 & A4). repeat split; cbn [th_pc th_frames]; try assumption. intros _. exact N3.
    + destruct (seen_0 s t0 (nth_error (s_thr c) 0) T0) as (t' & -> & T'); [rewrite <- H0; apply G2; congruence|]. exists t'. split; [reflexivity|exact T'].
  - rewrite H1 in S1. destruct (seen_1 _ _ t1 _ T1 S1) as (t' & -> & T'). eauto.
  - intros k tk Hk. destruct (Nat.eq_dec i (S (S k))) as [->|Hne].
    + rewrite G1 in Hk. injection Hk as <-. split; assumption.
    + exact (seen_2 _ _ _ _ (H2 k) (G2 (S (S k)) (fun E => Hne (eq_sym E))) Hk).
  - rewrite G3. apply Forall_app. split; assumption.
  - exact Hl.
  - rewrite P'. cbn [s' y_set_sched y_names y_sched]. rewrite G3, keys_app, N5, app_nil_r. exact Hq.
  - unfold abs, stopped_of. rewrite W'. cbn [s' y_set_sched y_names y_key y_sched y_kbd y_life y_proc y_done y_thrown main_of].
    change (main_of (y_set_sched c s)) with (main_of s). rewrite G4. destruct (stops (th_pc t)); cbn [negb]; rewrite ?Bool.andb_true_r, ?Bool.andb_false_r; [|left; reflexivity].
    destruct (waiting s); [right|left; reflexivity]. split; reflexivity.
Qed.

(** [Post] of the keyboard's thread *)
Lemma worker_post s c t k q : wf s -> nth_error (s_thr (y_sched s)) 1 = Some t -> th_pc t <> PPost3 -> k_w (y_kbd s) = WNotify k -> sched_step (AGo 1) (y_sched s) = Some c ->
  keys_of (y_names s) (s_tasks (y_sched s)) = q ++ pending s ->
  let s' := y_set_sched c s in
  wf s' /\ keys_of (y_names s') (s_tasks (y_sched s')) = q ++ pending s' /\ abs s' q = abs s q /\ s_running c = s_running (y_sched s).
Proof.
  intros [Hmx (t0 & H0 & T0) (t1 & H1 & T1) H2 Ht Hl] Hi Hne Hk Hs Hq s'. rewrite H1 in Hi. injection Hi as ->.
  assert (Hp : poster (th_pc t) = true). { destruct T1 as (_ & T1). destruct (th_pc t); try (destruct T1; fail); reflexivity. }
  destruct (go_poster 1 _ t c H1 Hp Hs) as (G1 & G2 & G3 & G4).
  assert (S0 : seen_as (nth_error (s_thr (y_sched s)) 0) (nth_error (s_thr c) 0)) by (apply G2; congruence).
  assert (W' : waiting s' = waiting s). { rewrite !waiting_eq, !pc_nth. cbn [s' y_set_sched y_names y_key y_sched]. apply seen_wait, S0. }
  assert (Hst : stops (th_pc t) = false). { destruct T1 as (_ & T1). destruct (th_pc t); try (destruct T1; fail); reflexivity. }
  rewrite Hst, Bool.andb_true_r in G4.
  split; [constructor; cbn [s' y_set_sched y_names y_key y_sched y_kbd y_life]|split; [|split]].
  - exact (step_mutex _ _ _ Hmx Hs).
  - rewrite H0 in S0. destruct (seen_0 s t0 _ T0 S0) as (t' & -> & T'). exists t'. split; [reflexivity|exact T'].
  - exists (mkThr (pnext (th_pc t)) (th_frames t)). split; [exact G1|]. destruct T1 as (F1 & T1). split; [exact F1|]. cbn [th_pc].
    destruct (th_pc t); try (destruct T1; fail); cbn [pnext]; try exact Logic.I; try (exists k; exact Hk); try exact T1.
  - intros i tk Hn. exact (seen_2 _ _ _ _ (H2 i) (G2 (S (S i)) ltac:(congruence)) Hn).
  - rewrite G3. apply Forall_app. split; [exact Ht|]. destruct T1 as (_ & T1). destruct (th_pc t); try apply Forall_nil. destruct T1 as (k' & _ & Hn & Hc). constructor; [|constructor]. unfold job_ok. rewrite Hn. exact Hc.
  - exact Hl.
  - rewrite pending_eq, pc_nth in Hq. rewrite pending_eq, pc_nth. cbn [s' y_set_sched y_names y_sched y_kbd]. rewrite G3, keys_app, Hq, G1, H1. cbn [option_map th_pc].
    destruct T1 as (_ & T1). destruct (th_pc t); try (destruct T1; fail); cbn [pnext pushes pend_of]; try (rewrite ?Hk, ?app_nil_r; reflexivity); try contradiction.
    destruct T1 as (k' & Hk' & Hn & _). rewrite Hk' in Hk. injection Hk as ->. rewrite Hk'. unfold keys_of. cbn [flat_map]. rewrite Hn, app_nil_r. reflexivity.
  - unfold abs, stopped_of. rewrite W'. cbn [s' y_set_sched y_names y_key y_sched y_kbd y_life y_proc y_done y_thrown].
    change (main_of (y_set_sched c s)) with (main_of s). rewrite G4. reflexivity.
  - exact G4.
Qed.
(** Its end, with the keyboard's step *)
Lemma worker_posted sgn s c t k b q : wf s -> nth_error (s_thr (y_sched s)) 1 = Some t -> th_pc t = PPost3 -> k_w (y_kbd s) = WNotify k ->
  k_step sgn WGo (y_kbd s) = Some b -> sched_step (AGo 1) (y_sched s) = Some c ->
  keys_of (y_names s) (s_tasks (y_sched s)) = q ++ pending s ->
  let s' := y_set_sched c (y_set_kbd b s) in
  wf s' /\ keys_of (y_names s') (s_tasks (y_sched s')) = (q ++ [k]) ++ pending s' /\ posted (y_kbd s) b = [k] /\
  abs s' (q ++ [k]) = set_queue (waiting s ++ q ++ [k]) (set_kbd b (abs s q)) /\ s_running c = s_running (y_sched s).
Proof.
  intros [Hmx (t0 & H0 & T0) (t1 & H1 & T1) H2 Ht Hl] Hi Hpc Hk Hb Hs Hq s'. rewrite H1 in Hi. injection Hi as ->.
  destruct (go_poster 1 _ t c H1 ltac:(rewrite Hpc; reflexivity) Hs) as (G1 & G2 & G3 & G4). rewrite Hpc in G1, G3, G4. cbn [pnext pushes stops negb] in *. rewrite app_nil_r in G3. rewrite Bool.andb_true_r in G4.
  assert (Hb' : b = to_w WLock (add_key k (y_kbd s))). { unfold k_step, w_step in Hb. rewrite Hk in Hb. destruct (k_m (y_kbd s)); try discriminate; injection Hb as <-; reflexivity. }
  assert (S0 : seen_as (nth_error (s_thr (y_sched s)) 0) (nth_error (s_thr c) 0)) by (apply G2; congruence).
  assert (W' : waiting s' = waiting s). { rewrite !waiting_eq, !pc_nth. cbn [s' y_set_sched y_set_kbd y_names y_key y_sched]. apply seen_wait, S0. }
  split; [constructor; cbn [s' y_set_sched y_set_kbd y_names y_key y_sched y_kbd y_life]|split; [|split; [|split]]].
  - exact (step_mutex _ _ _ Hmx Hs).
  - rewrite H0 in S0. destruct (seen_0 s t0 _ T0 S0) as (t' & -> & T'). exists t'. split; [reflexivity|exact T'].
  - eexists. split; [exact G1|]. split; [apply T1|exact Logic.I].
  - intros i tk Hn. exact (seen_2 _ _ _ _ (H2 i) (G2 (S (S i)) ltac:(congruence)) Hn).
  - rewrite G3. exact Ht.
  - exact Hl.
  - rewrite pending_eq, pc_nth in Hq. rewrite pending_eq, pc_nth. cbn [s' y_set_sched y_set_kbd y_names y_sched y_kbd]. rewrite G3, Hq, G1, H1. cbn [option_map th_pc]. rewrite Hpc, Hk. cbn [pend_of]. rewrite app_nil_r. reflexivity.
  - rewrite Hb'. unfold posted. cbn [to_w add_key k_keys]. rewrite skipn_app, skipn_all, Nat.sub_diag. reflexivity.
  - unfold abs, stopped_of. rewrite W'. cbn [s' y_set_sched y_set_kbd y_names y_key y_sched y_kbd y_life y_proc y_done y_thrown].
    change (main_of (y_set_sched c (y_set_kbd b s))) with (main_of s). rewrite G4. reflexivity.
  - exact G4.
Qed.

(** ** Calls *)
Lemma posts_more names x p : posts_app names p -> posts_app (names ++ [x]) p.
Proof. destruct p; cbn [posts_app]; try exact (fun _ => Logic.I); apply nth_more. Qed.
Lemma flight_more names x p : flight_ok names p -> flight_ok (names ++ [x]) p.
Proof. destruct p; cbn [flight_ok]; try exact (fun _ => Logic.I); intros H; apply (job_more _ x _ H). Qed.
Lemma thr1_more names x kw t : thr1 names kw t -> thr1 (names ++ [x]) kw t.
Proof.
  intros (H1 & H2). split; [exact H1|]. destruct (th_pc t); try exact H2; destruct H2 as (k & A & B & C); exists k; (split; [exact A|]); (split; [apply nth_more, B|exact C]).
Qed.
Lemma wait_more names x ky p : match p with Some p => flight_ok names p | None => True end -> wait_of (names ++ [x]) ky p = wait_of names ky p.
Proof. destruct p as [[]|]; cbn [flight_ok wait_of]; intros H; try reflexivity; apply (job_more _ x _ H). Qed.
(** A new name changes nothing. *)
Lemma name_more s x q : wf s -> keys_of (y_names s) (s_tasks (y_sched s)) = q ++ pending s ->
  let s' := y_add_name x s in wf s' /\ keys_of (y_names s') (s_tasks (y_sched s')) = q ++ pending s' /\ abs s' q = abs s q.
Proof.
  intros [Hmx (t0 & H0 & T0) (t1 & H1 & T1) H2 Ht Hl] Hq s'. destruct (jobs_more _ x _ Ht) as (J1 & J2).
  split; [constructor; cbn [s' y_add_name y_names y_sched y_kbd]|split].
  - exact Hmx.
  - exists t0. split; [exact H0|]. destruct T0 as (A1 & A2 & A3 & A4). repeat split; cbn [s' y_add_name y_names y_key]; try assumption; [apply posts_more, A1|apply flight_more, A2].
  - exists t1. split; [exact H1|apply thr1_more, T1].
  - intros i t Hi. destruct (H2 i t Hi). split; [assumption|apply posts_more; assumption].
  - exact J1.
  - exact Hl.
  - cbn [s' y_add_name y_names y_sched]. rewrite J2. exact Hq.
  - unfold abs, stopped_of. rewrite (waiting_eq s'), (waiting_eq s), !pc_nth. cbn [s' y_add_name y_names y_key y_sched y_kbd y_life y_proc y_done y_thrown].
    rewrite wait_more; [reflexivity|]. rewrite H0. cbn [option_map]. apply T0.
Qed.
Definition is_exec (c : call) : bool := match c with CExec | CRun | CPoll => true | _ => false end.
Lemma call_step i c s k q : wf s -> i <> 1 -> (is_exec c = true -> i = 0 /\ outside s = true) -> (forall j, c = CPost j -> nth_error (y_names s) (j_id j) = Some TApp) ->
  sched_step (ACall i c) (y_sched s) = Some k -> keys_of (y_names s) (s_tasks (y_sched s)) = q ++ pending s ->
  let s' := y_set_sched k s in
  wf s' /\ keys_of (y_names s') (s_tasks (y_sched s')) = q ++ pending s' /\ abs s' q = abs s q /\ s_running k = s_running (y_sched s).
Proof.
  intros [Hmx (t0 & H0 & T0) (t1 & H1 & T1) H2 Ht Hl] Hi1 Hx Hj Hs Hq s'. pose proof (step_mutex _ _ _ Hmx Hs) as Hmx'. cbn [sched_step] in Hs.
  destruct (nth_error (s_thr (y_sched s)) i) as [t|] eqn:Hi; [|discriminate]. destruct t as [p fs]. cbn [th_pc th_frames] in Hs. destruct p; try discriminate. injection Hs as Hk.
  assert (Hth : s_thr k = put i (mkThr (enter c) fs) (s_thr (y_sched s))) by (rewrite <- Hk; reflexivity).
  assert (G1 : nth_error (s_thr k) i = Some (mkThr (enter c) fs)) by (rewrite Hth; eapply put_same, Hi).
  assert (G2 : forall j, j <> i -> nth_error (s_thr k) j = nth_error (s_thr (y_sched s)) j) by (intros j Hne; rewrite Hth; apply put_other; congruence).
  assert (Gt : s_tasks k = s_tasks (y_sched s)) by (rewrite <- Hk; reflexivity).
  assert (Gr : s_running k = s_running (y_sched s)) by (rewrite <- Hk; reflexivity).
  assert (W' : waiting s' = waiting s).
  { rewrite !waiting_eq, !pc_nth. cbn [s' y_set_sched y_names y_key y_sched]. destruct i as [|i].
    - rewrite G1, Hi. cbn [option_map th_pc]. destruct c; reflexivity.
    - rewrite G2 by congruence. reflexivity. }
  assert (P' : pending s' = pending s). { rewrite !pending_eq, !pc_nth. cbn [s' y_set_sched y_kbd y_sched]. rewrite G2 by congruence. reflexivity. }
  assert (Hpa : posts_app (y_names s) (enter c)) by (destruct c; try exact Logic.I; apply Hj; reflexivity).
  split; [constructor; cbn [s' y_set_sched y_names y_key y_sched y_kbd y_life]|split; [|split]].
  - exact Hmx'.
  - destruct i as [|i].
    + eexists. split; [exact G1|]. rewrite H0 in Hi. injection Hi as ->. destruct T0 as (A1 & A2 & A3 & A4). repeat split; cbn [th_pc th_frames]; try assumption; [destruct c; exact Logic.I|].
      intros Ho. destruct c; try reflexivity; destruct (Hx eq_refl) as (_ & Ho'); unfold outside in *; cbn [s' y_set_sched y_life y_key] in Ho; congruence.
    + rewrite G2 by congruence. exists t0. split; [exact H0|exact T0].
  - rewrite G2 by congruence. exists t1. split; [exact H1|exact T1].
  - intros j tj Hn. destruct (Nat.eq_dec i (S (S j))) as [->|Hne]; [|rewrite G2 in Hn by congruence; exact (H2 _ _ Hn)].
    rewrite G1 in Hn. injection Hn as <-. split; cbn [th_pc]; [|exact Hpa]. destruct c; try reflexivity; destruct (Hx eq_refl); discriminate.
  - rewrite Gt. exact Ht.
  - exact Hl.
  - rewrite P'. cbn [s' y_set_sched y_names y_sched]. rewrite Gt. exact Hq.
  - unfold abs, stopped_of. rewrite W'. cbn [s' y_set_sched y_names y_key y_sched y_kbd y_life y_proc y_done y_thrown].
    change (main_of (y_set_sched k s)) with (main_of s). rewrite Gr. reflexivity.
  - exact Gr.
Qed.
(** The keyboard's thread calls [Post]. *)
Lemma worker_call s ky k q : wf s -> k_w (y_kbd s) = WNotify ky ->
  sched_step (ACall 1 (CPost (mkJob (length (y_names s)) true))) (y_sched s) = Some k -> keys_of (y_names s) (s_tasks (y_sched s)) = q ++ pending s ->
  let s' := y_set_sched k (y_add_name (TKey ky) s) in
  wf s' /\ keys_of (y_names s') (s_tasks (y_sched s')) = q ++ pending s' /\ abs s' q = abs s q /\ s_running k = s_running (y_sched s).
Proof.
  intros Hwf Hky Hs Hq s'. destruct (name_more s (TKey ky) q Hwf Hq) as (Hwf1 & Hq1 & Ha1). cbv zeta in *.
  set (s1 := y_add_name (TKey ky) s) in *. destruct Hwf1 as [Hmx (t0 & H0 & T0) (t1 & H1 & T1) H2 Ht Hl]. change (y_sched s) with (y_sched s1) in *.
  pose proof (step_mutex _ _ _ Hmx Hs) as Hmx'. cbn [sched_step] in Hs. rewrite H1 in Hs. destruct t1 as [p fs]. cbn [th_pc th_frames] in *. destruct p; try discriminate. injection Hs as Hk. cbn [enter] in Hk.
  assert (Hth : s_thr k = put 1 (mkThr (PPost0 (mkJob (length (y_names s)) true)) fs) (s_thr (y_sched s1))) by (rewrite <- Hk; reflexivity).
  assert (G1 : nth_error (s_thr k) 1 = Some (mkThr (PPost0 (mkJob (length (y_names s)) true)) fs)) by (rewrite Hth; eapply put_same, H1).
  assert (G2 : forall j, j <> 1 -> nth_error (s_thr k) j = nth_error (s_thr (y_sched s1)) j) by (intros j Hne; rewrite Hth; apply put_other; congruence).
  assert (Gt : s_tasks k = s_tasks (y_sched s1)) by (rewrite <- Hk; reflexivity).
  assert (Gr : s_running k = s_running (y_sched s1)) by (rewrite <- Hk; reflexivity).
  assert (W' : waiting s' = waiting s1). { rewrite !waiting_eq, !pc_nth. cbn [s' y_set_sched y_names y_key y_sched]. rewrite G2 by congruence. reflexivity. }
  assert (P' : pending s' = [] /\ pending s1 = []). { rewrite !pending_eq, !pc_nth. cbn [s' y_set_sched y_kbd y_sched]. rewrite G1, H1. split; reflexivity. }
  destruct P' as (P1 & P2).
  split; [constructor; cbn [s' y_set_sched y_names y_key y_sched y_kbd y_life]|split; [|split]].
  - exact Hmx'.
  - rewrite G2 by congruence. exists t0. split; [exact H0|exact T0].
  - eexists. split; [exact G1|]. split; [apply T1|]. cbn [th_pc]. exists ky. split; [exact Hky|]. split; [cbn [j_id]; apply nth_last|reflexivity].
  - intros j tj Hn. rewrite G2 in Hn by congruence. exact (H2 _ _ Hn).
  - rewrite Gt. exact Ht.
  - exact Hl.
  - rewrite P1. rewrite P2 in Hq1. cbn [s' y_set_sched y_names y_sched]. rewrite Gt. exact Hq1.
  - rewrite <- Ha1. unfold abs, stopped_of. rewrite W'. cbn [s' y_set_sched y_names y_key y_sched y_kbd y_life y_proc y_done y_thrown].
    change (main_of (y_set_sched k s1)) with (main_of s1). rewrite Gr. reflexivity.
  - exact Gr.
Qed.

(** ** Thread 0 executes *)
Lemma mutex_unique s i t : mutex s -> nth_error (s_thr s) i = Some t -> holding (th_pc t) = true -> forall j t', nth_error (s_thr s) j = Some t' -> holding (th_pc t') = true -> j = i.
Proof. intros (H & _) Hi Hh j t' Hj Hh'. apply (H _ _ Hi) in Hh. apply (H _ _ Hj) in Hh'. congruence. Qed.
Lemma outside_key s : outside s = true -> y_key s = None /\ (y_life s = SLive \/ y_life s = SOver).
Proof. unfold outside. destruct (y_life s), (y_key s); try discriminate; auto. Qed.
(** Thread 0 gets to [p'], the mutex, the tasks and the key change. *)
Lemma main_to s t c fs' p' x q q' : wf s -> nth_error (s_thr (y_sched s)) 0 = Some t -> outside s = true ->
  mutex c -> s_thr c = put 0 (mkThr p' fs') (s_thr (y_sched s)) -> s_running c = s_running (y_sched s) ->
  Forall (job_ok (y_names s)) (s_tasks c) -> flight_ok (y_names s) p' -> posts_app (y_names s) p' ->
  match x with None => True | Some (KTask k) => poster p' = true /\ fs' <> [] | _ => False end ->
  keys_of (y_names s) (s_tasks c) = q' ++ pending s ->
  wait_of (y_names s) x (Some p') ++ q' = waiting s ++ q ->
  match wait_of (y_names s) x (Some p') with [] => negb (s_running c) | _ => false end = stopped_of s ->
  let s' := y_set_sched c (y_set_key x s) in
  wf s' /\ keys_of (y_names s') (s_tasks (y_sched s')) = q' ++ pending s' /\ abs s' q' = abs s q.
Proof.
  intros [Hmx (t0 & H0 & T0) (t1 & H1 & T1) H2 Ht Hl] Hi Ho Hmx' Hth Hr Hjs Hf Hpa Hx Hk Hw Hst s'. destruct (outside_key s Ho) as (Hkey & Hlife).
  assert (G1 : nth_error (s_thr c) 0 = Some (mkThr p' fs')) by (rewrite Hth; eapply put_same, Hi).
  assert (G2 : forall j, j <> 0 -> nth_error (s_thr c) j = nth_error (s_thr (y_sched s)) j) by (intros j Hne; rewrite Hth; apply put_other; congruence).
  assert (W' : waiting s' = wait_of (y_names s) x (Some p')). { rewrite waiting_eq, pc_nth. cbn [s' y_set_sched y_set_key y_names y_key y_sched]. rewrite G1. reflexivity. }
  assert (P' : pending s' = pending s). { rewrite !pending_eq, !pc_nth. cbn [s' y_set_sched y_set_key y_kbd y_sched]. rewrite G2 by congruence. reflexivity. }
  split; [constructor; cbn [s' y_set_sched y_set_key y_names y_key y_sched y_kbd y_life]|split].
  - exact Hmx'.
  - eexists. split; [exact G1|]. unfold thr0, outside. cbn [s' y_set_sched y_set_key y_names y_key y_sched y_kbd y_life th_pc th_frames]. split; [exact Hpa|]. split; [exact Hf|].
    destruct x as [[]|]; try (destruct Hx; fail); [destruct Hx as (Hx1 & Hx2)|]; (split; [|intros E; try exact Hx2; contradiction]); intros E; [exact Hx1|]. destruct Hlife as [Hlife|Hlife]; rewrite Hlife in E; discriminate.
  - rewrite G2 by congruence. exists t1. split; [exact H1|exact T1].
  - intros i ti Hn. rewrite G2 in Hn by congruence. exact (H2 _ _ Hn).
  - exact Hjs.
  - unfold life_ok. cbn [s' y_set_sched y_set_key y_life y_key]. destruct x as [[]|]; try (destruct Hx; fail); destruct Hlife as [Hlife|Hlife]; rewrite Hlife; exact Logic.I.
  - rewrite P'. exact Hk.
  - unfold abs. rewrite W', Hw. unfold stopped_of at 1. rewrite W'. cbn [s' y_set_sched y_set_key y_names y_key y_sched y_kbd y_life y_proc y_done y_thrown]. rewrite Hst.
    replace (main_of s') with (main_of s); [reflexivity|]. unfold main_of, s'. cbn [y_set_sched y_set_key y_life y_key]. rewrite Hkey. destruct x as [[]|]; try (destruct Hx; fail); reflexivity.
Qed.
Lemma key_id s : y_key s = None -> y_set_key None s = s.
Proof. destruct s as [a b c d e f g h]. cbn. intros ->. reflexivity. Qed.
Lemma ret_thr i f b fs c : s_thr (ret i f b fs c) = put i (mkThr (match f, b with FExec ByRun, true => PExec0 ByRun | _, _ => PUser end) fs) (s_thr c).
Proof. reflexivity. Qed.
Lemma exec_step s t c q : wf s -> nth_error (s_thr (y_sched s)) 0 = Some t -> poster (th_pc t) = false -> sched_step (AGo 0) (y_sched s) = Some c ->
  keys_of (y_names s) (s_tasks (y_sched s)) = q ++ pending s ->
  let s' := y_set_sched c match begins (th_pc t) s with Some x => y_set_key (Some x) s | None => s end in
  wf s' /\ s_running c = s_running (y_sched s) /\ exists q', keys_of (y_names s') (s_tasks (y_sched s')) = q' ++ pending s' /\ abs s' q' = abs s q.
Proof.
  intros Hwf Hi Hp Hs Hq s'. pose proof (step_mutex _ _ _ (wf_mutex _ Hwf) Hs) as Hmx'. destruct (wf_0 _ Hwf) as (t0 & H0 & T0). rewrite H0 in Hi. injection Hi as ->.
  assert (Ho : outside s = true). { destruct (outside s) eqn:E; [reflexivity|]. destruct T0 as (_ & _ & T0 & _). rewrite (T0 E) in Hp. discriminate. }
  destruct (outside_key s Ho) as (Hkey & Hlife).
  assert (Hpend : holding (th_pc t) = true -> pending s = []).
  { intros Hh. destruct (wf_1 _ Hwf) as (t1 & H1 & _). rewrite pending_eq, pc_nth, H1. cbn [option_map]. destruct (th_pc t1) eqn:E; try reflexivity; exfalso;
    pose proof (mutex_unique _ _ _ (wf_mutex _ Hwf) H0 Hh 1 t1 H1 ltac:(rewrite E; reflexivity)); discriminate. }
  assert (Ws : waiting s = wait_of (y_names s) None (Some (th_pc t))). { rewrite waiting_eq, pc_nth, H0, Hkey. reflexivity. }
  assert (Key : forall x c' p' fs' q', c' = c -> s' = y_set_sched c (y_set_key x s) -> s_thr c' = put 0 (mkThr p' fs') (s_thr (y_sched s)) -> s_running c' = s_running (y_sched s) ->
      Forall (job_ok (y_names s)) (s_tasks c') -> flight_ok (y_names s) p' -> posts_app (y_names s) p' ->
      match x with None => True | Some (KTask k) => poster p' = true /\ fs' <> [] | _ => False end ->
      keys_of (y_names s) (s_tasks c') = q' ++ pending s -> wait_of (y_names s) x (Some p') ++ q' = waiting s ++ q ->
      match wait_of (y_names s) x (Some p') with [] => negb (s_running c') | _ => false end = stopped_of s ->
      wf s' /\ s_running c = s_running (y_sched s) /\ exists q', keys_of (y_names s') (s_tasks (y_sched s')) = q' ++ pending s' /\ abs s' q' = abs s q).
  { intros x c' p' fs' q' -> -> A1 A2 A3 A4 A5 A6 A7 A8 A9. destruct (main_to s t c fs' p' x q q' Hwf H0 Ho Hmx' A1 A2 A3 A4 A5 A6 A7 A8 A9) as (B1 & B2 & B3). split; [exact B1|]. split; [exact A2|]. exists q'. split; assumption. }
  assert (Ht : Forall (job_ok (y_names s)) (s_tasks (y_sched s))) by apply (wf_tasks _ Hwf).
  cbn [sched_step] in Hs. rewrite H0 in Hs. destruct t as [p fs]. unfold go in Hs. cbn [th_pc th_frames] in *. destruct T0 as (_ & T0 & _). cbn [th_pc] in T0.
  assert (Hs0 : s' = y_set_sched c (y_set_key (begins p s) s)). { unfold s'. destruct (begins p s); [reflexivity|]. rewrite key_id by exact Hkey. reflexivity. }
  unfold stopped_of in Key. rewrite Ws in Key.
  destruct p; try discriminate Hp; cases_go Hs; try discriminate Hs; injection Hs as Hc; cbn [begins] in Hs0; cbn [flight_ok wait_of] in *.
  all: cbn [holding] in Hpend.
  all: try (eapply (Key None _ _ _ q Hc Hs0); [reflexivity|cbn [set_thr set_mtx add_log ret s_running s_tasks]; rewrite ?Hrun, ?Htasks; try reflexivity..];
    first [exact Ht|exact Hq|exact T0|exact Logic.I]; fail).
  1,5: rewrite (Hpend eq_refl) in *; rewrite app_nil_r in Hq; inversion Ht as [|j0 js Hj Hjs]; subst j0 js; change (j :: l) with ([j] ++ l) in Hq; rewrite keys_app in Hq;
    refine (Key None _ _ _ (keys_of (y_names s) l) Hc Hs0 eq_refl Hrun Hjs Hj Logic.I Logic.I (eq_sym (app_nil_r _)) _ _); [rewrite <- Hq; reflexivity|];
    cbn [set_thr s_running]; rewrite Hrun; destruct (keys_of (y_names s) [j]); reflexivity.
  - destruct c0; (eapply (Key None _ _ _ q Hc Hs0); [reflexivity|reflexivity|exact Ht|exact Logic.I|exact Logic.I|exact Logic.I|exact Hq|reflexivity|reflexivity]).
  - assert (Hbeg : exists x, s' = y_set_sched c (y_set_key x s) /\ match x with None => keys_of (y_names s) [j] = [] | Some (KTask k) => keys_of (y_names s) [j] = [k] | _ => False end).
    { rewrite Hs0, Hcall. unfold keys_of. cbn [flat_map]. destruct (nth_error (y_names s) (j_id j)) as [[k|]|]; [exists (Some (KTask k))|exists None|exists None]; (split; [reflexivity|reflexivity]). }
    destruct Hbeg as (x & Hs1 & Hx). eapply (Key x _ _ _ q Hc Hs1); [reflexivity|reflexivity|exact Ht|exact Logic.I|exact Logic.I| |exact Hq| |];
      destruct x as [[]|]; cbv beta iota in Hx; try (destruct Hx; fail); rewrite ?Hx; try reflexivity; try exact Logic.I. split; [reflexivity|discriminate].
  - assert (Hnk : keys_of (y_names s) [j] = []).
    { unfold job_ok in T0. unfold keys_of. cbn [flat_map]. destruct (nth_error (y_names s) (j_id j)) as [[k|]|]; try reflexivity. congruence. }
    rewrite Hcall in Hs0. rewrite Hnk in Key. destruct c0; (eapply (Key None _ _ _ q Hc Hs0); [reflexivity|reflexivity|exact Ht|exact Logic.I|exact Logic.I|exact Logic.I|exact Hq|reflexivity|reflexivity]).
  - assert (Hbeg : exists x, s' = y_set_sched c (y_set_key x s) /\ match x with None => keys_of (y_names s) [j] = [] | Some (KTask k) => keys_of (y_names s) [j] = [k] | _ => False end).
    { rewrite Hs0, Hcall. unfold keys_of. cbn [flat_map]. destruct (nth_error (y_names s) (j_id j)) as [[k|]|]; [exists (Some (KTask k))|exists None|exists None]; (split; [reflexivity|reflexivity]). }
    destruct Hbeg as (x & Hs1 & Hx). eapply (Key x _ _ _ q Hc Hs1); [reflexivity|reflexivity|exact Ht|exact Logic.I|exact Logic.I| |exact Hq| |];
      destruct x as [[]|]; cbv beta iota in Hx; try (destruct Hx; fail); rewrite ?Hx; try reflexivity; try exact Logic.I. split; [reflexivity|discriminate].
  - assert (Hnk : keys_of (y_names s) [j] = []).
    { unfold job_ok in T0. unfold keys_of. cbn [flat_map]. destruct (nth_error (y_names s) (j_id j)) as [[k|]|]; try reflexivity. congruence. }
    rewrite Hcall in Hs0. rewrite Hnk in Key. eapply (Key None _ _ _ q Hc Hs0); [reflexivity|reflexivity|exact Ht|exact Logic.I|exact Logic.I|exact Logic.I|exact Hq|reflexivity|reflexivity].
Qed.

(** ** Thread 0 in the session *)
Lemma put_id {A} (l : list A) : forall i x, nth_error l i = Some x -> put i x l = l.
Proof. induction l as [|y l IH]; intros [|i] x H; try discriminate; cbn in *; [congruence|]. rewrite (IH _ _ H). reflexivity. Qed.
Lemma notify_stays sgn a k b ky : a <> WGo -> k_step sgn a k = Some b -> k_w k = WNotify ky -> k_w b = WNotify ky.
Proof.
  intros Ha Hs Hw. unfold k_step in Hs. destruct a as [| | | |c|t| | |md]; try congruence.
  - assert (Hm : m_step k = Some b) by (destruct (k_m k); try discriminate; exact Hs). unfold m_step, lock in Hm.
    destruct (k_m k); try discriminate; try (injection Hm as <-; k_proj; rewrite ?Hw; exact Hw || (rewrite Hw; reflexivity)); try (destruct (k_mtx k); try discriminate; injection Hm as <-; exact Hw).
    + injection Hm as <-. rewrite Hw. exact Hw.
    + destruct (k_reader k); injection Hm as <-; exact Hw.
    + rewrite Hw in Hm. discriminate.
  - rewrite Hw in Hs. destruct (k_m k); discriminate.
  - rewrite Hw in Hs. destruct (k_m k); discriminate.
  - destruct (k_m k); try discriminate; injection Hs as <-; exact Hw.
  - destruct (k_m k); try discriminate; injection Hs as <-; exact Hw.
  - destruct (k_m k); try discriminate; injection Hs as <-; exact Hw.
  - destruct (k_m k); try discriminate; destruct (k_ready k); try discriminate; injection Hs as <-; exact Hw.
  - destruct (k_m k); try discriminate; injection Hs as <-; exact Hw.
Qed.
Lemma notify_call sgn c k b ky : k_step sgn (MCall c) k = Some b -> k_w k = WNotify ky -> k_w b = WNotify ky.
Proof. intros H. exact (notify_stays sgn (MCall c) k b ky ltac:(discriminate) H). Qed.
Lemma session_to s s' t p' fs' : wf s -> nth_error (s_thr (y_sched s)) 0 = Some t ->
  y_names s' = y_names s -> mutex (y_sched s') -> s_thr (y_sched s') = put 0 (mkThr p' fs') (s_thr (y_sched s)) -> s_tasks (y_sched s') = s_tasks (y_sched s) ->
  (forall k, k_w (y_kbd s) = WNotify k -> k_w (y_kbd s') = WNotify k) ->
  p' = PUser \/ (p' = PExec0 ByRun /\ outside s' = true) -> (y_key s' <> None -> fs' <> []) -> life_ok s' ->
  wf s' /\ pending s' = pending s /\ waiting s' = match y_key s' with Some (KTask k) => [k] | _ => [] end.
Proof.
  intros [Hmx (t0 & H0 & T0) (t1 & H1 & T1) H2 Ht Hl] Hi Hn Hmx' Hth Htk Hkw Hp Hfs Hl'.
  assert (G1 : nth_error (s_thr (y_sched s')) 0 = Some (mkThr p' fs')) by (rewrite Hth; eapply put_same, Hi).
  assert (G2 : forall j, j <> 0 -> nth_error (s_thr (y_sched s')) j = nth_error (s_thr (y_sched s)) j) by (intros j Hne; rewrite Hth; apply put_other; congruence).
  split; [constructor|split].
  - exact Hmx'.
  - eexists. split; [exact G1|]. unfold thr0. cbn [th_pc th_frames]. destruct Hp as [->|(-> & Ho)]; repeat split; try exact Logic.I; try exact Hfs. intros E. congruence.
  - rewrite G2 by congruence. exists t1. split; [exact H1|]. rewrite Hn. destruct T1 as (F1 & T1). split; [exact F1|]. destruct (th_pc t1); try exact T1; destruct T1 as (k & Hk); exists k.
    + destruct Hk as (A & B). split; [apply Hkw, A|exact B].
    + destruct Hk as (A & B). split; [apply Hkw, A|exact B].
    + apply Hkw, Hk.
    + apply Hkw, Hk.
  - intros i ti Hx. rewrite G2 in Hx by congruence. rewrite Hn. exact (H2 _ _ Hx).
  - rewrite Hn, Htk. exact Ht.
  - exact Hl'.
  - rewrite !pending_eq, !pc_nth. rewrite G2 by congruence. rewrite H1. cbn [option_map]. destruct T1 as (_ & T1). destruct (th_pc t1); try reflexivity; destruct T1 as (k & Hk); cbn [pend_of]; rewrite Hk, (Hkw _ Hk); reflexivity.
  - rewrite waiting_eq, pc_nth, G1. cbn [option_map th_pc]. destruct Hp as [->|(-> & _)]; reflexivity.
Qed.

Section Sim.
Context (E : env) (sgn : bool) (fuel : nat) (tty : bool) (color : list event -> bool * bool).
Notation l_step := (l_step E sgn fuel tty color).
Notation l_run := (l_run E sgn fuel tty color).
Notation y_step := (y_step E sgn fuel tty color).
Notation y_run := (y_run E sgn fuel tty color).

(** The session's code and the keyboard change, the scheduler does not. *)
Lemma session_same s s' t : wf s -> nth_error (s_thr (y_sched s)) 0 = Some t -> th_pc t = PUser -> y_sched s' = y_sched s -> y_names s' = y_names s ->
  (forall k, k_w (y_kbd s) = WNotify k -> k_w (y_kbd s') = WNotify k) -> (y_key s' <> None -> y_key s <> None) -> life_ok s' ->
  wf s' /\ pending s' = pending s /\ waiting s' = match y_key s' with Some (KTask k) => [k] | _ => [] end.
Proof.
  intros Hwf Hi Hp Hc Hn Hkw Hk Hl'. destruct t as [p fs]. cbn [th_pc] in Hp. subst p. eapply (session_to s s' _ PUser fs Hwf Hi Hn); try assumption.
  - rewrite Hc. apply Hwf.
  - rewrite Hc, put_id by exact Hi. reflexivity.
  - rewrite Hc. reflexivity.
  - left. reflexivity.
  - intros Hx. destruct (wf_0 _ Hwf) as (t0 & H0 & T0). rewrite Hi in H0. injection H0 as <-. apply T0, Hk, Hx.
Qed.
Lemma task_ended s a p' fs t c : a = AReturn 0 \/ a = AThrow 0 -> nth_error (s_thr (y_sched s)) 0 = Some t -> sched_step a (y_sched s) = Some c ->
  p' = match a, th_frames t with AReturn _, FExec ByRun :: _ => PExec0 ByRun | _, _ => PUser end -> fs = tl (th_frames t) ->
  s_thr c = put 0 (mkThr p' fs) (s_thr (y_sched s)) /\ s_tasks c = s_tasks (y_sched s) /\ s_running c = s_running (y_sched s).
Proof.
  intros Ha Hi Hs -> ->. destruct t as [p fs]. destruct Ha as [->| ->]; cbn [sched_step] in Hs; rewrite Hi in Hs; cbn [th_pc th_frames] in *; destruct p; try discriminate; (destruct fs as [|f fs]; [discriminate|]); injection Hs as <-;
  (split; [|split; reflexivity]); cbn [tl]; [|reflexivity]. rewrite ret_thr. destruct f as [[]|]; reflexivity.
Qed.

(** What a step in the session's code is in LocalModel.v *)
Definition as_main (s s' : sys) (L : list lact) : Prop := (L = [] /\ y_key s = Some KEnd) \/ L = [LMain] \/ (L = [LMain; LStop] /\ s_running (y_sched s') = false).
Definition sim_step (s : sys) (q : list key) (s' : sys) : Prop :=
  wf s' /\ keys_of (y_names s') (s_tasks (y_sched s')) = q ++ pending s' /\ s_running (y_sched s') = s_running (y_sched s) /\
  exists L, l_run L (abs s q) = LcOk (abs s' q) /\ as_main s s' L.
Lemma run_one a s s' : l_step a s = LcOk s' -> l_run [a] s = LcOk s'.
Proof. intros H. cbn [LocalModel.l_run]. rewrite H. reflexivity. Qed.
Lemma run_two a b s s1 s' : l_step a s = LcOk s1 -> l_step b s1 = LcOk s' -> l_run [a; b] s = LcOk s'.
Proof. intros H H'. cbn [LocalModel.l_run]. rewrite H, H'. reflexivity. Qed.

Section Session.
Context (s : sys) (q : list key) (t : thread) (Hwf : wf s) (H0 : nth_error (s_thr (y_sched s)) 0 = Some t) (Hp : th_pc t = PUser)
  (Hq : keys_of (y_names s) (s_tasks (y_sched s)) = q ++ pending s).
Lemma wait_user : waiting s = match y_key s with Some (KTask k) => [k] | _ => [] end.
Proof. rewrite waiting_eq, pc_nth, H0. cbn [option_map]. rewrite Hp. reflexivity. Qed.
(** Only the keyboard changes. *)
Lemma kbd_moves a b : a <> WGo -> k_step sgn a (y_kbd s) = Some b ->
  wf (y_set_kbd b s) /\ keys_of (y_names (y_set_kbd b s)) (s_tasks (y_sched (y_set_kbd b s))) = q ++ pending (y_set_kbd b s) /\ abs (y_set_kbd b s) q = set_kbd b (abs s q).
Proof.
  intros Ha Hb. destruct (session_same s (y_set_kbd b s) t Hwf H0 Hp eq_refl eq_refl) as (A1 & A2 & A3).
  - intros k. exact (notify_stays _ _ _ _ _ Ha Hb).
  - intros H. exact H.
  - exact (wf_life _ Hwf).
  - split; [exact A1|]. split; [rewrite A2; exact Hq|]. reflexivity.
Qed.
(** Thread 0 is in the keyboard, or at [next]. *)
Lemma in_kbd_sim next nextl s' : y_in_kbd sgn s next = YOk s' -> l_main E sgn fuel tty color (abs s q) = in_kbd sgn (abs s q) nextl ->
  (k_m (y_kbd s) = MUser -> l_main E sgn fuel tty color (abs s q) = nextl -> next = YOk s' -> sim_step s q s') -> sim_step s q s'.
Proof.
  unfold y_in_kbd, in_kbd. cbn [abs lc_kbd]. intros Hs Hl Hn.
  assert (Hgo : forall b, k_step sgn MGo (y_kbd s) = Some b -> k_m (y_kbd s) <> MUser -> YOk (y_set_kbd b s) = YOk s' -> sim_step s q s').
  { intros b Hb Hm He. injection He as <-. destruct (kbd_moves MGo b ltac:(discriminate) Hb) as (A1 & A2 & A3). split; [exact A1|]. split; [exact A2|]. split; [reflexivity|].
    exists [LMain]. split; [|right; left; reflexivity]. apply run_one. cbn [LocalModel.l_step]. rewrite Hl, Hb, A3. destruct (k_m (y_kbd s)); try reflexivity. congruence. }
  destruct (k_m (y_kbd s)) eqn:Em; [exact (Hn eq_refl Hl Hs)|..]; (destruct (k_step sgn MGo (y_kbd s)) as [b|] eqn:Hb; [|discriminate]; apply (Hgo b eq_refl ltac:(discriminate) Hs)).
Qed.
(** The session and the keyboard change, the scheduler does not. *)
Lemma to_session s' a : y_sched s' = y_sched s -> y_names s' = y_names s -> (forall k, k_w (y_kbd s) = WNotify k -> k_w (y_kbd s') = WNotify k) ->
  (y_key s' <> None -> y_key s <> None) -> life_ok s' ->
  l_main E sgn fuel tty color (abs s q) = LcOk a ->
  a = mkLocal (y_kbd s') (match y_key s' with Some (KTask k) => [k] | _ => [] end ++ q) (stopped_of s) (main_of s') (y_proc s') (y_done s') (y_thrown s') ->
  (match y_key s' with Some (KTask _) => False | _ => True end) -> sim_step s q s'.
Proof.
  intros Hc Hn Hkw Hk Hl Hm Ha Hx. destruct (session_same s s' t Hwf H0 Hp Hc Hn Hkw Hk Hl) as (A1 & A2 & A3).
  assert (W : waiting s' = []) by (rewrite A3; destruct (y_key s') as [[]|]; try reflexivity; destruct Hx).
  split; [exact A1|]. split; [rewrite Hn, Hc, A2; exact Hq|]. split; [rewrite Hc; reflexivity|].
  assert (Ha' : a = mkLocal (y_kbd s') q (stopped_of s) (main_of s') (y_proc s') (y_done s') (y_thrown s')) by (rewrite Ha; destruct (y_key s') as [[]|]; try reflexivity; destruct Hx).
  unfold stopped_of in Ha'. assert (Hs' : stopped_of s' = negb (s_running (y_sched s))) by (unfold stopped_of; rewrite W, Hc; reflexivity).
  destruct (waiting s) as [|k0 l0] eqn:Ew.
  - exists [LMain]. split; [|right; left; reflexivity]. apply run_one. cbn [LocalModel.l_step]. rewrite Hm, Ha'. unfold abs. rewrite W, Hs'. reflexivity.
  - destruct (s_running (y_sched s)) eqn:Er.
    + exists [LMain]. split; [|right; left; reflexivity]. apply run_one. cbn [LocalModel.l_step]. rewrite Hm, Ha'. unfold abs. rewrite W, Hs'. reflexivity.
    + exists [LMain; LStop]. split; [|right; right; split; [reflexivity|rewrite Hc; exact Er]]. eapply run_two; [cbn [LocalModel.l_step]; exact Hm|]. cbn [LocalModel.l_step]. rewrite Ha'. unfold abs. rewrite W, Hs'. reflexivity.
Qed.
(** The task ends. *)
Lemma to_ended x s1 s' (L : list lact) : x = AReturn 0 \/ x = AThrow 0 -> y_sched s1 = y_sched s -> y_names s1 = y_names s -> y_kbd s1 = y_kbd s -> y_key s1 = None -> y_life s1 = SLive -> in_sched x s1 = YOk s' ->
  l_run L (abs s q) = LcOk (mkLocal (y_kbd s) q (negb (s_running (y_sched s))) LTask (y_proc s1) (y_done s1) (y_thrown s1)) ->
  ((L = [] /\ y_key s = Some KEnd) \/ L = [LMain] \/ (L = [LMain; LStop] /\ s_running (y_sched s) = false)) -> sim_step s q s'.
Proof.
  intros Hx Hc Hn Hb Hk Hl Hs Hr HL. apply in_sched_inv in Hs as (c & Hs & ->). rewrite Hc in Hs. pose proof (step_mutex _ _ _ (wf_mutex _ Hwf) Hs) as Hmx.
  destruct (task_ended s x _ _ t c Hx H0 Hs eq_refl eq_refl) as (T1 & T2 & T3).
  destruct (session_to s (y_set_sched c s1) t _ _ Hwf H0 Hn Hmx T1 T2) as (A1 & A2 & A3).
  - cbn [y_set_sched y_kbd]. rewrite Hb. auto.
  - destruct Hx as [->| ->]; [|left; reflexivity]. destruct (th_frames t) as [|[[]|] ?]; try (left; reflexivity). right. split; [reflexivity|]. unfold outside. cbn [y_set_sched y_life y_key]. rewrite Hk, Hl. reflexivity.
  - cbn [y_set_sched y_key]. rewrite Hk. congruence.
  - unfold life_ok. cbn [y_set_sched y_key y_life]. rewrite Hl. exact Logic.I.
  - split; [exact A1|]. split; [cbn [y_set_sched y_sched y_names]; rewrite Hn, T2, A2; exact Hq|]. split; [exact T3|]. exists L. split.
    + rewrite Hr. f_equal. cbn [y_set_sched y_key] in A3. rewrite Hk in A3. unfold abs, stopped_of, main_of. rewrite A3. cbn [y_set_sched y_sched y_names y_kbd y_proc y_done y_thrown y_key y_life]. rewrite Hb, Hl, Hk, T3. reflexivity.
    + unfold as_main. cbn [y_set_sched y_sched]. rewrite T3. exact HL.
Qed.
Lemma throw_sim x s1 s' a : y_sched s1 = y_sched s -> y_names s1 = y_names s -> y_kbd s1 = y_kbd s -> y_life s1 = SLive -> y_throw x s1 = YOk s' ->
  l_main E sgn fuel tty color (abs s q) = LcOk a ->
  a = mkLocal (y_kbd s) q (stopped_of s) LTask (y_proc s1) (y_done s1) (y_thrown s1 ++ [x]) -> sim_step s q s'.
Proof.
  intros Hc Hn Hb Hl Hs Hm Ha. unfold y_throw in Hs. unfold stopped_of in Ha.
  destruct (waiting s) as [|k0 l0] eqn:Ew; [|destruct (s_running (y_sched s)) eqn:Er].
  - refine (to_ended (AThrow 0) _ s' [LMain] (or_intror eq_refl) _ _ _ _ _ Hs _ _); try assumption; try reflexivity; [|right; left; reflexivity]. apply run_one. cbn [LocalModel.l_step]. rewrite Hm, Ha. reflexivity.
  - refine (to_ended (AThrow 0) _ s' [LMain] (or_intror eq_refl) _ _ _ _ _ Hs _ _); try assumption; try reflexivity; [|right; left; reflexivity]. apply run_one. cbn [LocalModel.l_step]. rewrite Hm, Ha, Er. reflexivity.
  - refine (to_ended (AThrow 0) _ s' [LMain; LStop] (or_intror eq_refl) _ _ _ _ _ Hs _ _); try assumption; try reflexivity; [|right; right; split; [reflexivity|exact Er]]. eapply run_two; [exact Hm|]. cbn [LocalModel.l_step]. rewrite Ha, Er. reflexivity.
Qed.

Lemma call_inv c s1 s' : y_call_kbd sgn c s1 = YOk s' -> exists b, k_step sgn (MCall c) (y_kbd s1) = Some b /\ s' = y_set_kbd b s1.
Proof. unfold y_call_kbd. destruct (k_step sgn (MCall c) (y_kbd s1)) as [b|]; [|discriminate]. intros H. injection H as <-. eauto. Qed.
Lemma session_sim s' : y_session E sgn fuel tty color s = YOk s' -> sim_step s q s'.
Proof.
  intros Hs. unfold y_session in Hs. pose proof (wf_life _ Hwf) as Hlo. unfold life_ok in Hlo. pose proof wait_user as Hw.
  destruct (y_life s) eqn:El.
  - (* constructor *)
    assert (Hk : y_key s = None) by (destruct (y_key s); [destruct Hlo|reflexivity]). rewrite Hk in *.
    assert (Em : main_of s = LCtor) by (unfold main_of; rewrite El; reflexivity).
    refine (in_kbd_sim _ _ s' Hs _ _); [unfold l_main; cbn [abs lc_main]; rewrite Em; reflexivity|]. intros Hu Hm Hn. cbn [abs lc_proc] in Hm.
    destruct (open_local _ _ _ _) as [p|x p| |]; try discriminate.
    + injection Hn as <-. refine (to_session _ _ _ _ _ _ _ Hm _ _); try reflexivity; cbn [y_set_life y_set_proc y_key y_kbd y_life]; auto.
      * unfold abs, set_main, set_proc, main_of. cbn [y_set_life y_set_proc y_key y_kbd y_life lc_kbd lc_queue lc_stopped lc_done lc_thrown y_proc y_done y_thrown]. rewrite Hw, Hk. reflexivity.
      * rewrite Hk. exact Logic.I.
    + apply call_inv in Hn as (b & Hb & ->). cbn [y_set_life y_add_thrown y_set_proc y_kbd] in Hb. unfold call_kbd in Hm. cbn [add_thrown set_proc abs lc_kbd] in Hm. rewrite Hb in Hm.
      refine (to_session _ _ _ _ _ _ _ Hm _ _); try reflexivity; cbn [y_set_kbd y_set_life y_add_thrown y_set_proc y_key y_kbd y_life]; auto.
      * intros ky. exact (notify_call _ _ _ _ ky Hb).
      * unfold life_ok. cbn [y_set_kbd y_set_life y_add_thrown y_set_proc y_key y_life]. rewrite Hk. exact Logic.I.
      * unfold abs, set_main, set_kbd, set_proc, add_thrown, main_of. cbn [y_set_kbd y_set_life y_add_thrown y_set_proc y_key y_kbd y_life lc_kbd lc_queue lc_stopped lc_done lc_thrown lc_proc y_proc y_done y_thrown]. rewrite Hw, Hk. reflexivity.
      * rewrite Hk. exact Logic.I.
  - destruct (y_key s) as [[k|k| |]|] eqn:Hk; try discriminate.
    + (* a key *)
      assert (Em : main_of s = LTask) by (unfold main_of; rewrite El, Hk; reflexivity).
      assert (Est : stopped_of s = false) by (unfold stopped_of; rewrite Hw; reflexivity).
      assert (Hl : l_main E sgn fuel tty color (abs s q) =
        if is_command tty color k (y_proc s) then call_kbd sgn Deactivate (LDeact k) (set_queue q (abs s q))
        else match l_press E fuel tty color k (y_proc s) with
             | POk p => LcOk (add_done k (set_proc p (set_queue q (abs s q))))
             | PExc x p => LcOk (add_thrown x (add_done k (set_proc p (set_queue q (abs s q)))))
             | PUB => LcUB
             | PFuel => LcFuel
             end) by (unfold l_main; cbn [abs lc_main lc_stopped lc_queue lc_proc]; rewrite Em, Est, Hw; reflexivity).
      destruct (is_command tty color k (y_proc s)).
      * apply call_inv in Hs as (b & Hb & ->). cbn [y_set_key y_kbd] in Hb. unfold call_kbd in Hl. cbn [set_queue abs lc_kbd] in Hl. rewrite Hb in Hl.
        refine (to_session _ _ _ _ _ _ _ Hl _ _); try reflexivity; cbn [y_set_kbd y_set_key y_key y_kbd y_life]; auto.
        -- intros ky. exact (notify_call _ _ _ _ ky Hb).
        -- congruence.
        -- unfold life_ok. cbn [y_set_kbd y_set_key y_key y_life]. rewrite El. exact Logic.I.
        -- unfold main_of. cbn [y_set_kbd y_set_key y_key y_life]. rewrite El. reflexivity.
      * destruct (l_press E fuel tty color k (y_proc s)) as [p|x p| |]; try discriminate.
        -- injection Hs as <-. refine (to_session _ _ _ _ _ _ _ Hl _ _); try reflexivity; cbn [y_set_key y_add_done y_set_proc y_key y_kbd y_life]; auto.
           ++ congruence.
           ++ unfold life_ok. cbn [y_set_key y_add_done y_set_proc y_key y_life]. rewrite El. exact Logic.I.
           ++ unfold add_done, set_proc, set_queue, abs. cbn [lc_kbd lc_queue lc_stopped lc_main lc_proc lc_done lc_thrown]. rewrite Em. unfold main_of. cbn [y_set_key y_add_done y_set_proc y_key y_kbd y_life]. rewrite El. reflexivity.
        -- refine (throw_sim x _ s' _ _ _ _ _ Hs Hl _); try reflexivity; [exact El|]. unfold add_thrown, add_done, set_proc, set_queue, abs. cbn [lc_kbd lc_queue lc_stopped lc_main lc_proc lc_done lc_thrown]. rewrite Em. reflexivity.
    + (* a line is run *)
      assert (Em : main_of s = LDeact k) by (unfold main_of; rewrite El, Hk; reflexivity).
      refine (in_kbd_sim _ _ s' Hs _ _); [unfold l_main; cbn [abs lc_main]; rewrite Em; reflexivity|]. intros Hu Hm Hn. cbn [abs lc_proc] in Hm.
      destruct (l_press E fuel tty color k (y_proc s)) as [p|x p| |]; try discriminate.
      * apply call_inv in Hn as (b & Hb & ->). cbn [y_set_key y_add_done y_set_proc y_kbd] in Hb. unfold call_kbd in Hm. cbn [add_done set_proc abs lc_kbd] in Hm. rewrite Hb in Hm.
        refine (to_session _ _ _ _ _ _ _ Hm _ _); try reflexivity; cbn [y_set_kbd y_set_key y_add_done y_set_proc y_key y_kbd y_life]; auto.
        -- intros ky. exact (notify_call _ _ _ _ ky Hb).
        -- congruence.
        -- unfold life_ok. cbn [y_set_kbd y_set_key y_add_done y_set_proc y_key y_life]. rewrite El. exact Logic.I.
        -- unfold set_main, set_kbd, add_done, set_proc, abs, main_of. cbn [y_set_kbd y_set_key y_add_done y_set_proc y_key y_kbd y_life lc_kbd lc_queue lc_stopped lc_done lc_thrown lc_proc y_proc y_done y_thrown]. rewrite Hw, El. reflexivity.
      * refine (throw_sim x _ s' _ _ _ _ _ Hn Hm _); try reflexivity; [exact El|]. unfold add_thrown, set_main, add_done, set_proc, abs. cbn [lc_kbd lc_queue lc_stopped lc_main lc_proc lc_done lc_thrown]. rewrite Hw. reflexivity.
    + assert (Em : main_of s = LAct) by (unfold main_of; rewrite El, Hk; reflexivity).
      refine (in_kbd_sim _ _ s' Hs _ _); [unfold l_main; cbn [abs lc_main]; rewrite Em; reflexivity|]. intros Hu Hm Hn. injection Hn as <-.
      refine (to_session _ _ _ _ _ _ _ Hm _ _); try reflexivity; cbn [y_set_key y_key y_kbd y_life]; auto.
      * congruence.
      * unfold life_ok. cbn [y_set_key y_key y_life]. rewrite El. exact Logic.I.
      * unfold set_main, abs, main_of. cbn [y_set_key y_key y_kbd y_life lc_kbd lc_queue lc_stopped lc_done lc_thrown lc_proc y_proc y_done y_thrown]. rewrite Hw, El. reflexivity.
    + (* the task returns *)
      refine (to_ended (AReturn 0) _ s' [] (or_introl eq_refl) _ _ _ _ _ Hs _ _); try reflexivity; [exact El| |left; split; [reflexivity|exact Hk]].
      cbn [LocalModel.l_run]. unfold abs, stopped_of, main_of. rewrite Hw, El, Hk. reflexivity.
  - (* destructor *)
    assert (Hk : y_key s = None) by (destruct (y_key s); [destruct Hlo|reflexivity]). rewrite Hk in *.
    assert (Em : main_of s = LDtor) by (unfold main_of; rewrite El; reflexivity).
    assert (Hl : l_main E sgn fuel tty color (abs s q) = match k_m (y_kbd s) with MGone => LcOk (set_main LOver (abs s q)) | _ => in_kbd sgn (abs s q) LcNone end) by (unfold l_main; cbn [abs lc_main lc_kbd]; rewrite Em; reflexivity).
    destruct (k_m (y_kbd s)) eqn:Ek; try (refine (in_kbd_sim _ _ s' Hs Hl _); intros _ _ Hn; discriminate).
    injection Hs as <-. refine (to_session _ _ _ _ _ _ _ Hl _ _); try reflexivity; cbn [y_set_life y_key y_kbd y_life]; auto.
    + unfold life_ok. cbn [y_set_life y_key y_life]. rewrite Hk. exact Logic.I.
    + unfold set_main, abs. cbn [y_set_life y_key y_kbd y_life lc_kbd lc_queue lc_stopped lc_done lc_thrown lc_proc y_proc y_done y_thrown]. rewrite Hw, Hk. reflexivity.
    + rewrite Hk. exact Logic.I.
  - destruct (y_key s) as [[k|k| |]|]; discriminate.
Qed.

(** What is undefined in the session's code is so in LocalModel.v. *)
Definition fails (r : yres) (x : locres) : Prop := match r, x with YGone, LcGone | YUB, LcUB | YFuel, LcFuel => True | _, _ => False end.
Lemma in_kbd_fails r next nextl : y_in_kbd sgn s next = r -> match r with YOk _ | YNone => False | _ => True end -> l_main E sgn fuel tty color (abs s q) = in_kbd sgn (abs s q) nextl ->
  (next = r -> fails r nextl) -> fails r (l_main E sgn fuel tty color (abs s q)).
Proof.
  unfold y_in_kbd, in_kbd. cbn [abs lc_kbd]. intros Hs Hr Hl Hn. destruct (k_m (y_kbd s)); try (destruct (k_step sgn MGo (y_kbd s)); subst r; destruct Hr; fail). rewrite Hl. exact (Hn Hs).
Qed.
Lemma call_fails c s1 r : y_call_kbd sgn c s1 = r -> match r with YOk _ | YNone => True | _ => False end.
Proof. unfold y_call_kbd. intros <-. destruct (k_step sgn (MCall c) (y_kbd s1)); exact Logic.I. Qed.
Lemma in_sched_fails a s1 r : in_sched a s1 = r -> match r with YOk _ | YNone => True | _ => False end.
Proof. unfold in_sched. intros <-. destruct (sched_step a (y_sched s1)); exact Logic.I. Qed.
Lemma session_fails r : y_session E sgn fuel tty color s = r -> match r with YOk _ | YNone => False | _ => True end -> fails r (l_main E sgn fuel tty color (abs s q)).
Proof.
  intros Hs Hr. unfold y_session in Hs. pose proof (wf_life _ Hwf) as Hlo. unfold life_ok in Hlo. pose proof wait_user as Hw.
  assert (Hc : forall c s1, y_call_kbd sgn c s1 = r -> False) by (intros c s1 H; apply call_fails in H; destruct r; auto).
  assert (Hi : forall a s1, in_sched a s1 = r -> False) by (intros a s1 H; apply in_sched_fails in H; destruct r; auto).
  destruct (y_life s) eqn:El.
  - assert (Em : main_of s = LCtor) by (unfold main_of; rewrite El; reflexivity).
    refine (in_kbd_fails r _ _ Hs Hr _ _); [unfold l_main; cbn [abs lc_main]; rewrite Em; reflexivity|]. cbn [abs lc_proc]. clear Hs.
    destruct (open_local _ _ _ _) as [p|x p| |]; intros H; try (destruct (Hc _ _ H); fail); subst r; try exact Logic.I; destruct Hr.
  - destruct (y_key s) as [[k|k| |]|] eqn:Hk.
    + assert (Em : main_of s = LTask) by (unfold main_of; rewrite El, Hk; reflexivity).
      assert (Est : stopped_of s = false) by (unfold stopped_of; rewrite Hw; reflexivity).
      unfold l_main. cbn [abs lc_main lc_stopped lc_queue lc_proc]. rewrite Em, Est, Hw. cbn [app].
      destruct (is_command tty color k (y_proc s)); [destruct (Hc _ _ Hs)|]. destruct (l_press E fuel tty color k (y_proc s)) as [p|x p| |]; try (destruct (Hi _ _ Hs); fail); subst r; try exact Logic.I; destruct Hr.
    + assert (Em : main_of s = LDeact k) by (unfold main_of; rewrite El, Hk; reflexivity).
      refine (in_kbd_fails r _ _ Hs Hr _ _); [unfold l_main; cbn [abs lc_main]; rewrite Em; reflexivity|]. cbn [abs lc_proc]. clear Hs.
      destruct (l_press E fuel tty color k (y_proc s)) as [p|x p| |]; intros H; try (destruct (Hc _ _ H); fail); try (destruct (Hi _ _ H); fail); subst r; try exact Logic.I; destruct Hr.
    + assert (Em : main_of s = LAct) by (unfold main_of; rewrite El, Hk; reflexivity).
      refine (in_kbd_fails r _ _ Hs Hr _ _); [unfold l_main; cbn [abs lc_main]; rewrite Em; reflexivity|]. clear Hs. intros H. subst r. destruct Hr.
    + destruct (Hi _ _ Hs).
    + subst r. destruct Hr.
  - exfalso. unfold y_in_kbd in Hs. destruct (k_m (y_kbd s)), (k_step sgn MGo (y_kbd s)); subst r; exact Hr.
  - destruct (y_key s) as [[k|k| |]|] eqn:Hk; subst r; try (destruct Hr; fail).
    assert (Em : main_of s = LOver) by (unfold main_of; rewrite El; reflexivity).
    assert (Est : stopped_of s = false) by (unfold stopped_of; rewrite Hw; reflexivity).
    unfold l_main. cbn [abs lc_main lc_stopped lc_queue lc_proc]. rewrite Em, Est, Hw. exact Logic.I.
Qed.
End Session.

(** ** The keyboard's environment, spurious wake-ups, tasks of the application *)
Lemma kbd_env s b : wf s -> (forall k, k_w (y_kbd s) = WNotify k -> k_w b = WNotify k) ->
  wf (y_set_kbd b s) /\ pending (y_set_kbd b s) = pending s.
Proof.
  intros [Hmx (t0 & H0 & T0) (t1 & H1 & (F1 & T1)) H2 Ht Hl] Hkw. split; [constructor|]; cbn [y_set_kbd y_sched y_names y_kbd].
  - exact Hmx.
  - exists t0. split; [exact H0|exact T0].
  - exists t1. split; [exact H1|]. split; [exact F1|]. destruct (th_pc t1); try exact T1; destruct T1 as (k & Hk); exists k.
    + destruct Hk as (A & B). split; [apply Hkw, A|exact B].
    + destruct Hk as (A & B). split; [apply Hkw, A|exact B].
    + apply Hkw, Hk.
    + apply Hkw, Hk.
  - exact H2.
  - exact Ht.
  - exact Hl.
  - rewrite !pending_eq, !pc_nth. cbn [y_set_kbd y_sched y_kbd]. rewrite H1. cbn [option_map]. destruct (th_pc t1); try reflexivity; destruct T1 as (k & Hk); cbn [pend_of]; rewrite Hk, (Hkw _ Hk); reflexivity.
Qed.
(** The keyboard's thread, not in [Notify] *)
Lemma worker_reads s b : wf s -> (forall k, k_w (y_kbd s) <> WNotify k) -> wf (y_set_kbd b s) /\ pending (y_set_kbd b s) = pending s.
Proof.
  intros [Hmx (t0 & H0 & T0) (t1 & H1 & (F1 & T1)) H2 Ht Hl] Hkw.
  assert (Hp : th_pc t1 = PUser). { destruct (th_pc t1); try reflexivity; try (destruct T1; fail); exfalso; destruct T1 as (k & Hk); try destruct Hk as (Hk & _); exact (Hkw k Hk). }
  split; [constructor|]; cbn [y_set_kbd y_sched y_names y_kbd].
  - exact Hmx.
  - exists t0. split; [exact H0|exact T0].
  - exists t1. split; [exact H1|]. split; [exact F1|]. rewrite Hp. exact Logic.I.
  - exact H2.
  - exact Ht.
  - exact Hl.
  - rewrite !pending_eq, !pc_nth. cbn [y_set_kbd y_sched y_kbd]. rewrite H1. cbn [option_map]. rewrite Hp. reflexivity.
Qed.
Lemma reads_nothing k b : k_step sgn WGo k = Some b -> (forall x, k_w k <> WNotify x) -> posted k b = [].
Proof.
  intros Hs Hn. unfold posted. assert (He : k_keys b = k_keys k); [|rewrite He, skipn_all; reflexivity].
  apply step_worker, w_step_cases in Hs. destruct Hs as [p Hw Hmt ->|Hw He|Hw He|Hw|Hw Hst|Hw Hst Hq|f c s1 Hf Hg|x Hw]; try reflexivity.
  - apply getchar_inv in Hg as (r & e & cs & -> & _). reflexivity.
  - destruct (Hn x Hw).
Qed.
Lemma spurious_step i s c : wf s -> sched_step (ASpurious i) (y_sched s) = Some c ->
  let s' := y_set_sched c s in wf s' /\ pending s' = pending s /\ waiting s' = waiting s /\ s_tasks c = s_tasks (y_sched s) /\ s_running c = s_running (y_sched s).
Proof.
  intros [Hmx (t0 & H0 & T0) (t1 & H1 & T1) H2 Ht Hl] Hs s'. pose proof (step_mutex _ _ _ Hmx Hs) as Hmx'. cbn [sched_step] in Hs.
  destruct (nth_error (s_thr (y_sched s)) i) as [t|] eqn:Hi; [|discriminate]. destruct (th_pc t) eqn:Ep; try discriminate. injection Hs as Hc.
  assert (Hz : i = 0).
  { destruct i as [|[|i]]; [reflexivity| |].
    - rewrite H1 in Hi. injection Hi as ->. destruct T1 as (_ & T1). rewrite Ep in T1. destruct T1.
    - destruct (H2 _ _ Hi) as (B & _). rewrite Ep in B. discriminate. }
  subst i. rewrite H0 in Hi. injection Hi as ->.
  assert (Hth : s_thr c = put 0 (wake t) (s_thr (y_sched s))) by (rewrite <- Hc; reflexivity).
  assert (G1 : nth_error (s_thr c) 0 = Some (wake t)) by (rewrite Hth; eapply put_same, H0).
  assert (G2 : forall j, j <> 0 -> nth_error (s_thr c) j = nth_error (s_thr (y_sched s)) j) by (intros j Hne; rewrite Hth; apply put_other; congruence).
  assert (Htk : s_tasks c = s_tasks (y_sched s)) by (rewrite <- Hc; reflexivity).
  assert (S0 : seen_as (Some t) (nth_error (s_thr c) 0)) by (right; exact G1).
  split; [constructor; cbn [s' y_set_sched y_sched y_names y_kbd]|split; [|split; [|split; [exact Htk|rewrite <- Hc; reflexivity]]]].
  - exact Hmx'.
  - destruct (seen_0 s t _ T0 S0) as (t' & -> & T'). exists t'. split; [reflexivity|exact T'].
  - rewrite G2 by congruence. eauto.
  - intros j tj Hj. rewrite G2 in Hj by congruence. exact (H2 _ _ Hj).
  - rewrite Htk. exact Ht.
  - exact Hl.
  - rewrite !pending_eq, !pc_nth. cbn [s' y_set_sched y_sched y_kbd]. rewrite G2 by congruence. reflexivity.
  - rewrite !waiting_eq, !pc_nth. cbn [s' y_set_sched y_sched y_names y_key]. apply seen_wait. rewrite H0. exact S0.
Qed.
Lemma app_ended s x c q : wf s -> outside s = true -> x = AReturn 0 \/ x = AThrow 0 -> sched_step x (y_sched s) = Some c -> keys_of (y_names s) (s_tasks (y_sched s)) = q ++ pending s ->
  let s' := y_set_sched c s in wf s' /\ keys_of (y_names s') (s_tasks (y_sched s')) = q ++ pending s' /\ abs s' q = abs s q /\ s_running c = s_running (y_sched s).
Proof.
  intros Hwf Ho Hx Hs Hq s'. pose proof (step_mutex _ _ _ (wf_mutex _ Hwf) Hs) as Hmx. destruct (wf_0 _ Hwf) as (t & H0 & T0).
  destruct (outside_key s Ho) as (Hk & _).
  assert (Hp : th_pc t = PUser). { destruct Hx as [->| ->]; cbn [sched_step] in Hs; rewrite H0 in Hs; destruct (th_pc t); try discriminate; reflexivity. }
  destruct (task_ended s x _ _ t c Hx H0 Hs eq_refl eq_refl) as (T1 & T2 & T3).
  destruct (session_to s s' t _ _ Hwf H0 eq_refl Hmx T1 T2) as (A1 & A2 & A3).
  - auto.
  - destruct Hx as [->| ->]; [|left; reflexivity]. destruct (th_frames t) as [|[[]|] ?]; try (left; reflexivity). right. split; [reflexivity|exact Ho].
  - cbn [s' y_set_sched y_key]. rewrite Hk. congruence.
  - exact (wf_life _ Hwf).
  - split; [exact A1|]. split; [cbn [s' y_set_sched y_sched y_names]; rewrite T2, A2; exact Hq|]. split; [|exact T3].
    assert (W : waiting s' = waiting s). { rewrite A3, (wait_user s t H0 Hp). reflexivity. }
    unfold abs, stopped_of. rewrite W. cbn [s' y_set_sched y_sched y_names y_kbd y_proc y_done y_thrown y_key y_life]. rewrite T3. reflexivity.
Qed.

(** ** What was taken from the queue *)
Definition rest (s : sys) : list key := y_done s ++ running_key s ++ waiting s.
Definition lrest (a : local) : list key := lc_done a ++ taken a ++ lc_queue a.
Lemma taken_abs s q : wf s -> taken (abs s q) = running_key s.
Proof.
  intros Hwf. pose proof (wf_life _ Hwf) as Hl. unfold taken, running_key. change (lc_main (abs s q)) with (main_of s). unfold main_of, life_ok in *. destruct (y_life s), (y_key s) as [[]|]; try reflexivity; destruct Hl.
Qed.
Lemma rest_abs s q : wf s -> lrest (abs s q) = rest s ++ q.
Proof. intros Hwf. unfold lrest, rest. rewrite (taken_abs s q Hwf). cbn [abs lc_done lc_queue]. rewrite <- !app_assoc. reflexivity. Qed.
Lemma rest_same s s' q : wf s -> wf s' -> lrest (abs s' q) = lrest (abs s q) -> rest s' = rest s.
Proof. intros H1 H2 H. rewrite !rest_abs in H by assumption. exact (app_inv_tail _ _ _ H). Qed.
Lemma lrest_main a a' : l_step LMain a = LcOk a' -> lrest a' = lrest a.
Proof.
  cbn [LocalModel.l_step]. unfold l_main. intros Hs.
  assert (Hin : forall next, (next = LcOk a' -> lrest a' = lrest a) -> in_kbd sgn a next = LcOk a' -> lrest a' = lrest a).
  { unfold in_kbd. intros next Hn Hi. destruct (k_m (lc_kbd a)); auto; destruct (k_step sgn MGo (lc_kbd a)); try discriminate; injection Hi as <-; reflexivity. }
  assert (Hca : forall c p b, call_kbd sgn c p b = LcOk a' -> lrest a' = lc_done b ++ match p with LDeact k => [k] | _ => [] end ++ lc_queue b).
  { unfold call_kbd. intros c p b Hc. destruct (k_step sgn (MCall c) (lc_kbd b)); [|discriminate]. injection Hc as <-. reflexivity. }
  unfold lrest in *. unfold taken in *. destruct (lc_main a) as [| |k| | |] eqn:Em.
  - apply (Hin _) in Hs; [exact Hs|]. intros H. destruct (open_local _ _ _ _) as [p|x p| |]; try discriminate; [injection H as <-; reflexivity|]. rewrite (Hca _ _ _ H). reflexivity.
  - destruct (lc_stopped a); [discriminate|]. destruct (lc_queue a) as [|k l] eqn:Eq; [discriminate|]. destruct (is_command tty color k (lc_proc a)); [rewrite (Hca _ _ _ Hs); reflexivity|].
    destruct (l_press E fuel tty color k (lc_proc a)) as [p|x p| |]; try discriminate; injection Hs as <-; cbn [add_thrown add_done set_proc set_queue lc_done lc_main lc_queue]; rewrite Em, <- app_assoc; reflexivity.
  - apply (Hin _) in Hs; [exact Hs|]. intros H. destruct (l_press E fuel tty color k (lc_proc a)) as [p|x p| |]; try discriminate; [rewrite (Hca _ _ _ H)|injection H as <-]; cbn [add_thrown add_done set_main set_proc lc_done lc_main lc_queue]; rewrite <- app_assoc; reflexivity.
  - apply (Hin _) in Hs; [exact Hs|]. intros H. injection H as <-. reflexivity.
  - destruct (k_m (lc_kbd a)) eqn:Ek; try (apply (Hin _) in Hs; [exact Hs|intros H; discriminate]). injection Hs as <-. reflexivity.
  - destruct (lc_stopped a); [discriminate|]. destruct (lc_queue a); discriminate.
Qed.
Lemma run_main L s s' a a' : as_main s s' L -> l_run L a = LcOk a' -> lrest a' = lrest a.
Proof.
  intros [(-> & _)|[->|(-> & _)]]; cbn [LocalModel.l_run]; intros H.
  - injection H as <-. reflexivity.
  - destruct (l_step LMain a) as [b| | | |] eqn:Hb; try discriminate. injection H as <-. exact (lrest_main _ _ Hb).
  - destruct (l_step LMain a) as [b| | | |] eqn:Hb; try discriminate. cbn [LocalModel.l_step] in H. injection H as <-. exact (lrest_main _ _ Hb).
Qed.
Lemma exec_stopped c c' t : nth_error (s_thr c) 0 = Some t -> poster (th_pc t) = false -> sched_step (AGo 0) c = Some c' -> s_running c = false ->
  s_tasks c' = s_tasks c /\ nth_error (s_thr c') 1 = nth_error (s_thr c) 1.
Proof.
  intros Hi Hp Hs Hr. cbn [sched_step] in Hs. rewrite Hi in Hs. destruct t as [p fs]. unfold go in Hs. cbn [th_pc th_frames] in *. rewrite ?Hr in Hs.
  destruct p; try discriminate; cases_go Hs; try discriminate; injection Hs as <-; (split; [try reflexivity; cbn; try assumption; destruct (FExec _); reflexivity|]);
  cbn [set_thr set_mtx add_log s_thr]; rewrite ?ret_thr; cbn [set_mtx add_log s_thr]; apply put_other; discriminate.
Qed.

(** ** Simulation *)
Definition acts_ok (a : yact) (L : list lact) (s' : sys) : Prop :=
  ltyped L = match a with YKbd (Type_ t) => t | _ => [] end /\ (In LStop L -> s_running (y_sched s') = false) /\ (In LDestroy L -> a = YDestroy) /\
  (forall x, In (LKbd x) L -> a = YKbd x \/ x = WGo).
Definition simulated (a : yact) (s s' : sys) (q : list key) : Prop :=
  wf s' /\ (s_running (y_sched s) = false -> s_running (y_sched s') = false /\ rest s' = rest s) /\
  exists L q', l_run L (abs s q) = LcOk (abs s' q') /\ keys_of (y_names s') (s_tasks (y_sched s')) = q' ++ pending s' /\ acts_ok a L s'.
Lemma acts_none a s' : match a with YKbd _ => False | _ => True end -> acts_ok a [] s'.
Proof. intros Ha. repeat split; try (intros []; fail); try (intros x []; fail). destruct a; try reflexivity; destruct Ha. Qed.
Lemma acts_main s s' L : as_main s s' L -> acts_ok YMain L s'.
Proof.
  intros [(-> & _)|[->|(-> & Hr)]]; repeat split; cbn; intuition (try discriminate; auto).
Qed.
Lemma acts_kbd a x s' : a = YKbd x \/ (a = YWorker /\ x = WGo) -> acts_ok a [LKbd x] s'.
Proof.
  intros H. split; [|split; [|split]].
  - destruct H as [->|(-> & ->)]; [|reflexivity]. cbn. destruct x; try reflexivity. apply app_nil_r.
  - intros [Hx|[]]. discriminate.
  - intros [Hx|[]]. discriminate.
  - intros y [Hy|[]]. injection Hy as <-. destruct H as [->|(-> & ->)]; [left|right]; reflexivity.
Qed.
Lemma acts_stop a s' : match a with YKbd _ => False | _ => True end -> s_running (y_sched s') = false -> acts_ok a [LStop] s'.
Proof.
  intros Ha H. split; [|split; [|split]].
  - destruct a; try reflexivity. destruct Ha.
  - intros _. exact H.
  - intros [Hx|[]]. discriminate.
  - intros y [Hy|[]]. discriminate.
Qed.
Lemma acts_destroy s' : acts_ok YDestroy [LDestroy] s'.
Proof.
  split; [|split; [|split]].
  - reflexivity.
  - intros [Hx|[]]. discriminate.
  - reflexivity.
  - intros y [Hy|[]]. discriminate.
Qed.
Lemma same_abs a s s' q : match a with YKbd _ => False | _ => True end -> wf s -> wf s' -> s_running (y_sched s') = s_running (y_sched s) -> keys_of (y_names s') (s_tasks (y_sched s')) = q ++ pending s' -> abs s' q = abs s q -> simulated a s s' q.
Proof. intros Ha Hwf Hwf' Hr Hk He. split; [exact Hwf'|]. split; [intros H; split; [congruence|apply (rest_same s s' q Hwf Hwf'); rewrite He; reflexivity]|]. exists [], q. split; [cbn [LocalModel.l_run]; rewrite He; reflexivity|]. split; [exact Hk|apply acts_none, Ha]. Qed.

Lemma y_sim a s s' q : wf s -> keys_of (y_names s) (s_tasks (y_sched s)) = q ++ pending s -> y_step a s = YOk s' -> simulated a s s' q.
Proof.
  intros Hwf Hq Hs. destruct (wf_0 _ Hwf) as (t0 & H0 & T0). destruct (wf_1 _ Hwf) as (t1 & H1 & T1).
  destruct a as [| |x|i|i|i c| | |]; cbn [SystemModel.y_step] in Hs.
  - (* thread 0 *)
    unfold y_main in Hs. rewrite pc_nth, H0 in Hs. cbn [option_map] in Hs.
    assert (Hgo : th_pc t0 <> PUser -> in_sched (AGo 0) match begins (th_pc t0) s with Some x => y_set_key (Some x) s | None => s end = YOk s').
    { intros Hu. destruct (th_pc t0); try exact Hs. congruence. }
    destruct (poster (th_pc t0)) eqn:Ep.
    + assert (Hd : th_pc t0 = PUser \/ th_pc t0 <> PUser) by (destruct (th_pc t0); [left; reflexivity|right; discriminate..]).
      destruct Hd as [Hu|Hu].
      * rewrite Hu in Hs. destruct (session_sim s q t0 Hwf H0 Hu Hq s' Hs) as (A1 & A2 & A3 & L & A4 & A5). split; [exact A1|]. split; [intros H; split; [congruence|exact (rest_same s s' q Hwf A1 (run_main _ _ _ _ _ A5 A4))]|]. exists L, q. split; [exact A4|]. split; [exact A2|exact (acts_main _ _ _ A5)].
      * specialize (Hgo Hu). assert (Hb : begins (th_pc t0) s = None) by (destruct (th_pc t0); try reflexivity; discriminate). rewrite Hb in Hgo. apply in_sched_inv in Hgo as (c & Hc & ->).
        destruct (poster_step 0 s c t0 q Hwf ltac:(discriminate) H0 Ep Hc Hq) as (A1 & A2 & A3). split; [exact A1|]. destruct A3 as [A3|(A3 & A4)].
        -- split.
           ++ destruct (go_poster 0 _ t0 c H0 Ep Hc) as (_ & _ & _ & G4). cbn [y_set_sched y_sched]. rewrite G4. intros H. split; [rewrite H; reflexivity|]. apply (rest_same s _ q Hwf A1). rewrite A3. reflexivity.
           ++ exists [], q. split; [cbn [LocalModel.l_run]; rewrite A3; reflexivity|]. split; [exact A2|apply acts_none; exact Logic.I].
        -- split; [intros _; split; [exact A4|apply (rest_same s _ q Hwf A1); rewrite A3; reflexivity]|]. exists [LStop], q. split; [cbn [LocalModel.l_run LocalModel.l_step]; rewrite A3; reflexivity|]. split; [exact A2|].
           apply acts_stop; [exact Logic.I|exact A4].
    + assert (Hu : th_pc t0 <> PUser) by (intros Hu; rewrite Hu in Ep; discriminate). specialize (Hgo Hu). apply in_sched_inv in Hgo as (c & Hc & ->).
      assert (Hc' : sched_step (AGo 0) (y_sched s) = Some c) by (destruct (begins (th_pc t0) s); exact Hc).
      destruct (exec_step s t0 c q Hwf H0 Ep Hc' Hq) as (A1 & A2 & q' & A3 & A4). split; [exact A1|]. split.
      { intros H. cbn [y_set_sched y_sched]. split; [congruence|]. destruct (exec_stopped _ _ t0 H0 Ep Hc' H) as (B1 & B2). apply (rest_same s _ q Hwf A1). assert (Eq : q' = q); [|rewrite <- Eq at 1; rewrite A4; reflexivity].
        set (s1 := match begins (th_pc t0) s with Some x => y_set_key (Some x) s | None => s end) in *.
        assert (P : pending (y_set_sched c s1) = pending s) by (rewrite !pending_eq, !pc_nth; cbn [y_set_sched y_sched y_kbd]; rewrite B2; unfold s1; destruct (begins (th_pc t0) s); reflexivity).
        rewrite P in A3. cbn [y_set_sched y_sched y_names] in A3. rewrite B1 in A3. assert (N : y_names s1 = y_names s) by (unfold s1; destruct (begins (th_pc t0) s); reflexivity). rewrite N, Hq in A3. exact (eq_sym (app_inv_tail _ _ _ A3)). }
      exists [], q'. split; [cbn [LocalModel.l_run]; rewrite <- A4; reflexivity|]. split; [exact A3|apply acts_none; exact Logic.I].
  - (* the keyboard's thread *)
    unfold y_worker in Hs. rewrite pc_nth, H1 in Hs. cbn [option_map] in Hs.
    assert (Hread : (forall k, k_w (y_kbd s) <> WNotify k) -> match k_step sgn WGo (y_kbd s) with Some b => YOk (y_set_kbd b s) | None => YNone end = YOk s' -> simulated YWorker s s' q).
    { intros Hn Hr. destruct (k_step sgn WGo (y_kbd s)) as [b|] eqn:Hb; [|discriminate]. injection Hr as <-. destruct (worker_reads s b Hwf Hn) as (A1 & A2). split; [exact A1|]. split; [auto|].
      exists [LKbd WGo], q. split; [|split; [rewrite A2; exact Hq|]].
      - apply run_one. cbn [LocalModel.l_step abs lc_kbd]. rewrite Hb, (reads_nothing _ _ Hb Hn), app_nil_r. reflexivity.
      - apply acts_kbd. right. split; reflexivity. }
    destruct (k_w (y_kbd s)) eqn:Ew; try (apply (Hread ltac:(intros k0; discriminate) Hs)).
    assert (Hd : th_pc t1 = PUser \/ th_pc t1 = PPost3 \/ (th_pc t1 <> PUser /\ th_pc t1 <> PPost3)) by (destruct (th_pc t1); auto; right; right; split; discriminate).
    destruct Hd as [Hu|[Hu|(Hu & Hu')]].
    + rewrite Hu in Hs. apply in_sched_inv in Hs as (c & Hc & ->). destruct (worker_call s k c q Hwf Ew Hc Hq) as (A1 & A2 & A3 & A4). apply same_abs; auto.
    + rewrite Hu in Hs. destruct (k_step sgn WGo (y_kbd s)) as [b|] eqn:Hb; [|discriminate]. apply in_sched_inv in Hs as (c & Hc & ->).
      destruct (worker_posted sgn s c t1 k b q Hwf H1 Hu Ew Hb Hc Hq) as (A1 & A2 & A3 & A4 & A5). split; [exact A1|]. split.
      { intros H. cbn [y_set_sched y_sched]. split; [congruence|]. pose proof (f_equal lrest A4) as B. rewrite rest_abs in B by exact A1. unfold lrest in B at 1. apply (app_inv_tail (q ++ [k])). rewrite B. unfold taken, rest. change (lc_main _) with (main_of s). change (match main_of s with LDeact x => [x] | _ => [] end) with (taken (abs s q)). rewrite (taken_abs s q Hwf). cbn. rewrite <- !app_assoc. reflexivity. }
      exists [LKbd WGo], (q ++ [k]). split; [|split; [exact A2|]].
      * apply run_one. cbn [LocalModel.l_step]. change (lc_kbd (abs s q)) with (y_kbd s). rewrite Hb, A3, A4. f_equal. change (lc_queue (abs s q)) with (waiting s ++ q). rewrite app_assoc. reflexivity.
      * apply acts_kbd. right. split; reflexivity.
    + assert (Hg : in_sched (AGo 1) s = YOk s') by (destruct (th_pc t1); try exact Hs; congruence). apply in_sched_inv in Hg as (c & Hc & ->).
      destruct (worker_post s c t1 k q Hwf H1 Hu' Ew Hc Hq) as (A1 & A2 & A3 & A4). apply same_abs; auto.
  - (* the keyboard's environment *)
    assert (Hx : x <> WGo /\ exists b, k_step sgn x (y_kbd s) = Some b /\ s' = y_set_kbd b s /\ match x with WGo | MGo | MCall _ => False | _ => True end).
    { destruct x; try discriminate; (split; [discriminate|]); (destruct (k_step sgn _ (y_kbd s)) as [b|]; [|discriminate]); injection Hs as <-; exists b; repeat split. }
    destruct Hx as (Hx & b & Hb & -> & Hm). destruct (kbd_env s b Hwf (fun k => notify_stays sgn x _ _ k Hx Hb)) as (A1 & A2). split; [exact A1|]. split; [auto|].
    exists [LKbd x], q. split; [|split; [rewrite A2; exact Hq|]].
    + apply run_one. cbn [LocalModel.l_step]. change (lc_kbd (abs s q)) with (y_kbd s). rewrite Hb. destruct (k_step_keys _ _ _ _ Hb) as (ks & K1 & K2 & _). rewrite (K2 Hx), app_nil_r in K1.
      assert (Hpo : posted (y_kbd s) b = []) by (unfold posted; rewrite K1, skipn_all; reflexivity). rewrite Hpo, app_nil_r. destruct x; try (destruct Hm; fail); reflexivity.
    + apply acts_kbd. left. reflexivity.
  - destruct i as [|[|i]]; try discriminate. apply in_sched_inv in Hs as (c & Hc & ->).
    destruct (nth_error (s_thr (y_sched s)) (S (S i))) as [t|] eqn:Hi; [|cbn [sched_step] in Hc; rewrite Hi in Hc; discriminate]. destruct (wf_2 _ Hwf i t Hi) as (Ep & _).
    destruct (poster_step (S (S i)) s c t q Hwf ltac:(discriminate) Hi Ep Hc Hq) as (A1 & A2 & A3). split; [exact A1|]. destruct A3 as [A3|(A3 & A4)].
    + split.
      * destruct (go_poster _ _ t c Hi Ep Hc) as (_ & _ & _ & G4). cbn [y_set_sched y_sched]. rewrite G4. intros H. split; [rewrite H; reflexivity|]. apply (rest_same s _ q Hwf A1). rewrite A3. reflexivity.
      * exists [], q. split; [cbn [LocalModel.l_run]; rewrite A3; reflexivity|]. split; [exact A2|apply acts_none; exact Logic.I].
    + split; [intros _; split; [exact A4|apply (rest_same s _ q Hwf A1); rewrite A3; reflexivity]|]. exists [LStop], q. split; [cbn [LocalModel.l_run LocalModel.l_step]; rewrite A3; reflexivity|]. split; [exact A2|].
      apply acts_stop; [exact Logic.I|exact A4].
  - apply in_sched_inv in Hs as (c & Hc & ->). destruct (spurious_step i s c Hwf Hc) as (A1 & A2 & A3 & A4 & A5). apply same_abs; auto; [cbn [y_set_sched y_sched y_names]; rewrite A2, A4; exact Hq|].
    unfold abs, stopped_of. rewrite A3. cbn [y_set_sched y_sched y_names y_kbd y_proc y_done y_thrown y_key y_life]. rewrite A5. reflexivity.
  - assert (Hc : i <> 1 /\ executes c && negb (Nat.eqb i 0) = false /\ y_call i c s = YOk s').
    { destruct i as [|[|i]]; [split; [discriminate|]|discriminate|split; [discriminate|]]; (destruct (executes c && negb _) eqn:Ex; [discriminate|]); auto. }
    destruct Hc as (Hi & He & Hc).
    assert (Hcall : forall k b, is_exec k = executes c -> (executes c = true -> outside s = true) -> (forall j, k = CPost j -> nth_error (y_names s) (j_id j) = Some TApp) -> b = s -> in_sched (ACall i k) b = YOk s' -> simulated (YCall i c) s s' q).
    { intros k b Hk Ho Hp -> H. apply in_sched_inv in H as (d & Hd & ->). destruct (call_step i k s d q Hwf Hi) as (A1 & A2 & A3 & A4); auto.
      - rewrite Hk. intros Hx. split; [|apply Ho, Hx]. rewrite Hx in He. cbn [andb] in He. destruct (Nat.eqb_spec i 0); [assumption|discriminate].
      - apply same_abs; auto. }
    destruct c as [b| | | | |]; cbn [y_call] in Hc.
    + apply in_sched_inv in Hc as (d & Hd & ->). destruct (name_more s TApp q Hwf Hq) as (B1 & B2 & B3).
      destruct (call_step i (CPost (mkJob (length (y_names s)) b)) (y_add_name TApp s) d q B1 Hi) as (A1 & A2 & A3 & A4); auto.
      * discriminate.
      * intros j Hj. injection Hj as <-. cbn [y_add_name y_names j_id]. apply nth_last.
      * apply same_abs; auto; congruence.
    + refine (Hcall CStop s _ _ _ eq_refl Hc); try reflexivity; discriminate.
    + refine (Hcall CStopped s _ _ _ eq_refl Hc); try reflexivity; discriminate.
    + destruct (outside s); [|discriminate]. refine (Hcall CExec s _ _ _ eq_refl Hc); try reflexivity; discriminate.
    + destruct (outside s); [|discriminate]. refine (Hcall CRun s _ _ _ eq_refl Hc); try reflexivity; discriminate.
    + destruct (outside s); [|discriminate]. refine (Hcall CPoll s _ _ _ eq_refl Hc); try reflexivity; discriminate.
  - destruct (outside s) eqn:Ho; [|discriminate]. apply in_sched_inv in Hs as (c & Hc & ->). destruct (app_ended s (AReturn 0) c q Hwf Ho (or_introl eq_refl) Hc Hq) as (A1 & A2 & A3 & A4). apply same_abs; auto.
  - destruct (outside s) eqn:Ho; [|discriminate]. apply in_sched_inv in Hs as (c & Hc & ->). destruct (app_ended s (AThrow 0) c q Hwf Ho (or_intror eq_refl) Hc Hq) as (A1 & A2 & A3 & A4). apply same_abs; auto.
  - (* the session is destroyed *)
    destruct (y_life s) eqn:El; try discriminate. destruct (y_key s) eqn:Ek; try discriminate. rewrite pc_nth, H0 in Hs. cbn [option_map] in Hs.
    destruct (th_pc t0) eqn:Ep; try discriminate. apply call_inv in Hs as (b & Hb & ->). cbn [y_set_life y_kbd] in Hb.
    pose proof (wait_user s t0 H0 Ep) as Hw. rewrite Ek in Hw.
    destruct (session_same s (y_set_kbd b (y_set_life SDtor s)) t0 Hwf H0 Ep eq_refl eq_refl) as (A1 & A2 & A3).
    + intros k. exact (notify_call _ _ _ _ k Hb).
    + auto.
    + unfold life_ok. cbn [y_set_kbd y_set_life y_key y_life]. rewrite Ek. exact Logic.I.
    + split; [exact A1|]. split; [auto|]. exists [LDestroy], q. split; [|split; [rewrite A2; exact Hq|]].
      * apply run_one. cbn [LocalModel.l_step]. change (lc_main (abs s q)) with (main_of s). assert (Em : main_of s = LTask) by (unfold main_of; rewrite El, Ek; reflexivity). rewrite Em. unfold call_kbd. change (lc_kbd (abs s q)) with (y_kbd s). rewrite Hb. reflexivity.
      * apply acts_destroy.
Qed.
Lemma y_fails a s q r : wf s -> keys_of (y_names s) (s_tasks (y_sched s)) = q ++ pending s -> y_step a s = r -> match r with YOk _ | YNone => False | _ => True end -> a = YMain /\ fails r (l_step LMain (abs s q)).
Proof.
  intros Hwf Hq Hs Hr. destruct (wf_0 _ Hwf) as (t0 & H0 & T0).
  assert (Hc : forall c s1, y_call_kbd sgn c s1 = r -> False) by (intros c s1 H; apply call_fails in H; destruct r; auto).
  assert (Hi : forall a s1, in_sched a s1 = r -> False) by (intros a' s1 H; apply in_sched_fails in H; destruct r; auto).
  assert (Hb : forall x, match k_step sgn x (y_kbd s) with Some b => YOk (y_set_kbd b s) | None => YNone end = r -> False) by (intros x H; destruct (k_step sgn x (y_kbd s)); rewrite <- H in Hr; exact Hr).
  assert (Hn : YNone = r -> False) by (intros H; rewrite <- H in Hr; exact Hr).
  destruct a as [| |x|i|i|i c| | |]; cbn [SystemModel.y_step] in Hs; try (destruct (Hi _ _ Hs); fail).
  - split; [reflexivity|]. unfold y_main in Hs. rewrite pc_nth, H0 in Hs. cbn [option_map] in Hs.
    destruct (th_pc t0) eqn:Ep; try (destruct (Hi _ _ Hs); fail). exact (session_fails s q t0 Hwf H0 Ep r Hs Hr).
  - exfalso. unfold y_worker in Hs. destruct (k_w (y_kbd s)); try (destruct (Hb _ Hs); fail). destruct (pc_of 1 s) as [[]|]; try (destruct (Hi _ _ Hs); fail); [|destruct (Hb _ Hs)].
    destruct (k_step sgn WGo (y_kbd s)) as [b|]; [destruct (Hi _ _ Hs)|destruct (Hn Hs)].
  - exfalso. destruct x; try (destruct (Hn Hs); fail); exact (Hb _ Hs).
  - exfalso. destruct i as [|[|i]]; [exact (Hn Hs)|exact (Hn Hs)|exact (Hi _ _ Hs)].
  - exfalso. assert (Hy : y_call i c s = r -> False).
    { destruct c; cbn [y_call]; try (intros H; exact (Hi _ _ H)); (destruct (outside s); [intros H; exact (Hi _ _ H)|exact Hn]). }
    destruct i as [|[|i]]; [|exact (Hn Hs)|]; (destruct (executes c && negb _); [exact (Hn Hs)|exact (Hy Hs)]).
  - exfalso. destruct (outside s); [exact (Hi _ _ Hs)|exact (Hn Hs)].
  - exfalso. destruct (outside s); [exact (Hi _ _ Hs)|exact (Hn Hs)].
  - exfalso. destruct (y_life s), (y_key s), (pc_of 0 s) as [[]|]; try exact (Hn Hs); exact (Hc _ _ Hs).
Qed.

(** ** The library comes to rest *)
Lemma go_seen i j c c' : sched_step (AGo i) c = Some c' -> j <> i -> seen_as (nth_error (s_thr c) j) (nth_error (s_thr c') j).
Proof.
  intros Hs Hj. cbn [sched_step] in Hs. destruct (nth_error (s_thr c) i) as [t|] eqn:Hi; [|discriminate]. destruct t as [p fs]. unfold go in Hs. cbn [th_pc th_frames] in *.
  destruct p; try discriminate; cases_go Hs; try discriminate; injection Hs as <-; cbn [set_thr set_mtx add_log notify_all push stop_running s_thr]; rewrite ?ret_thr; cbn [set_mtx add_log notify_all push stop_running s_thr];
  rewrite put_other by congruence; try (left; reflexivity); rewrite nth_error_map; right; reflexivity.
Qed.
Lemma step_length a c c' : sched_step a c = Some c' -> length (s_thr c') = length (s_thr c).
Proof.
  intros Hs. destruct a as [i k|i|i|i|i]; cbn [sched_step] in Hs; (destruct (nth_error (s_thr c) i) as [t|] eqn:Hi; [|discriminate]).
  - destruct (th_pc t); try discriminate. injection Hs as <-. apply put_length.
  - destruct t as [p fs]. unfold go in Hs. cbn [th_pc th_frames] in *. destruct p; try discriminate; cases_go Hs; try discriminate; injection Hs as <-; cbn [set_thr set_mtx add_log notify_all push stop_running s_thr]; rewrite ?ret_thr, ?put_length, ?map_length; reflexivity.
  - destruct (th_pc t); try discriminate. injection Hs as <-. apply put_length.
  - destruct (th_pc t); try discriminate. destruct (th_frames t); try discriminate. injection Hs as <-. rewrite ret_thr. apply put_length.
  - destruct (th_pc t); try discriminate. destruct (th_frames t); try discriminate. injection Hs as <-. apply put_length.
Qed.
Definition about_to_post (s : sys) : bool := match k_w (y_kbd s), pc_of 1 s with WNotify _, Some PUser => true | _, _ => false end.
Definition about_to_return (s : sys) : bool := match y_key s with Some KEnd => true | _ => false end.
Definition y_measure (s : sys) (q : list key) : nat :=
  let n := length (s_thr (y_sched s)) in
  (5 * n + 20) * l_measure (abs s q) + measure (y_sched s) + (if about_to_post s then 5 * n + 10 else 0) + (if about_to_return s then 5 else 0).
Lemma measure_put c c' i t x : nth_error (s_thr c) i = Some t -> s_thr c' = put i x (s_thr c) -> s_tasks c' = s_tasks c ->
  measure c' + cost (length (s_thr c)) t = measure c + cost (length (s_thr c)) x.
Proof. intros Hi Ht Hk. unfold measure. rewrite Hk, Ht, put_length. pose proof (total_put (length (s_thr c)) (s_thr c) i t x Hi). lia. Qed.
(** The session's steps in the scheduler *)
Lemma session_sched s s' : y_session E sgn fuel tty color s = YOk s' ->
  y_sched s' = y_sched s \/ exists a, (a = AThrow 0 \/ (a = AReturn 0 /\ y_key s = Some KEnd /\ y_key s' = None)) /\ sched_step a (y_sched s) = Some (y_sched s').
Proof.
  unfold y_session, y_in_kbd. intros Hs.
  assert (Hca : forall c b, y_sched b = y_sched s -> y_call_kbd sgn c b = YOk s' -> y_sched s' = y_sched s) by (intros c b Hb H; apply call_inv in H as (k & _ & ->); exact Hb).
  assert (Hgo : match k_step sgn MGo (y_kbd s) with Some k => YOk (y_set_kbd k s) | None => YNone end = YOk s' -> y_sched s' = y_sched s) by (intros H; destruct (k_step sgn MGo (y_kbd s)); [injection H as <-; reflexivity|discriminate]).
  assert (Hth : forall x b, y_sched b = y_sched s -> y_throw x b = YOk s' -> exists a, (a = AThrow 0 \/ (a = AReturn 0 /\ y_key s = Some KEnd /\ y_key s' = None)) /\ sched_step a (y_sched s) = Some (y_sched s')).
  { intros x b Hb H. apply in_sched_inv in H as (c & Hc & ->). exists (AThrow 0). split; [left; reflexivity|]. cbn [y_set_key y_add_thrown y_sched] in Hc. rewrite Hb in Hc. exact Hc. }
  destruct (y_life s).
  - left. destruct (k_m (y_kbd s)); try exact (Hgo Hs). destruct (open_local _ _ _ _); try discriminate; [injection Hs as <-; reflexivity|]. refine (Hca _ _ _ Hs). reflexivity.
  - destruct (y_key s) as [[k|k| |]|]; try discriminate.
    + destruct (is_command tty color k (y_proc s)); [left; refine (Hca _ _ _ Hs); reflexivity|]. destruct (l_press E fuel tty color k (y_proc s)); try discriminate; [left; injection Hs as <-; reflexivity|right]. refine (Hth _ _ _ Hs). reflexivity.
    + destruct (k_m (y_kbd s)); try (left; exact (Hgo Hs)). destruct (l_press E fuel tty color k (y_proc s)); try discriminate; [left; refine (Hca _ _ _ Hs)|right; refine (Hth _ _ _ Hs)]; reflexivity.
    + left. destruct (k_m (y_kbd s)); try exact (Hgo Hs). injection Hs as <-. reflexivity.
    + right. apply in_sched_inv in Hs as (c & Hc & ->). exists (AReturn 0). split; [right; auto|exact Hc].
  - left. destruct (k_m (y_kbd s)); try exact (Hgo Hs); try discriminate. injection Hs as <-. reflexivity.
  - destruct (y_key s) as [[k|k| |]|]; discriminate.
Qed.
Lemma run_less L a a' : k_eof (lc_kbd a) = false -> L = [LMain] \/ L = [LMain; LStop] \/ L = [LKbd WGo] -> l_run L a = LcOk a' -> k_eof (lc_kbd a') = false /\ l_measure a' < l_measure a.
Proof.
  intros He [->|[->| ->]]; cbn [LocalModel.l_run]; intros H.
  - destruct (l_step LMain a) as [b| | | |] eqn:Hb; try discriminate. injection H as <-. exact (own_rest E sgn fuel tty color LMain a b He Logic.I Hb).
  - destruct (l_step LMain a) as [b| | | |] eqn:Hb; try discriminate. cbn [LocalModel.l_step] in H. injection H as <-. exact (own_rest E sgn fuel tty color LMain a b He Logic.I Hb).
  - destruct (l_step (LKbd WGo) a) as [b| | | |] eqn:Hb; try discriminate. injection H as <-. exact (own_rest E sgn fuel tty color (LKbd WGo) a b He Logic.I Hb).
Qed.
Lemma own_less s s' q q' L : k_eof (y_kbd s) = false -> L = [LMain] \/ L = [LMain; LStop] \/ L = [LKbd WGo] -> l_run L (abs s q) = LcOk (abs s' q') ->
  length (s_thr (y_sched s')) = length (s_thr (y_sched s)) -> measure (y_sched s') <= measure (y_sched s) + 4 -> k_eof (y_kbd s') = false /\ y_measure s' q' < y_measure s q.
Proof.
  intros He HL Hr Hl Hm. destruct (run_less L (abs s q) _ He HL Hr) as (He' & Hlt). split; [exact He'|]. unfold y_measure. rewrite Hl. set (n := length (s_thr (y_sched s))).
  destruct (about_to_post s), (about_to_post s'), (about_to_return s), (about_to_return s'); nia.
Qed.
Lemma stutter s s' q q' : l_measure (abs s' q') = l_measure (abs s q) -> length (s_thr (y_sched s')) = length (s_thr (y_sched s)) ->
  measure (y_sched s') + (if about_to_post s' then 5 * length (s_thr (y_sched s)) + 10 else 0) + (if about_to_return s' then 5 else 0) <
  measure (y_sched s) + (if about_to_post s then 5 * length (s_thr (y_sched s)) + 10 else 0) + (if about_to_return s then 5 else 0) -> y_measure s' q' < y_measure s q.
Proof. intros Hl Hn H. unfold y_measure. rewrite Hl, Hn. lia. Qed.
(** A step inside the scheduler *)
Lemma go_less i s1 s c q q' : sched_step (AGo i) (y_sched s) = Some c -> y_sched s1 = y_sched s -> y_kbd s1 = y_kbd s -> (about_to_return s1 = true -> about_to_return s = true) ->
  (i = 1 -> pc_of 1 (y_set_sched c s1) <> Some PUser) -> l_measure (abs (y_set_sched c s1) q') = l_measure (abs s q) -> y_measure (y_set_sched c s1) q' < y_measure s q.
Proof.
  intros Hc Hs1 Hk Hr H1 Hl. pose proof (go_decreases _ _ _ Hc) as Hm. apply stutter; [exact Hl|exact (step_length _ _ _ Hc)|]. cbn [y_set_sched y_sched].
  assert (Hp : about_to_post (y_set_sched c s1) = true -> about_to_post s = true).
  { unfold about_to_post. cbn [y_set_sched y_kbd]. rewrite Hk. destruct (k_w (y_kbd s)); try discriminate. destruct (Nat.eq_dec i 1) as [->|Hi].
    - specialize (H1 eq_refl). destruct (pc_of 1 (y_set_sched c s1)) as [[]|]; try discriminate. congruence.
    - rewrite !pc_nth. cbn [y_set_sched y_sched]. destruct (go_seen i 1 _ _ Hc ltac:(congruence)) as [->| ->]; [auto|]. destruct (nth_error (s_thr (y_sched s)) 1) as [[[] ?]|]; cbn; try discriminate; reflexivity. }
  assert (Hr' : about_to_return (y_set_sched c s1) = true -> about_to_return s = true) by exact Hr.
  destruct (about_to_post (y_set_sched c s1)), (about_to_return (y_set_sched c s1)); rewrite ?(Hp eq_refl), ?(Hr' eq_refl); destruct (about_to_post s), (about_to_return s); lia.
Qed.
Lemma lib_less a s s' q : wf s -> keys_of (y_names s) (s_tasks (y_sched s)) = q ++ pending s -> k_eof (y_kbd s) = false -> lib_step a -> y_step a s = YOk s' ->
  exists q', wf s' /\ keys_of (y_names s') (s_tasks (y_sched s')) = q' ++ pending s' /\ k_eof (y_kbd s') = false /\ y_measure s' q' < y_measure s q.
Proof.
  intros Hwf Hq He Ha Hs. destruct (wf_0 _ Hwf) as (t0 & H0 & T0). destruct (wf_1 _ Hwf) as (t1 & H1 & T1).
  destruct a as [| |x|i|i|i c| | |]; try (destruct Ha; fail); cbn [SystemModel.y_step] in Hs.
  - unfold y_main in Hs. rewrite pc_nth, H0 in Hs. cbn [option_map] in Hs.
    assert (Hgo : th_pc t0 <> PUser -> in_sched (AGo 0) match begins (th_pc t0) s with Some x => y_set_key (Some x) s | None => s end = YOk s').
    { intros Hu. destruct (th_pc t0); try exact Hs. congruence. }
    destruct (poster (th_pc t0)) eqn:Ep.
    + assert (Hd : th_pc t0 = PUser \/ th_pc t0 <> PUser) by (destruct (th_pc t0); [left; reflexivity|right; discriminate..]).
      destruct Hd as [Hu|Hu].
      * rewrite Hu in Hs. destruct (session_sim s q t0 Hwf H0 Hu Hq s' Hs) as (A1 & A2 & A3 & L & A4 & A5). exists q. split; [exact A1|]. split; [exact A2|].
        assert (Hm : length (s_thr (y_sched s')) = length (s_thr (y_sched s)) /\ measure (y_sched s') <= measure (y_sched s) + 4).
        { destruct (session_sched s s' Hs) as [->|(b & Hb & Hst)]; [lia|]. split; [exact (step_length _ _ _ Hst)|].
          destruct (task_ended s b _ _ t0 (y_sched s') ltac:(tauto) H0 Hst eq_refl eq_refl) as (B1 & B2 & _). pose proof (measure_put _ _ _ _ _ H0 B1 B2) as B. unfold cost in B. rewrite Hu in B. cbn [th_pc bell load weight] in B.
          destruct b, (th_frames t0) as [|[[]|] ?]; cbn [th_pc bell load weight] in B; lia. }
        destruct A5 as [(-> & Hk)|[->|(-> & _)]].
        -- cbn [LocalModel.l_run] in A4. assert (A4' : abs s q = abs s' q) by congruence. clear A4. rename A4' into A4. pose proof (f_equal lc_kbd A4) as Hkb. cbn [abs lc_kbd] in Hkb. split; [congruence|].
           unfold y_session in Hs. rewrite Hk in Hs. pose proof (wf_life _ Hwf) as Hl. unfold life_ok in Hl. rewrite Hk in Hl. destruct (y_life s); try (destruct Hl; fail). apply in_sched_inv in Hs as (c & Hc & ->).
           cbn [y_set_sched y_set_key y_sched y_kbd] in *. apply stutter; [f_equal; symmetry; exact A4|apply Hm|]. cbn [y_set_sched y_set_key y_sched y_kbd].
           destruct (task_ended s (AReturn 0) _ _ t0 c (or_introl eq_refl) H0 Hc eq_refl eq_refl) as (B1 & B2 & _).
           assert (Hp1 : about_to_post (y_set_sched c (y_set_key None s)) = about_to_post s). { unfold about_to_post. rewrite !pc_nth. cbn [y_set_sched y_set_key y_sched y_kbd]. rewrite B1, put_other by discriminate. reflexivity. }
           rewrite Hp1. unfold about_to_return. cbn [y_set_sched y_set_key y_key]. rewrite Hk. destruct Hm as (_ & Hm). lia.
        -- apply (own_less s s' q q [LMain]); tauto.
        -- apply (own_less s s' q q [LMain; LStop]); tauto.
      * specialize (Hgo Hu). assert (Hb : begins (th_pc t0) s = None) by (destruct (th_pc t0); try reflexivity; discriminate). rewrite Hb in Hgo. apply in_sched_inv in Hgo as (c & Hc & ->).
        destruct (poster_step 0 s c t0 q Hwf ltac:(discriminate) H0 Ep Hc Hq) as (A1 & A2 & A3). exists q. split; [exact A1|]. split; [exact A2|]. split; [exact He|].
        apply (go_less 0); auto; [discriminate|]. destruct A3 as [->|(-> & _)]; reflexivity.
    + assert (Hu : th_pc t0 <> PUser) by (intros Hu; rewrite Hu in Ep; discriminate). specialize (Hgo Hu). apply in_sched_inv in Hgo as (c & Hc & ->).
      assert (Hc' : sched_step (AGo 0) (y_sched s) = Some c) by (destruct (begins (th_pc t0) s); exact Hc).
      destruct (exec_step s t0 c q Hwf H0 Ep Hc' Hq) as (A1 & A2 & q' & A3 & A4). exists q'. split; [exact A1|]. split; [exact A3|]. split; [cbn [y_set_sched y_kbd]; destruct (begins (th_pc t0) s); exact He|].
      apply (go_less 0); auto; try discriminate; try (destruct (begins (th_pc t0) s); reflexivity); [|rewrite A4; reflexivity].
      unfold about_to_return. destruct (begins (th_pc t0) s) as [x|] eqn:Eb; [|auto]. cbn [y_set_key y_key]. destruct x; try discriminate. exfalso.
      unfold begins in Eb. destruct (th_pc t0); try discriminate; destruct (j_call j); try discriminate; destruct (nth_error (y_names s) (j_id j)) as [[]|]; discriminate.
  - unfold y_worker in Hs. rewrite pc_nth, H1 in Hs. cbn [option_map] in Hs.
    assert (Hread : (forall k, k_w (y_kbd s) <> WNotify k) -> match k_step sgn WGo (y_kbd s) with Some b => YOk (y_set_kbd b s) | None => YNone end = YOk s' ->
      exists q', wf s' /\ keys_of (y_names s') (s_tasks (y_sched s')) = q' ++ pending s' /\ k_eof (y_kbd s') = false /\ y_measure s' q' < y_measure s q).
    { intros Hn Hr. destruct (k_step sgn WGo (y_kbd s)) as [b|] eqn:Hb; [|discriminate]. injection Hr as <-. destruct (worker_reads s b Hwf Hn) as (A1 & A2). exists q. split; [exact A1|]. split; [rewrite A2; exact Hq|].
      apply (own_less s _ q q [LKbd WGo]); auto; [|cbn [y_set_kbd y_sched]; lia]. apply run_one. cbn [LocalModel.l_step abs lc_kbd]. rewrite Hb, (reads_nothing _ _ Hb Hn), app_nil_r. reflexivity. }
    destruct (k_w (y_kbd s)) eqn:Ew; try (apply (Hread ltac:(intros k0; discriminate) Hs)).
    assert (Hd : th_pc t1 = PUser \/ th_pc t1 = PPost3 \/ (th_pc t1 <> PUser /\ th_pc t1 <> PPost3)) by (destruct (th_pc t1); auto; right; right; split; discriminate).
    destruct Hd as [Hu|[Hu|(Hu & Hu')]].
    + rewrite Hu in Hs. apply in_sched_inv in Hs as (c & Hc & ->). destruct (worker_call s k c q Hwf Ew Hc Hq) as (A1 & A2 & A3 & A4). exists q. split; [exact A1|]. split; [exact A2|]. split; [exact He|].
      assert (Hth : s_thr c = put 1 (mkThr (PPost0 (mkJob (length (y_names s)) true)) (th_frames t1)) (s_thr (y_sched s)) /\ s_tasks c = s_tasks (y_sched s)).
      { cbn [sched_step y_add_name y_sched] in Hc. rewrite H1, Hu in Hc. injection Hc as <-. split; reflexivity. }
      destruct Hth as (B1 & B2). apply stutter; [rewrite A3; reflexivity|exact (step_length _ _ _ Hc)|]. cbn [y_set_sched y_add_name y_sched].
      assert (P1 : about_to_post s = true) by (unfold about_to_post; rewrite Ew, pc_nth, H1; cbn [option_map]; rewrite Hu; reflexivity).
      assert (P2 : about_to_post (y_set_sched c (y_add_name (TKey k) s)) = false).
      { unfold about_to_post. rewrite pc_nth. cbn [y_set_sched y_add_name y_sched y_kbd]. rewrite B1, (put_same _ _ _ _ H1), Ew. reflexivity. }
      rewrite P1, P2. pose proof (measure_put _ _ _ _ _ H1 B1 B2) as B. unfold cost in B. rewrite Hu in B. cbn [th_pc bell load weight] in B. change (about_to_return (y_set_sched c (y_add_name (TKey k) s))) with (about_to_return s). lia.
    + rewrite Hu in Hs. destruct (k_step sgn WGo (y_kbd s)) as [b|] eqn:Hb; [|discriminate]. apply in_sched_inv in Hs as (c & Hc & ->).
      destruct (worker_posted sgn s c t1 k b q Hwf H1 Hu Ew Hb Hc Hq) as (A1 & A2 & A3 & A4 & A5). exists (q ++ [k]). split; [exact A1|]. split; [exact A2|].
      apply (own_less s _ q (q ++ [k]) [LKbd WGo]); auto.
      * apply run_one. cbn [LocalModel.l_step]. change (lc_kbd (abs s q)) with (y_kbd s). rewrite Hb, A3, A4. f_equal. change (lc_queue (abs s q)) with (waiting s ++ q). rewrite app_assoc. reflexivity.
      * exact (step_length _ _ _ Hc).
      * pose proof (go_decreases _ _ _ Hc) as Hm. cbn [y_set_sched y_set_kbd y_sched] in *. lia.
    + assert (Hg : in_sched (AGo 1) s = YOk s') by (destruct (th_pc t1); try exact Hs; congruence). apply in_sched_inv in Hg as (c & Hc & ->).
      destruct (worker_post s c t1 k q Hwf H1 Hu' Ew Hc Hq) as (A1 & A2 & A3 & A4). exists q. split; [exact A1|]. split; [exact A2|]. split; [exact He|].
      apply (go_less 1); auto; [|rewrite A3; reflexivity]. intros _. destruct T1 as (_ & T1).
      assert (Hp1 : poster (th_pc t1) = true) by (destruct (th_pc t1); try (destruct T1; fail); reflexivity). destruct (go_poster 1 _ t1 c H1 Hp1 Hc) as (G1 & _). rewrite pc_nth. cbn [y_set_sched y_sched]. rewrite G1. cbn [option_map th_pc].
      destruct (th_pc t1); try (destruct T1; fail); try contradiction; discriminate.
  - destruct i as [|[|i]]; try discriminate. apply in_sched_inv in Hs as (c & Hc & ->).
    destruct (nth_error (s_thr (y_sched s)) (S (S i))) as [t|] eqn:Hi; [|cbn [sched_step] in Hc; rewrite Hi in Hc; discriminate]. destruct (wf_2 _ Hwf i t Hi) as (Ep & _).
    destruct (poster_step (S (S i)) s c t q Hwf ltac:(discriminate) Hi Ep Hc Hq) as (A1 & A2 & A3). exists q. split; [exact A1|]. split; [exact A2|]. split; [exact He|].
    apply (go_less (S (S i))); auto; [discriminate|]. destruct A3 as [->|(-> & _)]; reflexivity.
Qed.
Lemma lib_bounded l : forall s s' q, wf s -> keys_of (y_names s) (s_tasks (y_sched s)) = q ++ pending s -> k_eof (y_kbd s) = false -> Forall lib_step l -> y_run l s = YOk s' -> length l <= y_measure s q.
Proof.
  induction l as [|a l IH]; intros s s' q Hwf Hq He Hf Hr; [cbn; lia|]. inversion Hf as [|x y Ha Hf']. subst. cbn [SystemModel.y_run] in Hr. destruct (y_step a s) as [s1| | | |] eqn:Hs; try discriminate.
  destruct (lib_less a s s1 q Hwf Hq He Ha Hs) as (q' & W & Hq' & He' & Hm). specialize (IH s1 s' q' W Hq' He' Hf' Hr). cbn [length]. lia.
Qed.
End Sim.

(** ** Runs *)
Lemma init_pc n m junk w i t : nth_error (s_thr (y_sched (sys_init n m junk w))) i = Some t -> t = mkThr PUser [].
Proof. cbn [sys_init y_sched]. intros H. apply init_thr in H. exact H. Qed.
Lemma init_wf n m junk w : wf (sys_init n m junk w).
Proof.
  constructor.
  - exact (reach_mutex (2 + n) [] _ eq_refl).
  - exists (mkThr PUser []). split; [reflexivity|]. repeat split. intros H. cbn in H. congruence.
  - exists (mkThr PUser []). split; [reflexivity|]. split; [reflexivity|exact Logic.I].
  - intros i t H. apply init_pc in H as ->. split; [reflexivity|exact Logic.I].
  - constructor.
  - exact Logic.I.
Qed.
Lemma ytyped_snoc l a : ytyped (l ++ [a]) = ytyped l ++ match a with YKbd (Type_ t) => t | _ => [] end.
Proof. unfold ytyped. rewrite flat_map_app. cbn [flat_map]. rewrite app_nil_r. reflexivity. Qed.

Section Runs.
Context (E : env) (sgn : bool) (fuel : nat) (tty : bool) (color : list event -> bool * bool) (n : nat) (m junk : tmode) (w : world).
Notation l_step := (l_step E sgn fuel tty color).
Notation l_run := (l_run E sgn fuel tty color).
Notation y_step := (y_step E sgn fuel tty color).
Notation y_run := (y_run E sgn fuel tty color).
Notation lreaches := (lreaches E sgn fuel tty color m junk w).
Notation yreaches := (yreaches E sgn fuel tty color n m junk w).

Lemma y_run_hist (P : list yact -> sys -> Prop) : (forall l a s s', P l s -> y_step a s = YOk s' -> P (l ++ [a]) s') ->
  forall l2 l1 s s', P l1 s -> y_run l2 s = YOk s' -> P (l1 ++ l2) s'.
Proof.
  intros Hstep. induction l2 as [|a l2 IH]; intros l1 s s' Hp H; cbn [SystemModel.y_run] in H; [injection H as <-; rewrite app_nil_r; exact Hp|].
  destruct (y_step a s) as [s1| | | |] eqn:Hs; try discriminate. change (a :: l2) with ([a] ++ l2). rewrite app_assoc. exact (IH _ s1 s' (Hstep _ _ _ _ Hp Hs) H).
Qed.
Lemma l_run_app L : forall L' a b, l_run L a = LcOk b -> l_run (L ++ L') a = l_run L' b.
Proof.
  induction L as [|x L IH]; intros L' a b H; cbn [LocalModel.l_run app] in *; [injection H as ->; reflexivity|]. destruct (l_step x a) as [c| | | |]; try discriminate. exact (IH _ _ _ H).
Qed.
Definition sim_run (l : list yact) (s : sys) (L : list lact) (q : list key) : Prop :=
  lreaches L (abs s q) /\ keys_of (y_names s) (s_tasks (y_sched s)) = q ++ pending s /\ ltyped L = ytyped l /\ (In LStop L -> s_running (y_sched s) = false) /\
  (In LDestroy L -> In YDestroy l) /\ (forall x, In (LKbd x) L -> In (YKbd x) l \/ x = WGo).
Lemma sim_snoc l s L q a s' : wf s -> sim_run l s L q -> y_step a s = YOk s' -> exists L1 q', l_run L1 (abs s q) = LcOk (abs s' q') /\ sim_run (l ++ [a]) s' (L ++ L1) q'.
Proof.
  intros Hwf (H1 & H2 & H3 & H4 & H5 & H6) Hs. destruct (y_sim E sgn fuel tty color a s s' q Hwf H2 Hs) as (_ & S2 & L1 & q' & S3 & S4 & S5 & S6 & S7 & S8). exists L1, q'. split; [exact S3|].
  split; [unfold LocalSpec.lreaches; rewrite (l_run_app _ _ _ _ H1); exact S3|]. split; [exact S4|]. split; [|split; [|split]].
  - rewrite ytyped_snoc. unfold ltyped. rewrite flat_map_app. change (flat_map _ L) with (ltyped L). rewrite H3. f_equal. exact S5.
  - intros Hi. apply in_app_or in Hi as [Hi|Hi]; [apply S2, H4, Hi|apply S6, Hi].
  - intros Hi. apply in_or_app. apply in_app_or in Hi as [Hi|Hi]; [left; apply H5, Hi|right; left; apply S7, Hi].
  - intros x Hi. apply in_app_or in Hi as [Hi|Hi]; [destruct (H6 x Hi) as [H|H]; [left; apply in_or_app; left; exact H|right; exact H]|].
    destruct (S8 x Hi) as [->|H]; [left; apply in_or_app; right; left; reflexivity|right; exact H].
Qed.
Lemma reach_sim l s : yreaches l s -> wf s /\ exists L q, sim_run l s L q.
Proof.
  intros H. refine (y_run_hist (fun l s => wf s /\ exists L q, sim_run l s L q) _ l [] (sys_init n m junk w) s _ H).
  - intros l' a s1 s2 (Hwf & L & q & Hr) Hs. split; [destruct Hr as (_ & Hq & _); exact (proj1 (y_sim E sgn fuel tty color a s1 s2 q Hwf Hq Hs))|]. destruct (sim_snoc l' s1 L q a s2 Hwf Hr Hs) as (L1 & q' & _ & Hr'). eauto.
  - split; [apply init_wf|]. exists [], []. split; [reflexivity|]. split; [reflexivity|]. split; [reflexivity|]. split; [intros []|]. split; [intros []|intros x []].
Qed.

(** *** The scheduler *)
Lemma y_sched_step a s s' : y_step a s = YOk s' -> y_sched s' = y_sched s \/ exists b, sched_step b (y_sched s) = Some (y_sched s') /\ forall i, b = ACall i CStop -> a = YCall i YStop.
Proof.
  intros Hs.
  assert (Hin : forall b s1, y_sched s1 = y_sched s -> (forall i, b = ACall i CStop -> a = YCall i YStop) -> in_sched b s1 = YOk s' -> exists b, sched_step b (y_sched s) = Some (y_sched s') /\ forall i, b = ACall i CStop -> a = YCall i YStop).
  { intros b s1 H1 Hb H. apply in_sched_inv in H as (c & Hc & ->). rewrite H1 in Hc. exists b. split; [exact Hc|exact Hb]. }
  destruct a as [| |x|i|i|i c| | |]; cbn [SystemModel.y_step] in Hs.
  - unfold y_main in Hs. destruct (pc_of 0 s) as [p|]; [|discriminate].
    assert (Hd : p = PUser \/ in_sched (AGo 0) match begins p s with Some x => y_set_key (Some x) s | None => s end = YOk s') by (destruct p; auto).
    destruct Hd as [->|Hg].
    + destruct (session_sched E sgn fuel tty color s s' Hs) as [H|(b & Hb & H)]; [left; exact H|right]. exists b. split; [exact H|]. intros i ->. destruct Hb as [Hb|(Hb & _)]; discriminate.
    + right. refine (Hin _ _ _ _ Hg); [destruct (begins p s); reflexivity|discriminate].
  - unfold y_worker in Hs. assert (Hr : match k_step sgn WGo (y_kbd s) with Some b => YOk (y_set_kbd b s) | None => YNone end = YOk s' -> y_sched s' = y_sched s) by (intros H; destruct (k_step sgn WGo (y_kbd s)); [injection H as <-; reflexivity|discriminate]).
    destruct (k_w (y_kbd s)); try (left; exact (Hr Hs)). destruct (pc_of 1 s) as [[]|]; try (right; refine (Hin _ _ _ _ Hs); [reflexivity|discriminate]); [|left; exact (Hr Hs)].
    destruct (k_step sgn WGo (y_kbd s)) as [b|]; [|discriminate]. right. refine (Hin _ _ _ _ Hs); [reflexivity|discriminate].
  - left. destruct x; try discriminate; (destruct (k_step sgn _ (y_kbd s)); [injection Hs as <-; reflexivity|discriminate]).
  - right. destruct i as [|[|i]]; try discriminate. refine (Hin _ _ _ _ Hs); [reflexivity|discriminate].
  - right. refine (Hin _ _ _ _ Hs); [reflexivity|discriminate].
  - right. assert (Hc : y_call i c s = YOk s') by (destruct i as [|[|i]]; try discriminate; destruct (executes c && negb _); try discriminate; exact Hs).
    destruct c; cbn [y_call] in Hc; try (destruct (outside s); [|discriminate]); (refine (Hin _ _ _ _ Hc); [reflexivity|]); intros j Hj; try discriminate; injection Hj as ->; reflexivity.
  - right. destruct (outside s); [|discriminate]. refine (Hin _ _ _ _ Hs); [reflexivity|discriminate].
  - right. destruct (outside s); [|discriminate]. refine (Hin _ _ _ _ Hs); [reflexivity|discriminate].
  - left. destruct (y_life s), (y_key s), (pc_of 0 s) as [[]|]; try discriminate. apply call_inv in Hs as (b & _ & ->). reflexivity.
Qed.
Lemma reach_sched l s : yreaches l s -> exists al, reaches (2 + n) al (y_sched s) /\ forall i, In (ACall i CStop) al -> In (YCall i YStop) l.
Proof.
  intros H. refine (y_run_hist (fun l s => exists al, reaches (2 + n) al (y_sched s) /\ forall i, In (ACall i CStop) al -> In (YCall i YStop) l) _ l [] (sys_init n m junk w) s _ H).
  - intros l' a s1 s2 (al & Hr & Hc) Hs. destruct (y_sched_step a s1 s2 Hs) as [->|(b & Hb & Hst)].
    + exists al. split; [exact Hr|]. intros i Hi. apply in_or_app. left. exact (Hc i Hi).
    + exists (al ++ [b]). split; [unfold reaches; rewrite (run_app _ _ _ _ Hr); cbn [sched_run]; rewrite Hb; reflexivity|].
      intros i Hi. apply in_or_app. apply in_app_or in Hi as [Hi|[Hi|[]]]; [left; exact (Hc i Hi)|right; left; exact (Hst i Hi)].
  - exists []. split; [reflexivity|intros i []].
Qed.
Lemma not_stopped l s : yreaches l s -> (forall i, ~ In (YCall i YStop) l) -> s_running (y_sched s) = true.
Proof.
  intros H Hn. destruct (s_running (y_sched s)) eqn:Er; [reflexivity|]. exfalso. destruct (reach_sched l s H) as (al & Hr & Hc). destruct (stopped_by_stop _ _ _ Hr Er) as (i & Hi). exact (Hn i (Hc i Hi)).
Qed.

Lemma sim_more l2 : forall l s L q s2, wf s -> sim_run l s L q -> y_run l2 s = YOk s2 ->
  wf s2 /\ exists L2 q2, l_run L2 (abs s q) = LcOk (abs s2 q2) /\ sim_run (l ++ l2) s2 (L ++ L2) q2.
Proof.
  induction l2 as [|a l2 IH]; intros l s L q s2 Hwf Hr H; cbn [SystemModel.y_run] in H.
  - injection H as <-. split; [exact Hwf|]. exists [], q. rewrite !app_nil_r. split; [reflexivity|exact Hr].
  - destruct (y_step a s) as [s1| | | |] eqn:Hs; try discriminate. destruct (sim_snoc l s L q a s1 Hwf Hr Hs) as (L1 & q1 & A1 & A2).
    assert (Hwf1 : wf s1) by (destruct Hr as (_ & Hq & _); exact (proj1 (y_sim E sgn fuel tty color a s s1 q Hwf Hq Hs))).
    destruct (IH _ s1 _ q1 s2 Hwf1 A2 H) as (W & L2 & q2 & B1 & B2). split; [exact W|]. exists (L1 ++ L2), q2. split; [rewrite (l_run_app _ _ _ _ A1); exact B1|].
    rewrite <- !app_assoc in B2. exact B2.
Qed.

(** ** The properties *)
Lemma y_order l s : yreaches l s -> y_done s ++ running_key s ++ waiting s ++ keys_of (y_names s) (s_tasks (y_sched s)) = k_keys (y_kbd s) ++ pending s.
Proof.
  intros H. destruct (reach_sim l s H) as (Hwf & L & q & H1 & H2 & _). destruct (reach_local E sgn fuel tty color m junk w L _ H1) as (kl & _ & _ & H3 & _).
  change (lrest (abs s q) = k_keys (y_kbd s)) in H3. rewrite (rest_abs s q Hwf) in H3. rewrite H2, <- H3. unfold rest. rewrite <- !app_assoc. reflexivity.
Qed.
Lemma y_refines l s : yreaches l s -> exists L a, lreaches L a /\ ltyped L = ytyped l /\ lc_kbd a = y_kbd s /\ lc_proc a = y_proc s /\ lc_done a = y_done s /\ lc_thrown a = y_thrown s.
Proof. intros H. destruct (reach_sim l s H) as (_ & L & q & H1 & _ & H3 & _). exists L, (abs s q). repeat (split; [assumption || reflexivity|]). reflexivity. Qed.
Lemma y_state l s : yreaches l s -> y_life s = SLive -> exists p0, opened_alone E tty color w = Some p0 /\ pressed_alone E fuel tty color (y_done s) p0 = Some (y_proc s).
Proof.
  intros H Hl. destruct (reach_sim l s H) as (_ & L & q & H1 & _). destruct (reach_local E sgn fuel tty color m junk w L _ H1) as (kl & _ & _ & _ & _ & _ & H6).
  change (lc_main (abs s q)) with (main_of s) in H6. unfold main_of in H6. rewrite Hl in H6. destruct (y_key s) as [[]|]; exact H6.
Qed.
Lemma y_stop l s l2 s2 : yreaches l s -> s_running (y_sched s) = false -> y_run l2 s = YOk s2 -> y_done s2 ++ running_key s2 ++ waiting s2 = y_done s ++ running_key s ++ waiting s.
Proof.
  intros H Hr. destruct (reach_sim l s H) as (Hwf & L & q & _ & Hq & _). clear H L. revert s q Hwf Hq Hr. induction l2 as [|a l2 IH]; intros s q Hwf Hq Hr H; cbn [SystemModel.y_run] in H; [injection H as <-; reflexivity|].
  destruct (y_step a s) as [s1| | | |] eqn:Hs; try discriminate. destruct (y_sim E sgn fuel tty color a s s1 q Hwf Hq Hs) as (W & S2 & _ & q' & _ & Hq' & _). destruct (S2 Hr) as (Hr' & Hre). rewrite (IH s1 q' W Hq' Hr' H). exact Hre.
Qed.
Lemma y_gone l s a : yreaches l s -> y_step a s = YGone -> In YDestroy l \/ opened_alone E tty color w = None.
Proof.
  intros H Hs. destruct (reach_sim l s H) as (Hwf & L & q & H1 & Hq & _ & _ & Hd & _). destruct (y_fails E sgn fuel tty color a s q _ Hwf Hq Hs Logic.I) as (_ & Hf).
  assert (Hg : l_step LMain (abs s q) = LcGone) by (destruct (l_step LMain (abs s q)); try (destruct Hf; fail); reflexivity).
  destruct (step_gone E sgn fuel tty color m junk w L LMain _ H1 Hg) as ([Hx|Hx] & _); [left; exact (Hd Hx)|right; exact Hx].
Qed.
Lemma y_stopped_first l1 s1 l2 s2 a : yreaches l1 s1 -> s_running (y_sched s1) = false -> y_run (YDestroy :: l2) s1 = YOk s2 -> y_step a s2 <> YGone.
Proof.
  intros H Hr H2 Hs. destruct (reach_sim l1 s1 H) as (Hwf & L & q & Hsim). destruct (sim_more (YDestroy :: l2) l1 s1 L q s2 Hwf Hsim H2) as (Hwf2 & L2 & q2 & B1 & B2 & Hq2 & _).
  assert (Hst : lc_stopped (abs s1 q) = true).
  { cbn [SystemModel.y_run SystemModel.y_step] in H2. destruct (wf_0 _ Hwf) as (t0 & H0 & T0). rewrite pc_nth, H0 in H2. cbn [option_map] in H2. destruct (y_life s1) eqn:El; try discriminate. destruct (y_key s1) eqn:Ek; try discriminate. destruct (th_pc t0) eqn:Ep; try discriminate.
    change (lc_stopped (abs s1 q)) with (stopped_of s1). unfold stopped_of. rewrite (wait_user s1 t0 H0 Ep), Ek, Hr. reflexivity. }
  pose proof (stop_stays E sgn fuel tty color L2 _ _ Hst B1) as Hst2. destruct (y_fails E sgn fuel tty color a s2 q2 _ Hwf2 Hq2 Hs Logic.I) as (_ & Hf).
  assert (Hg : l_step LMain (abs s2 q2) = LcGone) by (destruct (l_step LMain (abs s2 q2)); try (destruct Hf; fail); reflexivity).
  destruct (step_gone E sgn fuel tty color m junk w _ LMain _ B2 Hg) as (_ & Hx). congruence.
Qed.
Lemma y_ub l s a : yreaches l s -> y_step a s = YUB -> open_local E tty (fst (color (w_trace w))) w = PUB \/
  exists p0 k, opened_alone E tty color w = Some p0 /\ pressed_alone E fuel tty color (y_done s) p0 = Some (y_proc s) /\ l_press E fuel tty color k (y_proc s) = PUB.
Proof.
  intros H Hs. destruct (reach_sim l s H) as (Hwf & L & q & H1 & Hq & _). destruct (y_fails E sgn fuel tty color a s q _ Hwf Hq Hs Logic.I) as (_ & Hf).
  assert (Hg : l_step LMain (abs s q) = LcUB) by (destruct (l_step LMain (abs s q)); try (destruct Hf; fail); reflexivity).
  exact (step_ub E sgn fuel tty color m junk w L LMain _ H1 Hg).
Qed.
Lemma y_finite l s : yreaches l s -> k_eof (y_kbd s) = false -> exists b, forall l' s', Forall lib_step l' -> y_run l' s = YOk s' -> length l' <= b.
Proof.
  intros H He. destruct (reach_sim l s H) as (Hwf & L & q & _ & Hq & _). exists (y_measure s q). intros l' s' Hf Hr. exact (lib_bounded E sgn fuel tty color l' s s' q Hwf Hq He Hf Hr).
Qed.
(** When the library is at rest, and thread 0 is in it, it sleeps. *)
Lemma y_rest l s : yreaches l s -> (forall i, ~ In (YCall i YStop) l) -> ~ In YDestroy l -> y_thrown s = [] -> ysettled E sgn fuel tty color s ->
  exists L q, sim_run l s L q /\ ~ In LStop L /\ settled E sgn fuel tty color (abs s q).
Proof.
  intros H Hns Hnd Hth (Hset & Hin). destruct (reach_sim l s H) as (Hwf & L & q & Hsim). pose proof (not_stopped l s H Hns) as Hrun. exists L, q. split; [exact Hsim|].
  destruct Hsim as (H1 & Hq & _ & Hst & Hde & _). split; [intros Hi; rewrite (Hst Hi) in Hrun; discriminate|].
  destruct (reach_phase E sgn fuel tty color m junk w L _ H1) as (P1 & _ & P3 & _). change (lc_main (abs s q)) with (main_of s) in P1, P3. change (lc_kbd (abs s q)) with (y_kbd s) in P1. change (lc_thrown (abs s q)) with (y_thrown s) in P3.
  assert (Hlive : main_of s <> LDtor /\ main_of s <> LOver).
  { split; intros Ex; rewrite Ex in P3; destruct P3 as [P3|(_ & P3)]; try (exact (Hnd (Hde P3))); congruence. }
  destruct (wf_0 _ Hwf) as (t0 & H0 & T0). destruct (wf_1 _ Hwf) as (t1 & Ht1 & T1). pose proof (Hset YMain Logic.I) as Q0. pose proof (Hset YWorker Logic.I) as Q1. cbn [SystemModel.y_step] in Q0, Q1.
  rewrite pc_nth, H0 in Hin. cbn [option_map] in Hin.
  assert (Hw : forall k, k_w (y_kbd s) = WNotify k -> exists b, k_step sgn WGo (y_kbd s) = Some b).
  { intros k Hk. unfold k_step, w_step. rewrite Hk. destruct Hlive as (L1 & L2). destruct (main_of s), (k_m (y_kbd s)); try (destruct P1; fail); try contradiction; eexists; reflexivity. }
  assert (G0 : sched_step (AGo 0) (y_sched s) = None).
  { unfold y_main in Q0. rewrite pc_nth, H0 in Q0. cbn [option_map] in Q0. destruct (th_pc t0); try (destruct (Hin eq_refl); fail);
    (unfold in_sched in Q0; match type of Q0 with context[sched_step ?a (y_sched ?x)] => assert (Ey : y_sched x = y_sched s) by (destruct (begins _ s); reflexivity) end; rewrite Ey in Q0; destruct (sched_step (AGo 0) (y_sched s)); [discriminate|reflexivity]). }
  assert (G1 : sched_step (AGo 1) (y_sched s) = None).
  { unfold y_worker in Q1. rewrite pc_nth, Ht1 in Q1. cbn [option_map] in Q1. destruct T1 as (_ & T1).
    assert (Hk : th_pc t1 = PUser \/ exists k, k_w (y_kbd s) = WNotify k) by (destruct (th_pc t1); try (destruct T1; fail); [left; reflexivity|right..]; destruct T1 as (k & Hk); exists k; tauto).
    destruct Hk as [Hk|(k & Hk)]; [cbn [sched_step]; rewrite Ht1; unfold go; rewrite Hk; reflexivity|]. rewrite Hk in Q1. destruct (Hw k Hk) as (b & Hb). rewrite Hb in Q1.
    destruct (th_pc t1) eqn:Ep; try (destruct T1; fail); try (unfold in_sched in Q1; cbn [y_set_kbd y_sched] in Q1; destruct (sched_step (AGo 1) (y_sched s)); [discriminate|reflexivity]).
    cbn [sched_step]. rewrite Ht1. unfold go. rewrite Ep. reflexivity. }
  assert (Gi : forall i, sched_step (AGo i) (y_sched s) = None).
  { intros [|[|i]]; [exact G0|exact G1|]. pose proof (Hset (YGo (S (S i))) Logic.I) as Q. cbn [SystemModel.y_step] in Q. unfold in_sched in Q. destruct (sched_step (AGo (S (S i))) (y_sched s)); [discriminate|reflexivity]. }
  destruct (reach_sched l s H) as (al & Hr & _).
  assert (Hquiet : forall i t, nth_error (s_thr (y_sched s)) i = Some t -> in_user t \/ (sleeping t /\ s_tasks (y_sched s) = [])).
  { intros i t Hi. destruct (quiet_threads _ (wf_mutex _ Hwf) Gi i t Hi) as [Hx|Hx]; [left; exact Hx|right]. split; [exact Hx|].
    destruct (reach_woken _ _ _ Hr i t Hi Hx) as [(_ & Hl)|(j & tj & Hm & Hj & Hn)]; [exact Hl|]. exfalso. destruct (holder_moves (y_sched s) j tj Hj) as (s'' & Hs''); [destruct Hn as [-> | ->]; reflexivity|]. rewrite Gi in Hs''. discriminate. }
  destruct (Hquiet 0 t0 H0) as [Hu|((c & Hsl) & Htk)]; [destruct (Hin (f_equal Some Hu))|].
  assert (Ho : outside s = true). { destruct (outside s) eqn:Eo; [reflexivity|]. destruct T0 as (_ & _ & T0 & _). specialize (T0 Eo). rewrite Hsl in T0. discriminate. }
  destruct (outside_key s Ho) as (Hkey & Hlife).
  assert (Hmain : main_of s = LTask). { unfold main_of. rewrite Hkey. destruct Hlife as [Hl|Hl]; rewrite Hl; [reflexivity|]. destruct Hlive as (_ & Hl'). unfold main_of in Hl'. rewrite Hl in Hl'. congruence. }
  assert (Hwait : waiting s = []) by (rewrite waiting_eq, pc_nth, H0; cbn [option_map]; rewrite Hsl, Hkey; reflexivity).
  assert (Hqn : q = []). { rewrite Htk in Hq. cbn in Hq. symmetry in Hq. apply app_eq_nil in Hq. apply Hq. }
  split.
  - cbn [LocalModel.l_step]. unfold l_main. change (lc_main (abs s q)) with (main_of s). rewrite Hmain. cbn [abs lc_stopped lc_queue]. rewrite Hwait, Hqn. destruct (stopped_of s); reflexivity.
  - cbn [LocalModel.l_step]. change (lc_kbd (abs s q)) with (y_kbd s). unfold y_worker in Q1. rewrite pc_nth, Ht1 in Q1. cbn [option_map] in Q1.
    assert (Hu1 : th_pc t1 = PUser). { destruct (Hquiet 1 t1 Ht1) as [Hx|((c' & Hx) & _)]; [exact Hx|]. destruct T1 as (_ & T1). rewrite Hx in T1. destruct T1. }
    rewrite Hu1 in Q1. destruct (k_w (y_kbd s)) eqn:Ew; try (destruct (k_step sgn WGo (y_kbd s)); [discriminate|reflexivity]).
    unfold in_sched in Q1. cbn [y_add_name y_sched sched_step] in Q1. rewrite Ht1, Hu1 in Q1. discriminate.
Qed.
Lemma y_typed l s ts : yreaches l s -> (forall i, ~ In (YCall i YStop) l) -> ~ In YDestroy l -> yundisturbed l -> y_thrown s = [] -> ysettled E sgn fuel tty color s ->
  Forall plain_key ts -> ytyped l = flat_map linux_bytes ts ->
  exists p0, opened_alone E tty color w = Some p0 /\ pressed_alone E fuel tty color (map key_of ts) p0 = Some (y_proc s).
Proof.
  intros H Hns Hnd (U1 & U2 & U3) Hth Hset Hts Hty. destruct (y_rest l s H Hns Hnd Hth Hset) as (L & q & (H1 & _ & H3 & _ & Hde & Hkb) & Hst & Hs).
  refine (local_typed E sgn fuel tty color m junk w L (abs s q) ts H1 Hst _ _ Hth Hs Hts _).
  - intros Hi. exact (Hnd (Hde Hi)).
  - split; [|split]; intros Hi; destruct (Hkb _ Hi) as [Hx|Hx]; try discriminate; [exact (U1 Hx)|exact (U2 Hx)|exact (U3 Hx)].
  - rewrite H3. exact Hty.
Qed.
Lemma y_proc_step a s s' : wf s -> y_step a s = YOk s' -> y_proc s' <> y_proc s -> a = YMain /\ exists t, nth_error (s_thr (y_sched s)) 0 = Some t /\ th_pc t = PUser /\ y_session E sgn fuel tty color s = YOk s'.
Proof.
  intros Hwf Hs Hp.
  assert (Hin : forall b s1, y_proc s1 = y_proc s -> in_sched b s1 = YOk s' -> False) by (intros b s1 H1 H; apply in_sched_inv in H as (c & _ & ->); exact (Hp H1)).
  assert (Hkb : forall x, match k_step sgn x (y_kbd s) with Some b => YOk (y_set_kbd b s) | None => YNone end = YOk s' -> False) by (intros x H; destruct (k_step sgn x (y_kbd s)); [injection H as <-; exact (Hp eq_refl)|discriminate]).
  destruct a as [| |x|i|i|i c| | |]; cbn [SystemModel.y_step] in Hs.
  - split; [reflexivity|]. destruct (wf_0 _ Hwf) as (t0 & H0 & _). exists t0. split; [exact H0|]. unfold y_main in Hs. rewrite pc_nth, H0 in Hs. cbn [option_map] in Hs.
    destruct (th_pc t0); try (exfalso; refine (Hin _ _ _ Hs); destruct (begins _ s); reflexivity). split; [reflexivity|exact Hs].
  - exfalso. unfold y_worker in Hs. destruct (k_w (y_kbd s)); try exact (Hkb _ Hs). destruct (pc_of 1 s) as [[]|]; try (refine (Hin _ _ _ Hs); reflexivity); [|exact (Hkb _ Hs)].
    destruct (k_step sgn WGo (y_kbd s)); [|discriminate]. refine (Hin _ _ _ Hs). reflexivity.
  - exfalso. destruct x; try discriminate; exact (Hkb _ Hs).
  - exfalso. destruct i as [|[|i]]; try discriminate. refine (Hin _ _ _ Hs). reflexivity.
  - exfalso. refine (Hin _ _ _ Hs). reflexivity.
  - exfalso. assert (Hc : y_call i c s = YOk s') by (destruct i as [|[|i]]; try discriminate; destruct (executes c && negb _); try discriminate; exact Hs).
    destruct c; cbn [y_call] in Hc; try (destruct (outside s); [|discriminate]); refine (Hin _ _ _ Hc); reflexivity.
  - exfalso. destruct (outside s); [|discriminate]. refine (Hin _ _ _ Hs). reflexivity.
  - exfalso. destruct (outside s); [|discriminate]. refine (Hin _ _ _ Hs). reflexivity.
  - exfalso. destruct (y_life s), (y_key s), (pc_of 0 s) as [[]|]; try discriminate. apply call_inv in Hs as (b & _ & ->). exact (Hp eq_refl).
Qed.
Lemma y_input l s : yreaches l s -> ymode_untouched l ->
  (forall a s', y_step a s = YOk s' -> ycalled s' <> ycalled s -> k_enabled (y_kbd s) = false /\ k_tty (y_kbd s) = m) /\
  (y_life s = SLive -> y_key s = None -> y_thrown s = [] -> k_enabled (y_kbd s) = true /\ k_tty (y_kbd s) = mkMode false false (md_rest m)) /\
  (y_life s = SOver -> k_tty (y_kbd s) = m).
Proof.
  intros H Hm. destruct (reach_sim l s H) as (Hwf & L & q & H1 & Hq & _ & _ & _ & Hkb).
  assert (HL : mode_untouched L) by (intros x Hi; destruct (Hkb _ Hi) as [Hx|Hx]; [exact (Hm x Hx)|discriminate]).
  destruct (local_modes E sgn fuel tty color m junk w L _ H1 HL) as (M1 & M2 & M3). split; [|split].
  - intros a s' Hs Hc. assert (Hp : y_proc s' <> y_proc s) by (intros Hp; apply Hc; unfold ycalled; rewrite Hp; reflexivity).
    destruct (y_proc_step a s s' Hwf Hs Hp) as (-> & t & H0 & Hu & Hse). destruct (session_sim E sgn fuel tty color s q t Hwf H0 Hu Hq s' Hse) as (_ & _ & _ & L1 & Hr & HL1).
    destruct HL1 as [(-> & _)|HL1].
    + exfalso. cbn [LocalModel.l_run] in Hr. assert (Hx : abs s q = abs s' q) by congruence. apply Hp. exact (eq_sym (f_equal lc_proc Hx)).
    + destruct (l_step LMain (abs s q)) as [b| | | |] eqn:Hb; try (exfalso; destruct HL1 as [->|(-> & _)]; cbn [LocalModel.l_run] in Hr; rewrite Hb in Hr; discriminate).
      apply (M1 b eq_refl). assert (Hx : lc_proc b = y_proc s'). { destruct HL1 as [->|(-> & _)]; cbn [LocalModel.l_run] in Hr; rewrite Hb in Hr; [|cbn [LocalModel.l_step] in Hr];
        apply (f_equal (fun r => match r with LcOk x => Some (lc_proc x) | _ => None end)) in Hr; cbn [set_stopped abs lc_proc] in Hr; congruence. }
      unfold called, ycalled in *. rewrite Hx. exact Hc.
  - intros Hl Hk Ht. apply M2; [|exact Ht]. change (lc_main (abs s q)) with (main_of s). unfold main_of. rewrite Hl, Hk. reflexivity.
  - intros Hl. apply M3. change (lc_main (abs s q)) with (main_of s). unfold main_of. rewrite Hl. reflexivity.
Qed.
End Runs.
