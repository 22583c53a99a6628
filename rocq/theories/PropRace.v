(** * C83 and C84: data races *)

From Verif Require Import Base FromStringModel HistoryModel StorageModel TerminalModel TelnetSpec MenuModel SessionModel ProcessorModel KeyboardModel SchedulerModel LocalModel
  SchedulerSpec KeyboardSpec LocalSpec RaceSpec RaceModel RaceProofs RaceEndProofs Demo PropKeyboard PropLocal.
Open Scope nat_scope.
Open Scope list_scope.

(** C83: no two threads race for a member of the scheduler, *)
Theorem C83_members : forall n l s t x, race_run l (sched_init n, []) = Some (s, t) -> x = XTasks \/ x = XRunning -> ~ race_on t x.
Proof. exact sched_race_free. Qed.
Print Assumptions C83_members.
(** and all that a thread did before posting a task happens before all that the task does: the start
    of a task is preceded, in its thread, by taking it out of the queue, with no other task between,
    and this by putting it in. *)
Theorem C83_publish : forall n l s t b i j, race_run l (sched_init n, []) = Some (s, t) -> nth_error t b = Some (mkEv i (OBegin j)) ->
  exists k a p q, nth_error t p = Some (mkEv a (OSend k j)) /\ nth_error t q = Some (mkEv i (OTake k j)) /\ p < q /\ q < b /\
    (forall r e, q < r -> r < b -> nth_error t r = Some e -> e_thr e = i -> match e_op e with OTake _ _ | OBegin _ => False | _ => True end) /\
    forall u x v y, nth_error t u = Some x -> e_thr x = a -> u <= p -> nth_error t v = Some y -> e_thr y = i -> q <= v -> hb t u v.
Proof. exact publish. Qed.
Print Assumptions C83_publish.
(** The [k]th task taken is the [k]th posted, each once. *)
Theorem C83_numbers : forall n l s t, race_run l (sched_init n, []) = Some (s, t) ->
  (forall p q a i k j j', nth_error t p = Some (mkEv a (OSend k j)) -> nth_error t q = Some (mkEv i (OTake k j')) -> hb t p q /\ j' = j) /\
  (forall p q a i k j j', nth_error t p = Some (mkEv a (OSend k j)) -> nth_error t q = Some (mkEv i (OSend k j')) -> p = q) /\
  (forall p q a i k j j', nth_error t p = Some (mkEv a (OTake k j)) -> nth_error t q = Some (mkEv i (OTake k j')) -> p = q).
Proof.
  intros n l s t H. split; [intros p q a i k j j'; exact (send_take n l s t p q a i k j j' H)|]. destruct (reach_all_ok n l s t H) as (_ & K).
  split; [exact (k_once s t K)|exact (k_twice s t K)].
Qed.
Print Assumptions C83_numbers.
(** Every execution of the scheduler is meant. *)
Theorem C83_traced : forall n l s, sched_run l (sched_init n) = Some s -> exists t, race_run (map RSched l) (sched_init n, []) = Some (s, t).
Proof. intros n l s. exact (sched_traced l (sched_init n) s []). Qed.
Print Assumptions C83_traced.

(** Thread 0 writes a variable and posts a task, which thread 1 runs and which reads it. *)
Definition told : list ract :=
  RUser 0 7 true :: map RSched ([ACall 0 (CPost (mkJob 1 true))] ++ repeat (AGo 0) 4 ++ [ACall 1 CRun] ++ repeat (AGo 1) 4) ++ [RUser 1 7 false].
Example C83_nonvacuous : exists s, race_run told (sched_init 2, []) = Some (s,
  by_ 0 [OWrite (XUser 7); OAcq SchedM; OWrite XTasks; OSend 0 (mkJob 1 true); ORel SchedM] ++
  by_ 1 [OAcq SchedM; ORead XRunning; ORead XTasks; ORead XRunning; ORead XTasks; OWrite XTasks; OTake 0 (mkJob 1 true); ORel SchedM; OBegin (mkJob 1 true); ORead (XUser 7)]).
Proof. eexists. vm_compute. reflexivity. Qed.
Print Assumptions C83_nonvacuous.

(** Tasks run by different threads are not ordered, though posted one after the other by one thread. *)
Definition two_runners : list ract :=
  map RSched ([ACall 0 (CPost (mkJob 1 true))] ++ repeat (AGo 0) 4 ++ [ACall 0 (CPost (mkJob 2 true))] ++ repeat (AGo 0) 4 ++ [ACall 1 CRun] ++ repeat (AGo 1) 4) ++
  [RUser 1 7 true; RSched (ACall 2 CRun)] ++ map RSched (repeat (AGo 2) 4) ++ [RUser 2 7 true].
Theorem C83_tasks_refuted : exists l s t, race_run l (sched_init 3, []) = Some (s, t) /\ map fst (s_posted s) = [0; 0] /\
  (forall i x w, In (RUser i x w) l -> exists th, nth_error (s_thr s) i = Some th /\ th_frames th <> []) /\ race_on t (XUser 7).
Proof.
  exists two_runners. eexists _, _. split; [vm_compute; reflexivity|]. split; [reflexivity|]. split.
  - intros i x w H. assert (Hi : i = 1 \/ i = 2) by (vm_compute in H; repeat (destruct H as [H|H]; [first [discriminate H|injection H; auto]|]); contradiction).
    destruct Hi as [-> | ->]; (eexists; split; [reflexivity|discriminate]).
  - exists 17, 27. eexists _, _. split; [reflexivity|]. split; [reflexivity|]. split; [discriminate|]. split; [right; left; reflexivity|]. split; [right; left; reflexivity|]. split; [left; left; reflexivity|].
    split; apply no_hb; vm_compute; reflexivity.
Qed.
Print Assumptions C83_tasks_refuted.

(** C84: no two threads race for anything in a local session whose thread runs the scheduler: the
    thread, that of the keyboard and those that call [Stop]. *)
Theorem C84_session : forall E sgn fuel tty color m junk w l s t x,
  racel_run E sgn fuel tty color l (racel_init m junk w) = Some (s, t) -> ~ race_on t x.
Proof. exact session_race_free. Qed.
Print Assumptions C84_session.
(** Every execution of such a session is meant. *)
Theorem C84_traced : forall E sgn fuel tty color m junk w l s, lreaches E sgn fuel tty color m junk w l s ->
  exists t, racel_run E sgn fuel tty color (map (fun a => match a with LStop => RStop 2 | _ => RStep a end) l) (racel_init m junk w) = Some (s, t).
Proof. intros E sgn fuel tty color m junk w l s. exact (local_traced E sgn fuel tty color l (local_init m junk w) s ctor_events). Qed.
Print Assumptions C84_traced.

(** When the session is over, the life of each member of it and of its keyboard was ended by thread 0,
    once, and whatever any thread did with the member happened before. *)
Theorem C84_freed : forall E sgn fuel tty color m junk w l s t,
  racel_run E sgn fuel tty color l (racel_init m junk w) = Some (s, t) -> lc_main s = LOver ->
  forall x, In x [XEnabled; XOldt; XNewt; XShutdown; XReadPipe; XHandler; XSession] ->
  exists p, nth_error t p = Some (mkEv 0 (OFree x)) /\ forall q e, nth_error t q = Some e -> uses x e -> q <> p -> hb t q p.
Proof. exact freed_last. Qed.
Print Assumptions C84_freed.
(** The queue was changed by the keyboard's thread once for each key posted, and by thread 0 once for
    each taken out. *)
Theorem C84_queue : forall E sgn fuel tty color m junk w l s t,
  racel_run E sgn fuel tty color l (racel_init m junk w) = Some (s, t) ->
  length (filter (fun e => Nat.eqb (e_thr e) 1 && match e_op e with OWrite XTasks => true | _ => false end) t) =
  length (filter (fun e => Nat.eqb (e_thr e) 0 && match e_op e with OWrite XTasks => true | _ => false end) t) + length (lc_queue s).
Proof. exact queue_writes. Qed.
Print Assumptions C84_queue.

(** A session from its constructor to its destructor, with a command, stopped by thread 2. *)
Definition whole_life : list rlact :=
  map RStep demo_run ++ [RWait; RStop 2] ++ map RStep ([LDestroy] ++ repeat LMain 3 ++ [LKbd WGo; LMain; LMain]).
Example C84_nonvacuous : exists s t, racel_run quiet_env true 10 true no_color whole_life (racel_init cooked junk0 demo_world) = Some (s, t) /\ lc_main s = LOver /\
  In (mkEv 1 (ORead XEnabled)) t /\ In (mkEv 0 (OWrite XEnabled)) t /\ In (mkEv 0 (OFree XEnabled)) t /\ In (mkEv 1 (ORead XReadPipe)) t /\ In (mkEv 0 (OFree XReadPipe)) t /\
  In (mkEv 1 (OWrite XTasks)) t /\ In (mkEv 0 (OWrite XTasks)) t /\ In (mkEv 2 (OWrite XRunning)) t /\ In (mkEv 0 (ORead XRunning)) t.
Proof. eexists _, _. split; [vm_compute; reflexivity|]. split; [reflexivity|]. repeat split; cbn [In]; auto 400. Qed.
Print Assumptions C84_nonvacuous.

(** If another thread runs the scheduler already when the session is constructed, a key typed early
    makes them race, for the handler and for the session. *)
Definition early : list oact :=
  repeat OOwner 6 ++ [OKbd WGo; OKbd WGo; OKbd WGo; OKbd (Type_ (lit "a")); OKbd WGo; OKbd WGo; OKbd WGo; OOwner; ORunner; OOwner].
Theorem C84_elsewhere_refuted : exists l s t, other_run true l (other_init cooked junk0) = Some (s, t) /\ race_on t XHandler /\ race_on t XSession.
Proof.
  exists early. eexists _, _. split; [vm_compute; reflexivity|]. split.
  - exists 20, 28. eexists _, _. split; [reflexivity|]. split; [reflexivity|]. split; [discriminate|]. split; [right; left; reflexivity|]. split; [left; reflexivity|]. split; [left; left; reflexivity|].
    split; apply no_hb; vm_compute; reflexivity.
  - exists 29, 30. eexists _, _. split; [reflexivity|]. split; [reflexivity|]. split; [discriminate|]. split; [right; left; reflexivity|]. split; [right; left; reflexivity|]. split; [left; left; reflexivity|].
    split; apply no_hb; vm_compute; reflexivity.
Qed.
Print Assumptions C84_elsewhere_refuted.
