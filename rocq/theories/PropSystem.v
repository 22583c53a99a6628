(** * Property C85: a local session on LoopScheduler *)

From Coq Require Import List Ascii Arith Lia.
Import ListNotations.
From Verif Require Import Base FromStringModel HistoryModel StorageModel TerminalModel TelnetSpec MenuModel SessionModel ProcessorModel KeyboardModel KeyboardSpec SchedulerModel SchedulerSpec LocalModel LocalSpec SystemModel SystemSpec KeyboardProofs LocalProofs SystemProofs Demo PropKeyboard PropLocal.
Open Scope nat_scope.
Open Scope list_scope.

(** Every interleaving with the scheduler's own steps, other threads, other tasks and spurious
    wake-ups is one of the session and the keyboard with an abstract queue (C67). *)
Theorem C85_refines : forall E sgn fuel tty color n m junk w l s, yreaches E sgn fuel tty color n m junk w l s ->
  exists L a, lreaches E sgn fuel tty color m junk w L a /\ ltyped L = ytyped l /\ lc_kbd a = y_kbd s /\ lc_proc a = y_proc s /\ lc_done a = y_done s /\ lc_thrown a = y_thrown s.
Proof. exact y_refines. Qed.
Print Assumptions C85_refines.

(** Every key the keyboard found, or is posting, is handled, being handled, taken from the scheduler's
    queue, or in it: once, and in the order of finding. *)
Theorem C85_order : forall E sgn fuel tty color n m junk w l s, yreaches E sgn fuel tty color n m junk w l s ->
  y_done s ++ running_key s ++ waiting s ++ keys_of (y_names s) (s_tasks (y_sched s)) = k_keys (y_kbd s) ++ pending s.
Proof. exact y_order. Qed.
Print Assumptions C85_order.

(** The session is in the state the handled keys lead to without threads. *)
Theorem C85_state : forall E sgn fuel tty color n m junk w l s, yreaches E sgn fuel tty color n m junk w l s -> y_life s = SLive ->
  exists p0, opened_alone E tty color w = Some p0 /\ pressed_alone E fuel tty color (y_done s) p0 = Some (y_proc s).
Proof. exact y_state. Qed.
Print Assumptions C85_state.

(** When no thread can make a step in the library while thread 0 runs the scheduler, the
    session is in the state the typed keys lead to. *)
Theorem C85_typed : forall E sgn fuel tty color n m junk w l s ts, yreaches E sgn fuel tty color n m junk w l s ->
  (forall i, ~ In (YCall i YStop) l) -> ~ In YDestroy l -> yundisturbed l -> y_thrown s = [] -> ysettled E sgn fuel tty color s ->
  Forall plain_key ts -> ytyped l = flat_map linux_bytes ts ->
  exists p0, opened_alone E tty color w = Some p0 /\ pressed_alone E fuel tty color (map key_of ts) p0 = Some (y_proc s).
Proof. exact y_typed. Qed.
Print Assumptions C85_typed.
(** That is so after finitely many steps, if user code does nothing. *)
Theorem C85_finite : forall E sgn fuel tty color n m junk w l s, yreaches E sgn fuel tty color n m junk w l s -> k_eof (y_kbd s) = false ->
  exists bound, forall l' s', Forall lib_step l' -> y_run E sgn fuel tty color l' s = YOk s' -> length l' <= bound.
Proof. exact y_finite. Qed.
Print Assumptions C85_finite.

(** Once the scheduler is stopped, no key is handled but those taken from the queue before. *)
Theorem C85_stop : forall E sgn fuel tty color n m junk w l s l' s', yreaches E sgn fuel tty color n m junk w l s -> s_running (y_sched s) = false ->
  y_run E sgn fuel tty color l' s = YOk s' -> y_done s' ++ running_key s' ++ waiting s' = y_done s ++ running_key s ++ waiting s.
Proof. exact y_stop. Qed.
Print Assumptions C85_stop.

(** A session is used after its end only if it was destroyed or its constructor threw; *)
Theorem C85_gone : forall E sgn fuel tty color n m junk w l s a, yreaches E sgn fuel tty color n m junk w l s -> y_step E sgn fuel tty color a s = YGone ->
  In YDestroy l \/ opened_alone E tty color w = None.
Proof. exact y_gone. Qed.
Print Assumptions C85_gone.
(** not if the scheduler was stopped when it was destroyed. *)
Theorem C85_stopped_first : forall E sgn fuel tty color n m junk w l1 s1 l2 s2 a, yreaches E sgn fuel tty color n m junk w l1 s1 -> s_running (y_sched s1) = false ->
  y_run E sgn fuel tty color (YDestroy :: l2) s1 = YOk s2 -> y_step E sgn fuel tty color a s2 <> YGone.
Proof. exact y_stopped_first. Qed.
Print Assumptions C85_stopped_first.

(** Threads and scheduler add no undefined behaviour. *)
Theorem C85_ub : forall E sgn fuel tty color n m junk w l s a, yreaches E sgn fuel tty color n m junk w l s -> y_step E sgn fuel tty color a s = YUB ->
  open_local E tty (fst (color (w_trace w))) w = PUB \/
  exists p0 ks p k, opened_alone E tty color w = Some p0 /\ pressed_alone E fuel tty color ks p0 = Some p /\
    press E fuel tty (let (c1, c2) := color (w_trace (p_world p)) in mkStroke k c1 c2) p = PUB.
Proof.
  intros E sgn fuel tty color n m junk w l s a H Hs. destruct (y_ub E sgn fuel tty color n m junk w l s a H Hs) as [H1|(p0 & k & H1 & H2 & H3)]; [left; exact H1|right].
  exists p0, (y_done s), (y_proc s), k. split; [exact H1|]. split; [exact H2|exact H3].
Qed.
Print Assumptions C85_ub.

(** Commands run while input is not active and the terminal is in its original mode, whoever
    makes a step; while thread 0 is not in a key's task, tasks of the application included, the terminal
    is in the mode without echo. *)
Theorem C85_input : forall E sgn fuel tty color n m junk w l s, yreaches E sgn fuel tty color n m junk w l s -> ymode_untouched l ->
  (forall a s', y_step E sgn fuel tty color a s = YOk s' -> ycalled s' <> ycalled s -> k_enabled (y_kbd s) = false /\ k_tty (y_kbd s) = m) /\
  (y_life s = SLive -> y_key s = None -> y_thrown s = [] -> k_enabled (y_kbd s) = true /\ k_tty (y_kbd s) = mkMode false false (md_rest m)) /\
  (y_life s = SOver -> k_tty (y_kbd s) = m).
Proof. exact y_input. Qed.
Print Assumptions C85_input.

(** Steps of the library, thread 0 first, until there is none *)
Fixpoint settle (fuel : nat) (s : sys) : list yact :=
  match fuel with
  | 0 => []
  | S fuel' =>
      let step a := y_step quiet_env true 10 true no_color a s in
      match step YMain with
      | YOk s' => YMain :: settle fuel' s'
      | _ => match step YWorker with
             | YOk s' => YWorker :: settle fuel' s'
             | _ => match step (YGo 2) with YOk s' => YGo 2 :: settle fuel' s' | _ => [] end
             end
      end
  end.
Fixpoint settling (ls : list (list yact)) (s : sys) : list yact :=
  match ls with
  | [] => []
  | l :: ls' =>
      match y_run quiet_env true 10 true no_color l s with
      | YOk s1 => let l1 := settle 1000 s1 in
                  l ++ l1 ++ match y_run quiet_env true 10 true no_color l1 s1 with YOk s2 => settling ls' s2 | _ => [] end
      | _ => l
      end
  end.
Definition start : sys := sys_init 1 cooked junk0 demo_world.
Definition y_demo : list yact :=
  Eval vm_compute in settling [[]; [YCall 0 YRun]; [YKbd (Type_ (lit "add"))]; [YCall 2 (YPost true)]; [YKbd (Type_ (lit " 1 2" ++ ["010"%char]))]; [YCall 0 (YPost false)]; [YReturn]] start.
Definition is_bad (a : yact) : bool := match a with YCall _ YStop | YDestroy | YKbd (Take | Hangup | WSignal | SetMode _) => true | _ => false end.
Lemma none_bad l a : forallb (fun a => negb (is_bad a)) l = true -> is_bad a = true -> ~ In a l.
Proof. intros H Ha Hi. rewrite forallb_forall in H. specialize (H a Hi). rewrite Ha in H. discriminate. Qed.
Example C85_nonvacuous : exists s, yreaches quiet_env true 10 true no_color 1 cooked junk0 demo_world y_demo s /\
  (forall i, ~ In (YCall i YStop) y_demo) /\ ~ In YDestroy y_demo /\ yundisturbed y_demo /\ ymode_untouched y_demo /\ y_thrown s = [] /\ ysettled quiet_env true 10 true no_color s /\
  Forall plain_key demo_ts /\ ytyped y_demo = flat_map linux_bytes demo_ts /\ ycalled s = [EvCall 0 0 [VInt 1; VInt 2]] /\ length (y_names s) = 10 /\ k_eof (y_kbd s) = false.
Proof.
  assert (B : forallb (fun a => negb (is_bad a)) y_demo = true) by (vm_compute; reflexivity).
  eexists. split; [vm_compute; reflexivity|]. split; [intros i; apply none_bad; [exact B|reflexivity]|]. split; [apply none_bad; [exact B|reflexivity]|].
  split; [split; [|split]; apply none_bad; try exact B; reflexivity|]. split; [intros x; apply none_bad; [exact B|reflexivity]|]. split; [reflexivity|].
  split; [split; [|vm_compute; discriminate]; intros a Ha; destruct a as [| |x|i|i|i c| | |]; try (destruct Ha; fail); [vm_compute; reflexivity|vm_compute; reflexivity|]; destruct i as [|[|[|i]]]; try reflexivity; cbn; destruct i; reflexivity|].
  split; [unfold demo_ts; repeat (constructor; [split; [vm_compute; intuition discriminate|discriminate]|]); constructor; [exact Logic.I|constructor]|].
  split; [vm_compute; reflexivity|]. split; [vm_compute; reflexivity|]. split; reflexivity.
Qed.
Print Assumptions C85_nonvacuous.

(** Steps [a] until [p] *)
Fixpoint go_until (fuel : nat) (a : yact) (p : sys -> bool) (s : sys) : list yact :=
  match fuel with
  | 0 => []
  | S fuel' => if p s then [] else match y_step quiet_env true 10 true no_color a s with YOk s' => a :: go_until fuel' a p s' | _ => [] end
  end.
Definition after (l : list yact) (f : sys -> list yact) : list yact :=
  match y_run quiet_env true 10 true no_color l start with YOk s => l ++ f s | _ => [] end.
Definition opened_run : list yact := settling [[]; [YCall 0 YRun]; [YKbd (Type_ (lit "ab"))]] start.
Definition has_taken (s : sys) : bool := match waiting s with [] => false | _ => true end.
Definition has_posted (s : sys) : bool := match k_keys (y_kbd s) with [_; _; _] => true | _ => false end.
Definition in_user_2 (s : sys) : bool := match pc_of 2 s with Some PUser => true | _ => false end.
Definition stop_by_2 (s : sys) : list yact :=
  match y_run quiet_env true 10 true no_color [YCall 2 YStop] s with YOk s' => YCall 2 YStop :: go_until 10 (YGo 2) in_user_2 s' | _ => [] end.
(** Two keys are handled, a third is taken by thread 0, then thread 2 stops the scheduler. *)
Definition taken_run : list yact :=
  Eval vm_compute in after (after (after (after opened_run (fun _ => [YKbd (Type_ (lit "c"))])) (go_until 100 YWorker has_posted)) (go_until 100 YMain has_taken)) (go_until 2 YMain (fun _ => false)).
Definition stopping : list yact := Eval vm_compute in after taken_run stop_by_2.
(** A key is handled after [Stop] has returned. *)
Theorem C85_after_stop_refuted : exists l s l' s', yreaches quiet_env true 10 true no_color 1 cooked junk0 demo_world l s /\ s_running (y_sched s) = false /\ pc_of 2 s = Some PUser /\
  y_run quiet_env true 10 true no_color l' s = YOk s' /\ running_key s = [] /\ y_done s' = y_done s ++ [KAscii "c"%char].
Proof. exists stopping. eexists. exists (repeat YMain 3). eexists. split; [vm_compute; reflexivity|]. split; [reflexivity|]. split; [reflexivity|]. split; [vm_compute; reflexivity|]. split; reflexivity. Qed.
Print Assumptions C85_after_stop_refuted.

(** A key is posted, the session destroyed by thread 0, which then runs the scheduler: that it is
    stopped by then does not help. *)
Definition is_over (s : sys) : bool := match y_life s with SOver => true | _ => false end.
Definition out_of_run (s : sys) : bool := match pc_of 0 s with Some PUser => true | _ => false end.
Definition destroyed_run : list yact :=
  Eval vm_compute in after (after (after (after (after (after (after (after (settling [[]] start) (fun s => [YKbd (Type_ (lit "c"))])) (go_until 100 YWorker (fun s => match k_keys (y_kbd s) with [_] => true | _ => false end)))
    (fun _ => [YDestroy])) (fun s => settle 20 s)) (fun _ => [YCall 0 YRun])) (go_until 100 YMain has_taken)) (go_until 1 YMain (fun _ => false))) stop_by_2.
Theorem C85_stop_late_refuted : exists l s l' s', yreaches quiet_env true 10 true no_color 1 cooked junk0 demo_world l s /\ s_running (y_sched s) = false /\ pc_of 2 s = Some PUser /\
  y_run quiet_env true 10 true no_color l' s = YOk s' /\ y_step quiet_env true 10 true no_color YMain s' = YGone.
Proof. exists destroyed_run. eexists. exists (repeat YMain 1). eexists. split; [vm_compute; reflexivity|]. split; [reflexivity|]. split; [reflexivity|]. split; [vm_compute; reflexivity|]. vm_compute. reflexivity. Qed.
Print Assumptions C85_stop_late_refuted.
(** The scheduler is stopped, thread 0 leaves [Run] and destroys the session, with a key in the queue. *)
Definition clean_run : list yact :=
  Eval vm_compute in after (after (after (after opened_run (fun _ => [YKbd (Type_ (lit "c"))])) (fun s => stop_by_2 s)) (go_until 100 YMain out_of_run)) (go_until 100 YWorker has_posted).
Definition clean_end : list yact :=
  Eval vm_compute in tl (match y_run quiet_env true 10 true no_color clean_run start with YOk s => settling [[YDestroy]; [YCall 0 YRun]] s | _ => [] end).
Example C85_stopped_first_nonvacuous : exists s1 s2, yreaches quiet_env true 10 true no_color 1 cooked junk0 demo_world clean_run s1 /\ s_running (y_sched s1) = false /\
  y_run quiet_env true 10 true no_color (YDestroy :: clean_end) s1 = YOk s2 /\ y_life s2 = SOver /\ keys_of (y_names s2) (s_tasks (y_sched s2)) = [KAscii "c"%char] /\ y_done s2 = [KAscii "a"%char; KAscii "b"%char].
Proof.
  eexists _, _. split; [vm_compute; reflexivity|]. split; [reflexivity|]. split; [vm_compute; reflexivity|]. split; [reflexivity|]. split; reflexivity.
Qed.
(** The number of steps before the first command *)
Fixpoint before_call (l : list yact) (s : sys) : nat :=
  match l with
  | [] => 0
  | a :: l' => match y_step quiet_env true 10 true no_color a s with YOk s' => match ycalled s' with [] => S (before_call l' s') | _ => 0 end | _ => 0 end
  end.
Definition until_call : nat := Eval vm_compute in before_call y_demo start.
Example C85_input_nonvacuous : exists s s', yreaches quiet_env true 10 true no_color 1 cooked junk0 demo_world (firstn until_call y_demo) s /\ ymode_untouched (firstn until_call y_demo) /\
  y_step quiet_env true 10 true no_color YMain s = YOk s' /\ ycalled s = [] /\ ycalled s' = [EvCall 0 0 [VInt 1; VInt 2]].
Proof.
  eexists _, _. split; [vm_compute; reflexivity|]. split; [intros x; apply none_bad; [vm_compute; reflexivity|reflexivity]|]. split; [vm_compute; reflexivity|]. split; vm_compute; reflexivity.
Qed.
