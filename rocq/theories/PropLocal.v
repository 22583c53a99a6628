(** * Property C67: a local session *)

From Coq Require Import List Ascii Arith Lia.
Import ListNotations.
From Verif Require Import Base FromStringModel HistoryModel StorageModel TerminalModel TelnetSpec MenuModel SessionModel ProcessorModel KeyboardModel KeyboardSpec LocalModel LocalSpec KeyboardProofs LocalProofs Demo PropKeyboard.
Open Scope nat_scope.
Open Scope list_scope.

(** Every key the keyboard found is handled once, in the order of finding: those handled,
    the one being handled, and those waiting, are all. *)
Theorem C67_order : forall E sgn fuel tty color m junk w l s, lreaches E sgn fuel tty color m junk w l s ->
  lc_done s ++ taken s ++ lc_queue s = k_keys (lc_kbd s).
Proof. intros E sgn fuel tty color m junk w l s H. destruct (reach_local E sgn fuel tty color m junk w l s H) as (kl & _ & _ & H3 & _). exact H3. Qed.
Print Assumptions C67_order.

(** The session is in the state the same keys would lead to without threads. *)
Theorem C67_state : forall E sgn fuel tty color m junk w l s, lreaches E sgn fuel tty color m junk w l s ->
  match lc_main s with LTask | LDeact _ | LAct => True | _ => False end ->
  exists p0, opened_alone E tty color w = Some p0 /\ pressed_alone E fuel tty color (lc_done s) p0 = Some (lc_proc s).
Proof.
  intros E sgn fuel tty color m junk w l s H Hm. destruct (reach_local E sgn fuel tty color m junk w l s H) as (kl & _ & _ & _ & _ & _ & H6). destruct (lc_main s); try (destruct Hm; fail); exact H6.
Qed.
Print Assumptions C67_state.

(** When the threads have nothing to do, the session is in the state the typed keys lead
    to, whatever the interleaving and however the bytes arrived. *)
Theorem C67_typed : forall E sgn fuel tty color m junk w l s ts, lreaches E sgn fuel tty color m junk w l s ->
  ~ In LStop l -> ~ In LDestroy l -> undisturbed l -> lc_thrown s = [] -> settled E sgn fuel tty color s ->
  Forall plain_key ts -> ltyped l = flat_map linux_bytes ts ->
  exists p0, opened_alone E tty color w = Some p0 /\ pressed_alone E fuel tty color (map key_of ts) p0 = Some (lc_proc s).
Proof. exact local_typed. Qed.
Print Assumptions C67_typed.

(** The threads have nothing to do after a bounded number of steps, if nobody types. *)
Theorem C67_finite : forall E sgn fuel tty color s, k_eof (lc_kbd s) = false ->
  exists n, forall l s', Forall own_step l -> l_run E sgn fuel tty color l s = LcOk s' -> length l <= n.
Proof. intros E sgn fuel tty color s He. exists (l_measure s). intros l s' Hf Hr. exact (own_bounded E sgn fuel tty color l s s' He Hf Hr). Qed.
Print Assumptions C67_finite.

(** A session is used after its end only if it was destroyed, or its constructor threw,
    and the scheduler runs on without having been stopped. *)
Theorem C67_gone : forall E sgn fuel tty color m junk w l a s, lreaches E sgn fuel tty color m junk w l s ->
  l_step E sgn fuel tty color a s = LcGone -> (In LDestroy l \/ opened_alone E tty color w = None) /\ ~ In LStop l.
Proof.
  intros E sgn fuel tty color m junk w l a s H Hs. destruct (step_gone E sgn fuel tty color m junk w l a s H Hs) as (H1 & H2). split; [exact H1|]. intros Hi. apply in_split in Hi as (l1 & l2 & ->).
  rewrite (stop_in E sgn fuel tty color m junk w l1 l2 s H) in H2. discriminate.
Qed.
Print Assumptions C67_gone.

(** Threads and scheduler add no other undefined behaviour: opening the session, or a key
    pressed in a state the session reaches alone, has it too. *)
Theorem C67_ub : forall E sgn fuel tty color m junk w l a s, lreaches E sgn fuel tty color m junk w l s ->
  l_step E sgn fuel tty color a s = LcUB ->
  open_local E tty (fst (color (w_trace w))) w = PUB \/
  exists p0 ks p k, opened_alone E tty color w = Some p0 /\ pressed_alone E fuel tty color ks p0 = Some p /\
    press E fuel tty (let (c1, c2) := color (w_trace (p_world p)) in mkStroke k c1 c2) p = PUB.
Proof.
  intros E sgn fuel tty color m junk w l a s H Hs. destruct (step_ub E sgn fuel tty color m junk w l a s H Hs) as [H1|(p0 & k & H1 & H2 & H3)]; [left; exact H1|right].
  exists p0, (lc_done s), (lc_proc s), k. split; [exact H1|]. split; [exact H2|exact H3].
Qed.
Print Assumptions C67_ub.

(** Commands run while input is not active and the terminal is in its original mode;
    between keys it is in the mode without echo; at the end the mode is the original. *)
Theorem C67_input : forall E sgn fuel tty color m junk w l s, lreaches E sgn fuel tty color m junk w l s -> mode_untouched l ->
  (forall s', l_step E sgn fuel tty color LMain s = LcOk s' -> called s' <> called s -> k_enabled (lc_kbd s) = false /\ k_tty (lc_kbd s) = m) /\
  (lc_main s = LTask -> lc_thrown s = [] -> k_enabled (lc_kbd s) = true /\ k_tty (lc_kbd s) = mkMode false false (md_rest m)) /\
  (lc_main s = LOver -> k_tty (lc_kbd s) = m).
Proof. exact local_modes. Qed.
Print Assumptions C67_input.
(** Input is deactivated for lines only. *)
Theorem C67_lines : forall E sgn fuel tty color m junk w l s k, lreaches E sgn fuel tty color m junk w l s -> lc_main s = LDeact k -> k = KRet.
Proof. exact local_lines. Qed.
Print Assumptions C67_lines.

(** A session is opened, and "add 1 2" typed in two parts. *)
Definition no_color (tr : list event) : bool * bool := (false, false).
Definition opening : list lact := repeat (LKbd WGo) 2 ++ repeat LMain 4 ++ [LKbd WSpurious] ++ repeat LMain 3 ++ repeat (LKbd WGo) 3.
Definition keys_typed (n : nat) : list lact := repeat (LKbd WGo) (6 * n).
Definition demo_run : list lact :=
  opening ++ [LKbd (Type_ (lit "add"))] ++ keys_typed 3 ++ [LMain; LMain; LKbd (Type_ (lit " 1 2" ++ ["010"%char]))] ++ keys_typed 5 ++ repeat LMain 18.
Definition demo_ts : list typed := map TyChar (lit "add 1 2") ++ [TyEnter true].
Example C67_nonvacuous : exists s, lreaches quiet_env true 10 true no_color cooked junk0 demo_world demo_run s /\
  ~ In LStop demo_run /\ ~ In LDestroy demo_run /\ undisturbed demo_run /\ lc_thrown s = [] /\ settled quiet_env true 10 true no_color s /\
  Forall plain_key demo_ts /\ ltyped demo_run = flat_map linux_bytes demo_ts /\ In (EvCall 0 0 [VInt 1; VInt 2]) (w_trace (p_world (lc_proc s))).
Proof.
  assert (D : forall a, existsb (fun b => match a, b with LStop, LStop | LDestroy, LDestroy | LKbd Take, LKbd Take | LKbd Hangup, LKbd Hangup | LKbd WSignal, LKbd WSignal => true | _, _ => false end) demo_run = false ->
    match a with LStop | LDestroy | LKbd (Take | Hangup | WSignal) => True | _ => False end -> ~ In a demo_run).
  { intros a Hx Ha Hi. apply Bool.not_true_iff_false in Hx. apply Hx, existsb_exists. exists a. split; [exact Hi|]. destruct a as [|[]| |]; try (destruct Ha; fail); reflexivity. }
  eexists. split; [vm_compute; reflexivity|]. split; [apply D; [reflexivity|exact Logic.I]|]. split; [apply D; [reflexivity|exact Logic.I]|].
  split; [split; [|split]; apply D; try reflexivity; exact Logic.I|]. split; [reflexivity|]. split; [split; reflexivity|].
  split; [|split; [vm_compute; reflexivity|cbn; tauto]]. unfold demo_ts. repeat (constructor; [split; [vm_compute; intuition discriminate|discriminate]|]). constructor; [exact Logic.I|constructor].
Qed.
Print Assumptions C67_nonvacuous.

Example C67_input_nonvacuous : exists n s s', lreaches quiet_env true 10 true no_color cooked junk0 demo_world (firstn n demo_run) s /\ mode_untouched (firstn n demo_run) /\
  l_step quiet_env true 10 true no_color LMain s = LcOk s' /\ lc_main s = LDeact KRet /\ called s = [] /\ called s' = [EvCall 0 0 [VInt 1; VInt 2]] /\ k_tty (lc_kbd s) = cooked /\ k_tty (lc_kbd s') = cooked.
Proof.
  exists (length demo_run - 8). eexists _, _. split; [vm_compute; reflexivity|]. split; [intros x; vm_compute; intros H; repeat (destruct H as [H|H]; [discriminate H|]); exact H|].
  split; [vm_compute; reflexivity|]. split; [reflexivity|]. split; [reflexivity|]. split; [reflexivity|]. split; reflexivity.
Qed.
(** Actions run by the end of the input (Ctrl-D) do not: input is active, without echo. *)
Definition leaving_env : env :=
  mkEnv (mkPlatform true false) (fun _ _ => None) (fun _ _ => None) demo_handler (fun _ _ _ _ => mkURes [] UReturn) (fun k => match k with KSesExit => true | _ => false end).
Theorem C67_eof_refuted : exists m junk w l s s', lreaches leaving_env true 10 true no_color m junk w l s /\ mode_untouched l /\
  l_step leaving_env true 10 true no_color LMain s = LcOk s' /\ ~ In (EvHook 0 KSesExit []) (w_trace (p_world (lc_proc s))) /\ In (EvHook 0 KSesExit []) (w_trace (p_world (lc_proc s'))) /\
  k_enabled (lc_kbd s) = true /\ k_tty (lc_kbd s) <> m.
Proof.
  exists cooked, junk0, demo_world, (opening ++ [LKbd (Type_ ["004"%char])] ++ keys_typed 1). eexists _, _. split; [vm_compute; reflexivity|].
  split; [intros x; vm_compute; intros H; repeat (destruct H as [H|H]; [discriminate H|]); exact H|]. split; [vm_compute; reflexivity|].
  split; [vm_compute; intros H; repeat (destruct H as [H|H]; [discriminate H|]); exact H|]. split; [vm_compute; intuition|]. split; [reflexivity|discriminate].
Qed.
Print Assumptions C67_eof_refuted.

(** The session is destroyed while keys wait in the scheduler, which then runs on: the
    task of a key uses the destroyed session. *)
Theorem C67_destroyed_refuted : exists m junk w l s, lreaches quiet_env true 10 true no_color m junk w l s /\ ~ In LStop l /\ opened_alone quiet_env true no_color w <> None /\
  l_step quiet_env true 10 true no_color LMain s = LcGone.
Proof.
  exists cooked, junk0, demo_world, (opening ++ [LKbd (Type_ (lit "ab"))] ++ keys_typed 2 ++ [LMain; LDestroy] ++ repeat LMain 3 ++ [LKbd WGo; LMain; LMain]). eexists.
  split; [vm_compute; reflexivity|]. split; [vm_compute; intros H; repeat (destruct H as [H|H]; [discriminate H|]); exact H|]. split; [vm_compute; discriminate|reflexivity].
Qed.
Print Assumptions C67_destroyed_refuted.

(** An exception leaves a command (the user's exception handler throws).  The session
    handles at most one more key, and cannot be destroyed any more. *)
Definition careless_env : env :=
  mkEnv (mkPlatform true false) (fun _ _ => None) (fun _ _ => None) demo_handler (fun _ _ _ _ => mkURes [] (UThrow XOther)) (fun k => match k with KExcept => true | _ => false end).
Theorem C67_exception_refuted : exists m junk w l s, lreaches careless_env true 10 true no_color m junk w l s /\ ~ In LStop l /\ ~ In LDestroy l /\ lc_thrown s = [XOther] /\
  lc_done s = map key_of (map TyChar (lit "sub x") ++ [TyEnter true; TyChar "a"%char]) /\
  forall l' s', l_run careless_env true 10 true no_color l' s = LcOk s' -> lc_done s' = lc_done s /\ lc_main s' <> LOver.
Proof.
  exists cooked, junk0, demo_world, (opening ++ [LKbd (Type_ (lit "sub x" ++ ["010"%char]))] ++ keys_typed 6 ++ repeat LMain 11 ++ [LKbd (Type_ (lit "abc"))] ++ repeat (LKbd WGo) 5 ++ [LMain]). eexists.
  split; [vm_compute; reflexivity|]. split; [vm_compute; intros H; repeat (destruct H as [H|H]; [discriminate H|]); exact H|]. split; [vm_compute; intros H; repeat (destruct H as [H|H]; [discriminate H|]); exact H|].
  split; [reflexivity|]. split; [reflexivity|]. intros l' s' Hr. refine (l_deaf_run careless_env true 10 true no_color l' _ s' _ Hr). split; [reflexivity|]. split; [exact Logic.I|]. split; [reflexivity|exact Logic.I].
Qed.
Print Assumptions C67_exception_refuted.
