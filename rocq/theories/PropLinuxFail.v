(** * C103: the Linux keyboard when calls fail *)

From Verif Require Import Base TerminalModel TelnetSpec KeyboardModel KeyboardSpec KeyboardProofs LinuxFailModel LinuxFailSpec LinuxFailProofs.
Open Scope nat_scope.
Open Scope list_scope.

(** If no call fails, everything is as in C45, C49, C50 and C62. *)
Theorem C103_conservative : forall sgn m junk l, l_run sgn PipeOk (map LOk l) (LRun (kbd_init m junk)) = option_map LRun (k_run sgn l (kbd_init m junk)).
Proof. exact fails_conservative. Qed.
Print Assumptions C103_conservative.
(** Whichever calls fail, no byte is lost, repeated or moved: those that the keyboard or others read, and
    those that are still there, are those that were typed.  What the keyboard makes keys of are the bytes it
    read with a zero, in its place, for each [read] that failed (and for those at the end of the input). *)
Theorem C103_bytes : forall sgn p m junk l s, lf_reaches sgn p m junk l s ->
  typed_in (worked l) = map snd (k_cons s) ++ k_ready s /\
  exists items, k_read s = reads_of items /\ really items = bytes_by true s /\ fails LRead l <= missed items /\ (~ hung_up (worked l) -> missed items = fails LRead l).
Proof. exact fails_bytes. Qed.
Print Assumptions C103_bytes.
(** These are divided into keys as in C45; all of them are notified, in order, except the one whose [Post]
    failed, the last one. *)
Theorem C103_keys : forall sgn p m junk l s qs r, lf_reaches sgn p m junk l s -> Forall (fun q => linux_seq sgn (fst q) (snd q)) qs -> linux_part r -> k_read s = flat_map fst qs ++ r ->
  exists lost, map snd qs = found s ++ lost /\ length lost = fails LPost l /\ (lost <> [] -> k_w s = WDone).
Proof. exact fails_keys. Qed.
Print Assumptions C103_keys.
(** The destructor of an active keyboard ends as in C50, also if nothing can be written into the pipe: the
    keyboard's thread takes at most nine steps more, and one of the threads can go on, unless the
    keyboard's waits for the rest of a key. *)
Theorem C103_shutdown : forall sgn p m junk l s l' s', lf_reaches sgn p m junk l s -> k_m s = MDt3 -> active_after true (worked l) = true ->
  l_run sgn p l' (LRun s) = Some (LRun s') ->
  length (filter by_keyboard l') <= 9 /\
  (k_m s' = MGone \/ (exists s'', k_step sgn WGo s' = Some s'') \/ (exists s'', k_step sgn MGo s' = Some s'' /\ k_m s'' = MGone) \/ (in_get (k_w s') /\ starved s')).
Proof. exact fails_shutdown. Qed.
Print Assumptions C103_shutdown.
(** Only a [select] that failed can have the process killed by its destructor; an exception of [Post] does
    not.  When the destructor has ended, the thread has. *)
Theorem C103_killed : forall sgn p m junk l s, lf_reaches sgn p m junk l s -> k_m s = MKilled -> In (LOk WSignal) l.
Proof. exact fails_killed. Qed.
Print Assumptions C103_killed.
Theorem C103_over : forall sgn p m junk l s, lf_reaches sgn p m junk l s -> k_m s = MGone -> k_w s = WDone.
Proof. exact fails_over. Qed.
Print Assumptions C103_over.
(** The thread ends only if it was told to, [select] failed or a key could not be posted. *)
Theorem C103_ends : forall sgn p m junk l s, lf_reaches sgn p m junk l s -> k_w s = WDone ->
  In (LOk WSignal) l \/ fails LPost l > 0 \/ match k_m s with MDt2 | MDt3 | MGone => True | _ => False end.
Proof. exact fails_ends. Qed.
Print Assumptions C103_ends.
(** If [tcgetattr] works, the terminal never gets a mode other than those it had from others, or such a one
    without canonical mode and echo, whichever calls of [tcsetattr] fail. *)
Theorem C103_modes : forall sgn p m junk l s, lf_reaches sgn p m junk l s -> ~ In LGetattr l ->
  exists y, In y (m :: modes_of l) /\ (k_tty s = y \/ k_tty s = mkMode false false (md_rest y)).
Proof. exact fails_modes. Qed.
Print Assumptions C103_modes.
(** If [pipe] failed, or gave a descriptor that does not fit, nothing is ever read; and in the first case
    the destructor never ends.  (Both are undefined behaviour: C103_pipe_refuted.) *)
Theorem C103_blind : forall sgn p m junk l s, p <> PipeOk -> lf_reaches sgn p m junk l s ->
  k_read s = [] /\ k_keys s = [] /\ k_w s <> WSelect /\ (p = PipeFailed -> k_m s <> MGone).
Proof. exact fails_blind. Qed.
Print Assumptions C103_blind.

(** Two letters are typed; the first [read] fails; the second key is being posted when the keyboard is
    destroyed, and [write] fails. *)
Definition cooked_tty : tmode := mkMode true true 7.
Definition any_junk : tmode := mkMode true false 99.
Definition running : list kact := repeat WGo 2 ++ repeat MGo 4 ++ [WSpurious] ++ repeat MGo 2 ++ repeat WGo 3.
Definition mishaps : list lact :=
  map LOk (running ++ [Type_ (lit "ab"); WGo]) ++ [LRead] ++ map LOk (repeat WGo 6 ++ [MCall Destroy; MGo]) ++ [LWrite; LOk MGo].
Example C103_nonvacuous : exists s, lf_reaches true PipeOk cooked_tty any_junk mishaps s /\ k_m s = MDt3 /\ active_after true (worked mishaps) = true /\
  k_keys s = [KAscii "000"]%char /\ found s = [KAscii "000"; KAscii "a"]%char /\ k_ready s = lit "b" /\ fails LRead mishaps = 1 /\
  (exists s', l_run true PipeOk [LPost; LOk MGo] (LRun s) = Some (LRun s') /\ k_m s' = MGone /\ k_keys s' = [KAscii "000"]%char /\ k_tty s' = cooked_tty) /\
  (exists s', l_run true PipeOk (map LOk (repeat WGo 5 ++ [MGo])) (LRun s) = Some (LRun s') /\ k_m s' = MGone /\ k_keys s' = [KAscii "000"; KAscii "a"]%char).
Proof.
  eexists. split; [vm_compute; reflexivity|]. split; [reflexivity|]. split; [reflexivity|]. split; [reflexivity|]. split; [reflexivity|]. split; [reflexivity|]. split; [reflexivity|].
  split; [eexists; split; [vm_compute; reflexivity|split; [reflexivity|split; reflexivity]]|]. eexists; split; [vm_compute; reflexivity|split; reflexivity].
Qed.
Print Assumptions C103_nonvacuous.
(** After a [select] that failed, a program that ignores SIGPIPE can destroy the keyboard. *)
Example C103_ignored : exists s s', lf_reaches true PipeOk cooked_tty any_junk (map LOk (running ++ [WSignal; MCall Destroy; MGo])) s /\
  l_run true PipeOk [LWrite; LOk MGo; LOk MGo] (LRun s) = Some (LRun s') /\ k_m s' = MGone /\
  exists s'', l_run true PipeOk [LOk MGo] (LRun s) = Some (LRun s'') /\ k_m s'' = MKilled.
Proof. eexists _, _. split; [vm_compute; reflexivity|]. split; [vm_compute; reflexivity|]. split; [reflexivity|]. eexists. split; [vm_compute; reflexivity|reflexivity]. Qed.

(** After an exception of [Post], which nobody is told of, no key is read any more. *)
Theorem C103_post_refuted : exists l s, lf_reaches true PipeOk cooked_tty any_junk l s /\ k_m s = MUser /\ active_after true (worked l) = true /\ ~ In (LOk WSignal) l /\
  forall l' s', l_run true PipeOk l' (LRun s) = Some (LRun s') -> k_keys s' = [].
Proof.
  exists (map LOk (running ++ [Type_ (lit "ab"); WGo; WGo]) ++ [LPost]). eexists. split; [vm_compute; reflexivity|]. split; [reflexivity|]. split; [reflexivity|]. split; [intros H; cbn in H; intuition discriminate|].
  intros l' s' H. apply fails_done in H as (_ & ->); reflexivity.
Qed.
Print Assumptions C103_post_refuted.
(** If [tcgetattr] fails and [tcsetattr] does not, the terminal gets what happened to be in memory. *)
Theorem C103_junk_refuted : exists l s, lf_reaches true PipeOk cooked_tty any_junk l s /\ modes_of l = [] /\ k_tty s = mkMode false false 99.
Proof. exists [LGetattr; LOk MGo]. eexists. split; [vm_compute; reflexivity|]. split; reflexivity. Qed.
Print Assumptions C103_junk_refuted.
(** If the last [tcsetattr] fails, the terminal stays without echo, and nobody is told. *)
Theorem C103_restore_refuted : exists l s, lf_reaches true PipeOk cooked_tty any_junk l s /\ k_m s = MGone /\ md_echo (k_tty s) = false.
Proof. exists (map LOk (running ++ [MCall Destroy]) ++ [LSetattr] ++ map LOk [MGo; MGo; WGo; MGo]). eexists. split; [vm_compute; reflexivity|]. split; reflexivity. Qed.
Print Assumptions C103_restore_refuted.
(** If [pipe] fails, constructing and destroying a keyboard is undefined behaviour; if the program has more
    than a thousand files open, constructing one and waiting for a key is. *)
Theorem C103_pipe_refuted : exists l l', l_run true PipeFailed l (LRun (kbd_init cooked_tty any_junk)) = Some LUB /\ l = map LOk (repeat MGo 6 ++ [MCall Destroy; MGo; MGo]) /\
  l_run true PipeHigh l' (LRun (kbd_init cooked_tty any_junk)) = Some LUB /\ l' = map LOk (repeat MGo 6 ++ repeat WGo 3).
Proof. eexists _, _. split; [|split; [reflexivity|split; [|reflexivity]]]; vm_compute; reflexivity. Qed.
Print Assumptions C103_pipe_refuted.
