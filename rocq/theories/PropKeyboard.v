(** * C45, C49, C50, C62: properties of the Linux keyboard *)

From Verif Require Import Base TerminalModel TelnetModel TelnetSpec TelnetProofs KeyboardModel KeyboardSpec KeyboardProofs.
Open Scope nat_scope.
Open Scope list_scope.

(** C45: whatever happens meanwhile, if the keyboard thread has read the bytes of some
    keys, it has found those keys, *)
Theorem C45_keys : forall sgn m junk l s ts, kb_reaches sgn m junk l s -> Forall plain_key ts -> k_read s = flat_map linux_bytes ts ->
  found s = map key_of ts.
Proof. exact keys_found. Qed.
Print Assumptions C45_keys.
(** the same that a telnet session finds; *)
Theorem C45_telnet : forall sgn m junk l s ts, kb_reaches sgn m junk l s -> Forall plain_key ts -> k_read s = flat_map linux_bytes ts ->
  found s = snd (outputs (flat_map telnet_bytes ts) K1).
Proof.
  intros sgn m junk l s ts H Ht He. rewrite typed_keys; [exact (keys_found sgn m junk l s ts H Ht He)|].
  revert Ht. apply Forall_impl. intros [] Hk; try exact Hk. exact (proj1 Hk).
Qed.
Print Assumptions C45_telnet.
(** and while input is active all that is typed is read and notified, if nobody else
    reads, the input does not end and no signal interrupts the thread: when the thread
    has nothing to do, *)
Theorem C45_typed : forall sgn m junk l s ts, kb_reaches sgn m junk l s -> k_m s = MUser -> active_after true l = true ->
  ~ In WSignal l -> ~ hung_up l -> ~ In Take l -> k_step sgn WGo s = None -> Forall plain_key ts -> typed_in l = flat_map linux_bytes ts ->
  k_keys s = map key_of ts.
Proof.
  intros sgn m junk l s ts H Hu Ha Hs Hh Ht Hq Hp He. destruct (all_read sgn m junk l s H Hu Ha Hs Hq) as (Hr & _). destruct (reach_input sgn m junk l s H) as (Hi & Hi2). destruct (Hi2 Hh) as (_ & Hi3).
  assert (E : k_read s = flat_map linux_bytes ts). { rewrite Hi3, (not_taken sgn m junk l s H Ht), <- He, Hi, Hr, app_nil_r. reflexivity. }
  rewrite <- (keys_found sgn m junk l s ts H Hp E). unfold found. destruct (k_w s) eqn:Ew; rewrite ?app_nil_r; try reflexivity. exfalso. refine (quiet_not_notify sgn s k _ Hq Ew). congruence.
Qed.
Print Assumptions C45_typed.
(** which is the case after finitely many of its steps. *)
Theorem C45_finite : forall sgn s, k_eof s = false -> exists bound, forall n s', k_run sgn (repeat WGo n) s = Some s' -> n <= bound.
Proof. intros sgn s He. exists (read_measure s). intros n s'. exact (reads_bounded sgn n s s' He). Qed.
Print Assumptions C45_finite.

Definition cooked : tmode := mkMode true true 7.
Definition junk0 : tmode := mkMode true false 99.
(** The constructor ran and the keyboard thread waits for input. *)
Definition started : list kact := repeat WGo 2 ++ repeat MGo 4 ++ [WSpurious] ++ repeat MGo 2 ++ repeat WGo 3.
Definition demo_typed : list typed := [TyChar "l"; TyUp; TyDelete; TyBackspace true; TyEnter true].
Example C45_nonvacuous : exists s, let l := started ++ [Type_ (lit "l" ++ ["027"%char])] ++ repeat WGo 8 ++ [Type_ (lit "[A" ++ ["027"; "["; "3"; "~"; "127"; "010"]%char)] ++ repeat WGo 27 in
  kb_reaches true cooked junk0 l s /\ k_m s = MUser /\ active_after true l = true /\ ~ In WSignal l /\ ~ hung_up l /\ ~ In Take l /\ k_step true WGo s = None /\
  Forall plain_key demo_typed /\ typed_in l = flat_map linux_bytes demo_typed /\ k_keys s = [KAscii "l"; KUp; KCanc; KBackspace; KRet]%char.
Proof.
  eexists. cbn zeta. split; [vm_compute; reflexivity|]. split; [reflexivity|]. split; [reflexivity|].
  split; [vm_compute; intros H; repeat (destruct H as [H|H]; [discriminate H|]); exact H|]. split; [vm_compute; intros H; repeat (destruct H as [H|H]; [discriminate H|]); exact H|].
  split; [vm_compute; intros H; repeat (destruct H as [H|H]; [discriminate H|]); exact H|]. split; [reflexivity|].
  split; [|split; [vm_compute; reflexivity|reflexivity]]. unfold demo_typed. constructor; [split; [vm_compute; intuition discriminate|discriminate]|]. repeat (constructor; [exact Logic.I|]). constructor.
Qed.
Print Assumptions C45_nonvacuous.
(** Every sequence of bytes consists of sequences that are keys and the beginning of
    another one, *)
Theorem C45_total : forall sgn bytes, exists qs r, bytes = flat_map fst qs ++ r /\ Forall (fun q => linux_seq sgn (fst q) (snd q)) qs /\ linux_part r.
Proof. intros sgn bytes. destruct (decoded_seq sgn bytes WGet0 [] [] eq_refl) as (qs & r & H1 & H2 & H3 & _). exists qs, r. split; [exact H1|]. split; [exact H2|exact H3]. Qed.
Print Assumptions C45_total.
(** and these are the keys found in it. *)
Theorem C45_sequences : forall sgn m junk l s qs r, kb_reaches sgn m junk l s ->
  Forall (fun q => linux_seq sgn (fst q) (snd q)) qs -> linux_part r -> k_read s = flat_map fst qs ++ r -> found s = map snd qs.
Proof. exact seqs_found. Qed.
Print Assumptions C45_sequences.
Example C45_sequences_nonvacuous : exists s qs r, kb_reaches true cooked junk0 (started ++ [Type_ ["027"; "x"; "027"; "["; "5"; "~"; "255"; "027"; "["; "3"]%char] ++ repeat WGo 31) s /\
  Forall (fun q => linux_seq true (fst q) (snd q)) qs /\ linux_part r /\ k_read s = flat_map fst qs ++ r /\ found s = [KIgnored; KIgnored; KAscii "~"; KEof]%char.
Proof.
  eexists. exists [(["027"; "x"], KIgnored); (["027"; "["; "5"], KIgnored); (["~"], KAscii "~"); (["255"], KEof)]%char, (esc ["3"%char]).
  split; [vm_compute; reflexivity|]. split; [|split; [cbn; tauto|split; reflexivity]].
  constructor; [constructor; discriminate|]. constructor; [apply (ls_other true "5"); cbn; intuition discriminate|]. constructor; [constructor; [cbn; intuition discriminate|intros (_ & H); discriminate H]|]. constructor; [constructor; reflexivity|constructor].
Qed.
Print Assumptions C45_sequences_nonvacuous.
(** Other sequences: a part of ESC [ 5 ~ (page up) is typed into the line; ESC swallows
    the next character; carriage return is an ordinary character (not so for telnet). *)
Theorem C45_other_refuted : exists s, kb_reaches true cooked junk0 (started ++ [Type_ (esc (lit "5~") ++ ["027"; "a"; "013"]%char)] ++ repeat WGo 27) s /\
  k_keys s = [KIgnored; KAscii "~"; KIgnored; KAscii "013"]%char /\ snd (outputs (esc (lit "5~")) K1) = [KCanc].
Proof. eexists. split; [vm_compute; reflexivity|]. split; reflexivity. Qed.
Print Assumptions C45_other_refuted.
(** When the input has ended, the thread notifies zeros for ever; *)
Theorem C45_ended_refuted : exists l s, kb_reaches true cooked junk0 l s /\ typed_in l = [] /\ forall n, exists l' s', k_run true l' s = Some s' /\ k_keys s' = repeat (KAscii "000") n.
Proof.
  exists (started ++ [Hangup]). eexists. split; [vm_compute; reflexivity|]. split; [reflexivity|]. intros n. match goal with |- exists l' s', k_run true l' ?s = _ /\ _ => destruct (zeros true n s) as (l' & s' & H1 & H2); try reflexivity end. exists l', s'. split; [exact H1|exact H2].
Qed.
Print Assumptions C45_ended_refuted.
(** and a signal ends the thread: no key is read any more, though input is active. *)
Theorem C45_signal_refuted : exists l s, kb_reaches true cooked junk0 l s /\ k_m s = MUser /\ active_after true l = true /\
  forall l' s', k_run true l' s = Some s' -> k_keys s' = [].
Proof.
  exists (started ++ [WSignal]). eexists. split; [vm_compute; reflexivity|]. split; [reflexivity|]. split; [reflexivity|]. intros l' s' H. apply done_forever in H; [exact (proj2 H)|reflexivity].
Qed.
Print Assumptions C45_signal_refuted.

(** C49: from when input was deactivated until it is activated again, the keyboard reads
    at most four bytes and notifies at most one key, whatever happens; *)
Theorem C49_at_most_one : forall sgn m junk l s l' s', kb_reaches sgn m junk l s -> k_m s = MUser -> active_after true l = false ->
  no_call Activate l' -> k_run sgn l' s = Some s' ->
  exists bytes keys, k_read s' = k_read s ++ bytes /\ length bytes <= 4 /\ k_keys s' = k_keys s ++ keys /\ length keys <= 1.
Proof.
  intros sgn m junk l s l' s' H Hu Ha Hn Hr. pose proof (reach_on sgn m junk l s H) as Ho. unfold on_ok in Ho. rewrite Hu, Ha in Ho.
  destruct (off_run sgn l' s s' Hn Ho) as ((d & ks & H1 & H2 & H3 & H4) & _); [rewrite Hu; reflexivity|exact Hr|]. exists d, ks. split; [exact H1|].
  assert (B : bytes_due s <= 4) by (unfold bytes_due; destruct (k_w s); lia). assert (K : keys_due s <= 1) by (unfold keys_due; destruct (k_w s); lia). split; [lia|]. split; [exact H3|lia].
Qed.
Print Assumptions C49_at_most_one.
(** every byte typed is read by exactly one reader, or still there, in typing order. *)
Theorem C49_conserved : forall sgn m junk l s, kb_reaches sgn m junk l s ->
  typed_in l = map snd (k_cons s) ++ k_ready s /\ (~ hung_up l -> k_read s = bytes_by true s).
Proof. intros sgn m junk l s H. destruct (reach_input sgn m junk l s H) as (H1 & H2). split; [exact H1|]. intros Hh. exact (proj2 (H2 Hh)). Qed.
Print Assumptions C49_conserved.
(** Nothing is read before the constructor has set the mode of the terminal. *)
Theorem C49_constructor : forall sgn m junk l s, kb_reaches sgn m junk l s -> (forall c, no_call c l) ->
  match k_m s with MAct0 | MAct1 | MAct2 | MAct3 => True | _ => False end -> k_read s = [] /\ k_keys s = [].
Proof. exact early_run. Qed.
Print Assumptions C49_constructor.
Example C49_constructor_nonvacuous : exists s, kb_reaches true cooked junk0 [Type_ (lit "yes"); WGo; WGo; MGo; WSpurious; WGo; WGo; MGo] s /\ k_m s = MAct2 /\ k_ready s = lit "yes".
Proof. eexists. split; [vm_compute; reflexivity|]. split; reflexivity. Qed.
(** A command asks a question; the answer "yes" loses its first letter, for the keyboard
    thread was already waiting in [select]. *)
Definition asking : list kact := started ++ [MCall Deactivate] ++ repeat MGo 4.
Example C49_nonvacuous : exists s s', kb_reaches true cooked junk0 asking s /\ k_m s = MUser /\ active_after true asking = false /\
  k_run true ([Type_ (lit "yes")] ++ repeat WGo 5 ++ [Take; Take]) s = Some s' /\ k_keys s = [] /\ k_keys s' = [KAscii "y"]%char /\ bytes_by false s' = lit "es" /\ k_step true WGo s' = None.
Proof. eexists _, _. split; [vm_compute; reflexivity|]. split; [reflexivity|]. split; [reflexivity|]. split; [vm_compute; reflexivity|]. split; [reflexivity|]. split; [reflexivity|]. split; reflexivity. Qed.
Print Assumptions C49_nonvacuous.
(** So the stronger claim, that nothing is taken, is false. *)
Theorem C49_none_refuted : exists m junk l s l' s', kb_reaches true m junk l s /\ k_m s = MUser /\ active_after true l = false /\ k_w s = WSelect /\
  no_call Activate l' /\ k_run true l' s = Some s' /\ k_keys s' <> k_keys s.
Proof.
  exists cooked, junk0, asking. eexists _, ([Type_ (lit "yes")] ++ repeat WGo 3), _. split; [vm_compute; reflexivity|]. split; [reflexivity|]. split; [reflexivity|]. split; [reflexivity|].
  split; [intros H; cbn in H; intuition discriminate|]. split; [vm_compute; reflexivity|discriminate].
Qed.
Print Assumptions C49_none_refuted.

(** C50: when the destructor waits for the keyboard thread and input is active, the
    thread makes at most nine more steps, whatever else happens, *)
Theorem C50_bounded : forall sgn m junk l s l' s', kb_reaches sgn m junk l s -> k_m s = MDt3 -> active_after true l = true ->
  k_run sgn l' s = Some s' -> count is_wgo l' <= 9.
Proof.
  intros sgn m junk l s l' s' H Hj Ha Hr. destruct (end_run sgn l' s s' (reach_ending sgn m junk l s H Hj Ha) Hr) as (_ & H1).
  assert (B : end_weight (k_w s) <= 9) by (destruct (k_w s); cbn; lia). lia.
Qed.
Print Assumptions C50_bounded.
(** and until the destructor has returned, the thread can make a step or the destructor
    can return; except if the thread waits for the rest of a key. *)
Theorem C50_ends : forall sgn m junk l s l' s', kb_reaches sgn m junk l s -> k_m s = MDt3 -> active_after true l = true ->
  k_run sgn l' s = Some s' ->
  k_m s' = MGone \/ (exists s'', k_step sgn WGo s' = Some s'') \/ (exists s'', k_step sgn MGo s' = Some s'' /\ k_m s'' = MGone) \/ (in_get (k_w s') /\ starved s').
Proof.
  intros sgn m junk l s l' s' H Hj Ha Hr. destruct (end_run sgn l' s s' (reach_ending sgn m junk l s H Hj Ha) Hr) as (H1 & _). exact (end_moves sgn s' H1).
Qed.
Print Assumptions C50_ends.
Definition destroy : list kact := [MCall Destroy] ++ repeat MGo 3.
Example C50_nonvacuous : exists s s', let l := started ++ [Type_ (lit "ab")] ++ repeat WGo 2 ++ destroy in
  kb_reaches true cooked junk0 l s /\ k_m s = MDt3 /\ active_after true l = true /\ k_run true (repeat WGo 5 ++ [MGo]) s = Some s' /\ k_m s' = MGone /\ k_keys s' = [KAscii "a"]%char /\ k_ready s' = lit "b".
Proof. eexists _, _. cbn zeta. split; [vm_compute; reflexivity|]. split; [reflexivity|]. split; [reflexivity|]. split; [vm_compute; reflexivity|]. split; [reflexivity|]. split; reflexivity. Qed.
Print Assumptions C50_nonvacuous.
(** If input is not active, the destructor may never return: a deadlock. *)
Theorem C50_deactivated_refuted : exists m junk l s, kb_reaches true m junk l s /\ k_m s = MDt3 /\ forall l' s', k_run true l' s = Some s' -> k_m s' <> MGone.
Proof.
  exists cooked, junk0, (asking ++ [Type_ (lit "y")] ++ repeat WGo 5 ++ destroy). eexists. split; [vm_compute; reflexivity|]. split; [reflexivity|]. intros l' s' H. refine (deaf_forever true l' _ s' _ H). split; [reflexivity|]. split; [reflexivity|exact Logic.I].
Qed.
Print Assumptions C50_deactivated_refuted.
(** Nor if the user has pressed ESC, and presses nothing else. *)
Theorem C50_escape_refuted : exists m junk l s, kb_reaches true m junk l s /\ active_after true l = true /\ k_m s = MDt3 /\
  forall l' s', (forall a, In a l' -> match a with Type_ _ | Hangup => False | _ => True end) -> k_run true l' s = Some s' -> k_m s' <> MGone.
Proof.
  exists cooked, junk0, (started ++ [Type_ ["027"%char]] ++ repeat WGo 2 ++ destroy). eexists. split; [vm_compute; reflexivity|]. split; [reflexivity|]. split; [reflexivity|]. intros l' s' Ha H. refine (stuck_forever true l' _ s' _ Ha H). split; [reflexivity|]. split; [split; reflexivity|exact Logic.I].
Qed.
Print Assumptions C50_escape_refuted.
(** If a signal had ended the thread, the destructor kills the process with SIGPIPE. *)
Theorem C50_signal_refuted : exists m junk l s, kb_reaches true m junk l s /\ active_after true l = true /\ k_m s = MKilled.
Proof. exists cooked, junk0, (started ++ [WSignal; MCall Destroy; MGo; MGo]). eexists. split; [vm_compute; reflexivity|]. split; reflexivity. Qed.
Print Assumptions C50_signal_refuted.

(** C62: the terminal is in the mode wanted by the other code when input is not active
    and after the destruction, and in the corresponding non-canonical mode without echo
    when it is active. *)
Theorem C62_modes : forall sgn m junk l s want, kb_reaches sgn m junk l s -> mode_after true m m l = Some want ->
  (k_m s = MUser -> k_tty s = if active_after true l then mkMode false false (md_rest want) else want) /\ (k_m s = MGone -> k_tty s = want).
Proof.
  intros sgn m junk l s want H Hw. destruct (mode_run sgn l true m m (kbd_init m junk) s want) as (saved & Hm); [cbn; auto|exact Hw|exact H|]. split.
  - intros Hu. unfold mode_ok in Hm. rewrite Hu in Hm. pose proof (reach_on sgn m junk l s H) as Ho. pose proof (on_user sgn m junk l s H Hu) as Hd. rewrite (on_active l true Hd) in Hm. destruct (active_after true l); [exact (proj1 Hm)|exact (proj1 Hm)].
  - intros Hu. unfold mode_ok in Hm. rewrite Hu in Hm. exact (proj2 Hm).
Qed.
Print Assumptions C62_modes.
(** So if no other code sets the mode, the destructor leaves it as it was at first. *)
Theorem C62_restored : forall sgn m junk l s, kb_reaches sgn m junk l s -> (forall x, ~ In (SetMode x) l) -> mode_after true m m l <> None -> k_m s = MGone -> k_tty s = m.
Proof.
  intros sgn m junk l s H Hn Hw Hu. destruct (mode_after true m m l) as [want|] eqn:E; [|congruence]. destruct (C62_modes sgn m junk l s want H E) as (_ & H1). rewrite (H1 Hu). exact (mode_unset l true m want Hn E).
Qed.
Print Assumptions C62_restored.
Example C62_nonvacuous : exists s s' x, let l := asking ++ [SetMode (mkMode true false 3); MCall Activate] ++ repeat MGo 6 in
  kb_reaches true cooked junk0 l s /\ mode_after true cooked cooked l = Some x /\ k_m s = MUser /\ k_tty s = mkMode false false 3 /\
  k_run true (destroy ++ [WGo; MGo]) s = Some s' /\ k_m s' = MGone /\ k_tty s' = mkMode true false 3.
Proof. eexists _, _, _. cbn zeta. split; [vm_compute; reflexivity|]. split; [reflexivity|]. split; [reflexivity|]. split; [reflexivity|]. split; [vm_compute; reflexivity|]. split; reflexivity. Qed.
Print Assumptions C62_nonvacuous.
(** Activated twice, the keyboard forgets the mode: the terminal stays without echo. *)
Theorem C62_twice_refuted : exists m junk l s, kb_reaches true m junk l s /\ (forall x, ~ In (SetMode x) l) /\ k_m s = MGone /\ md_echo m = true /\ md_echo (k_tty s) = false.
Proof.
  exists cooked, junk0, (started ++ [MCall Activate] ++ repeat MGo 6 ++ destroy ++ [WGo; MGo]). eexists. split; [vm_compute; reflexivity|]. split; [intros x Hin; cbn in Hin; intuition discriminate|]. split; [reflexivity|]. split; reflexivity.
Qed.
Print Assumptions C62_twice_refuted.
(** A mode set by a command that ends the session is lost. *)
Theorem C62_lost_refuted : exists m junk l s x, kb_reaches true m junk l s /\ In (SetMode x) l /\ k_m s = MGone /\ k_tty s <> x.
Proof.
  exists cooked, junk0, (started ++ [MCall Deactivate] ++ repeat MGo 4 ++ [SetMode (mkMode true false 3)] ++ destroy ++ [WGo; MGo]). eexists _, _. split; [vm_compute; reflexivity|]. split; [do 17 right; left; reflexivity|]. split; [reflexivity|discriminate].
Qed.
Print Assumptions C62_lost_refuted.
