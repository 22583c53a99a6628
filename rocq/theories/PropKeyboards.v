(** * C90: several local sessions on one console *)

From Verif Require Import Base TerminalModel TelnetSpec KeyboardModel KeyboardSpec KeyboardProofs KeyboardsModel KeyboardsSpec KeyboardsProofs.
Open Scope nat_scope.
Open Scope list_scope.

(** Each of several keyboards behaves like one alone, on a terminal others use too: C45, C49 and C50
    hold for each. *)
Theorem C90_one : forall sgn m l s i k, ks_reaches sgn m l s -> ks_all s i = Some k ->
  exists m' junk l' t, kb_reaches sgn m' junk l' t /\ alike (load s k) t /\ calls l' = calls_of i l.
Proof. exact one_of_many. Qed.
Print Assumptions C90_one.
(** Every byte typed is read by exactly one of them (or somebody else), or still there, in typing order; *)
Theorem C90_conserved : forall sgn m l s, ks_reaches sgn m l s -> all_typed l = map snd (ks_cons s) ++ ks_ready s /\
  forall i k, ks_all s i = Some k -> ~ In KsHangup l -> k_read k = by_whom (Some i) s.
Proof. exact conserved. Qed.
Print Assumptions C90_conserved.
(** the keys of each are those of the bytes it has read itself; *)
Theorem C90_keys : forall sgn m l s i k qs r, ks_reaches sgn m l s -> ks_all s i = Some k ->
  Forall (fun q => linux_seq sgn (fst q) (snd q)) qs -> linux_part r -> k_read k = flat_map fst qs ++ r -> found k = map snd qs.
Proof. exact keys_of_each. Qed.
Print Assumptions C90_keys.
(** one that is deactivated takes at most one key (four bytes) from the others. *)
Theorem C90_deactivated : forall sgn m l s i k cs l2 s2, ks_reaches sgn m l s -> ks_all s i = Some k -> k_m k = MUser -> calls_of i l = cs ++ [Deactivate] ->
  ks_run sgn l2 s = Some s2 -> ~ In Activate (calls_of i l2) ->
  exists k2 bytes keys, ks_all s2 i = Some k2 /\ k_read k2 = k_read k ++ bytes /\ length bytes <= 4 /\ k_keys k2 = k_keys k ++ keys /\ length keys <= 1.
Proof. exact each_deactivated. Qed.
Print Assumptions C90_deactivated.
(** If the one deactivated or destroyed always is the last one activated, the terminal has no echo and no line editing
    while any is active, and its own mode while none is. *)
Theorem C90_modes : forall sgn m l s st, ks_reaches sgn m l s -> stacked [] l = Some st -> ks_busy s = None ->
  ks_tty s = match st with [] => m | _ => mkMode false false (md_rest m) end.
Proof. exact modes_nested. Qed.
Print Assumptions C90_modes.

(** ** Otherwise
    Two sessions, 1 and 2; both wait for keys. *)
Definition cooked2 : tmode := mkMode true true 3.
Definition opens (i : nat) : list ksact := KsNew i cooked2 :: repeat (KsDo i MGo) 6 ++ repeat (KsDo i WGo) 3.
Definition both : list ksact := opens 1 ++ opens 2.
Definition calls_for (i : nat) (c : kcall) : list ksact := KsDo i (MCall c) :: repeat (KsDo i MGo) (match c with Activate => 6 | Deactivate => 4 | Destroy => 3 end).
Definition ends (i : nat) : list ksact := calls_for i Destroy ++ [KsDo i WGo; KsDo i MGo].
(** The first one is closed first: the terminal stays without echo and line editing when both are gone. *)
Theorem C90_order_refuted : exists m l s, ks_reaches true m l s /\ (forall x, ~ In (KsMode x) l) /\
  option_map k_m (ks_all s 1) = Some MGone /\ option_map k_m (ks_all s 2) = Some MGone /\ md_echo m = true /\ ks_tty s = mkMode false false (md_rest m).
Proof.
  exists cooked2, (both ++ ends 1 ++ ends 2). eexists. split; [vm_compute; reflexivity|]. split; [intros x Hin; cbn in Hin; intuition discriminate|].
  split; [reflexivity|]. split; [reflexivity|]. split; reflexivity.
Qed.
Print Assumptions C90_order_refuted.
(** A command of the first session turns on echo and line editing while the second one waits for keys; *)
Theorem C90_waiting_refuted : exists m l s k, ks_reaches true m l s /\ ks_busy s = None /\ ks_all s 2 = Some k /\ k_enabled k = true /\ k_w k = WSelect /\ md_icanon (ks_tty s) = true.
Proof. exists cooked2, (both ++ calls_for 1 Deactivate). eexists _, _. split; [vm_compute; reflexivity|]. repeat split; reflexivity. Qed.
Print Assumptions C90_waiting_refuted.
(** commands of the second one run without. *)
Theorem C90_command_refuted : exists m l s k, ks_reaches true m l s /\ ks_busy s = None /\ ks_all s 2 = Some k /\ k_enabled k = false /\ md_echo m = true /\ md_echo (ks_tty s) = false.
Proof. exists cooked2, (both ++ calls_for 2 Deactivate). eexists _, _. split; [vm_compute; reflexivity|]. repeat split; reflexivity. Qed.
Print Assumptions C90_command_refuted.
(** A key's bytes can be divided among them: Up becomes an [ignored] key and two characters. *)
Theorem C90_split_refuted : exists m l s, ks_reaches true m l s /\ all_typed l = esc (lit "Ax") /\
  option_map k_keys (ks_all s 1) = Some [KIgnored] /\ option_map k_keys (ks_all s 2) = Some [KAscii "["; KAscii "x"]%char.
Proof.
  exists cooked2, (both ++ [KsType (esc (lit "Ax")); KsDo 1 WGo; KsDo 2 WGo; KsDo 1 WGo; KsDo 2 WGo; KsDo 2 WGo; KsDo 1 WGo; KsDo 1 WGo] ++ repeat (KsDo 2 WGo) 6).
  eexists. split; [vm_compute; reflexivity|]. split; [reflexivity|]. split; reflexivity.
Qed.
Print Assumptions C90_split_refuted.
(** Woken by a byte the other one takes, a keyboard waits inside [read], and its destructor for it. *)
Theorem C90_hang_refuted : exists m l s, ks_reaches true m l s /\ on_calls true (calls_of 2 l) = true /\ option_map k_m (ks_all s 2) = Some MDt3 /\
  ks_step true (KsDo 2 WGo) s = None /\ ks_step true (KsDo 2 MGo) s = None.
Proof.
  exists cooked2, (both ++ [KsType (lit "a"); KsDo 1 WGo; KsDo 2 WGo; KsDo 1 WGo] ++ calls_for 2 Destroy). eexists. split; [vm_compute; reflexivity|].
  split; [reflexivity|]. split; [reflexivity|]. split; reflexivity.
Qed.
Print Assumptions C90_hang_refuted.

Definition talked : list ksact := both ++ [KsType (lit "ab"); KsDo 1 WGo; KsDo 1 WGo; KsDo 1 WGo; KsDo 2 WGo; KsDo 2 WGo; KsDo 2 WGo].
Example C90_nonvacuous : exists s s1 s2 k2,
  ks_reaches true cooked2 talked s /\ ks_cons s = [(Some 1, "a"); (Some 2, "b")]%char /\ option_map k_keys (ks_all s 1) = Some [KAscii "a"]%char /\ option_map k_keys (ks_all s 2) = Some [KAscii "b"]%char /\
  stacked [] talked = Some [2; 1] /\ ks_tty s = mkMode false false 3 /\
  ks_reaches true cooked2 (talked ++ calls_for 2 Deactivate) s1 /\ ks_all s1 2 = Some k2 /\ k_m k2 = MUser /\ calls_of 2 (talked ++ calls_for 2 Deactivate) = [] ++ [Deactivate] /\
  ks_reaches true cooked2 (talked ++ [KsDo 2 WGo; KsDo 2 WGo; KsDo 2 WGo] ++ ends 2 ++ [KsDo 1 WGo; KsDo 1 WGo; KsDo 1 WGo] ++ ends 1) s2 /\
  stacked [] (talked ++ [KsDo 2 WGo; KsDo 2 WGo; KsDo 2 WGo] ++ ends 2 ++ [KsDo 1 WGo; KsDo 1 WGo; KsDo 1 WGo] ++ ends 1) = Some [] /\ ks_busy s2 = None /\ ks_tty s2 = cooked2 /\
  option_map k_m (ks_all s2 1) = Some MGone.
Proof. eexists _, _, _, _. split; [vm_compute; reflexivity|]. do 5 (split; [reflexivity|]). split; [vm_compute; reflexivity|]. do 3 (split; [reflexivity|]). split; [vm_compute; reflexivity|]. repeat (split; [reflexivity|]). reflexivity. Qed.
