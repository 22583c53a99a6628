(** * C107: exactly which keys are undefined *)

From Verif Require Import Base FromStringModel HistoryModel HistorySpec StorageModel TerminalModel TerminalSpec MenuModel SessionModel ResolveSpec SessionSpec
  TreeProofs InvariantProofs ConvTotalSpec CompletionModel CompletionSpec CompletionProofs ProcessorModel KeyUBSpec KeyUBProofs TelnetModel ServerModel ServerSpec KeyboardModel LocalModel LocalSpec
  KeyServerProofs Demo PropCompletion PropProcessor PropServer PropKeyboard PropLocal.
Open Scope nat_scope.
Open Scope list_scope.

(** Asking for completions is undefined exactly if the current menu is not there, or
    the line leads to a negative character. *)
Theorem C107_completion : forall P fuel line w,
  unique_ids (w_root w) -> no_empty_pair (w_root w) -> 2 * length line + 2 <= fuel ->
  (get_completions P fuel line w = GUB <-> ~ live w \/ exists ctx, in_menu w ctx /\ meets P ctx line).
Proof.
  intros P fuel line w Hu Hn Hf. apply tab_undefined; [exact Hu|]. apply completions_terminate; assumption.
Qed.
Print Assumptions C107_completion.

(** A key, on any line, in any session. *)
Theorem C107_key : forall E size fuel tty k p e, size >= 1 ->
  holds (p_term p) e -> reachable size (w_hist (p_world p)) -> sound (p_world p) -> press E fuel tty k p <> PFuel ->
  (press E fuel tty k p = PUB <-> undefined_key E fuel (ks_key k) (ed_text e) (p_world p)).
Proof. intros E size fuel tty k p e Hs. apply (press_undefined E size Hs). Qed.
Print Assumptions C107_key.

(** Any sequence of keys is undefined exactly if one of them is, where it is typed. *)
Theorem C107_keys : forall E size fuel tty ks p e, size >= 1 ->
  holds (p_term p) e -> reachable size (w_hist (p_world p)) -> sound (p_world p) -> presses E fuel tty ks p <> PFuel ->
  (presses E fuel tty ks p = PUB <->
   exists ks1 k ks2 p' e', ks = ks1 ++ k :: ks2 /\ presses E fuel tty ks1 p = POk p' /\ holds (p_term p') e' /\
     undefined_key E fuel (ks_key k) (ed_text e') (p_world p')).
Proof.
  intros E size fuel tty ks p e Hs He Hr Hw. apply (presses_undefined E size Hs False); [exists e; exact He|]. split; [exact Hr|]. split; [exact Hw|intros []].
Qed.
Print Assumptions C107_keys.

(** Where char is unsigned, and on lines without such characters, Tab is never
    undefined in a menu that is there. *)
Theorem C107_plain : forall P ctx line, (char_signed P = false \/ ~ Exists negative_byte line) -> ~ meets P ctx line.
Proof. intros P ctx line H Hm. apply meets_signed in Hm as (H1 & H2). destruct H; [congruence|contradiction]. Qed.
Print Assumptions C107_plain.

Definition e_acute : str := ["195"; "169"]%char.

(** In the example: after [add] such a character is harmless, at the start of the line
    and right after [sub] it is not; and a function that removes the current menu
    makes the Return that called it undefined. *)
Example C107_nonvacuous :
  reachable 5 (w_hist (p_world demo_proc)) /\ sound (p_world demo_proc) /\ holds (p_term demo_proc) (mkEd [] []) /\
  press full_env 40 true (stroke (KAscii "009")) demo_proc <> PUB /\
  presses full_env 40 true (typing (lit "add " ++ e_acute) ++ [stroke (KAscii "009")]) demo_proc <> PUB /\
  presses full_env 40 true (typing (lit "add " ++ e_acute) ++ [stroke (KAscii "009")]) demo_proc <> PFuel /\
  presses full_env 40 true (typing (lit "  " ++ e_acute) ++ [stroke (KAscii "009")]) demo_proc = PUB /\
  presses full_env 40 true (typing (lit "sub" ++ e_acute) ++ [stroke (KAscii "009")]) demo_proc = PUB /\
  presses full_env 40 true (typing (lit "sub deep.." ++ e_acute) ++ [stroke (KAscii "009")]) demo_proc = PUB /\
  presses quiet_env 40 true (typing (lit "sub") ++ [ret] ++ typing (lit "kill")) bad_proc <> PUB /\
  presses quiet_env 40 true (typing (lit "sub") ++ [ret] ++ typing (lit "kill") ++ [ret]) bad_proc = PUB.
Proof.
  split; [exists [OLoad [lit "old"; lit "add 1 2"]]; reflexivity|].
  split; [split; cbv; repeat constructor; cbn; intuition (discriminate || lia)|].
  split; [split; reflexivity|].
  repeat (split; [first [vm_compute; reflexivity|vm_compute; discriminate]|]). vm_compute; reflexivity.
Qed.

(** A telnet server, whatever clients connect and send, and however their handlers are
    interleaved: undefined exactly if some key is, when it is its turn. *)
Theorem C107_server : forall E net size fuel tty color root nxt st is, size >= 1 -> tree_ok root nxt ->
  sv_run E net size fuel tty color is (server_init root nxt st) <> VFuel ->
  (sv_run E net size fuel tty color is (server_init root nxt st) = VUB <->
   exists is1 is2 sv, is = is1 ++ IRun :: is2 /\ sv_run E net size fuel tty color is1 (server_init root nxt st) = VOk sv /\
     undefined_next E net fuel sv).
Proof.
  intros E net size fuel tty color root nxt st is Hs Ht. apply (run_undefined E net size fuel tty color Hs). apply init_ok. exact Ht.
Qed.
Print Assumptions C107_server.

(** A local session with its threads: undefined steps are those of undefined keys. *)
Theorem C107_local : forall E sgn size fuel tty color m junk root nxt st l a s, size >= 1 -> tree_ok root nxt ->
  let w := open_session 0 size root nxt st [] in
  lreaches E sgn fuel tty color m junk w l s -> l_step E sgn fuel tty color a s = LcUB ->
  exists p0 ks p k e, opened_alone E tty color w = Some p0 /\ pressed_alone E fuel tty color ks p0 = Some p /\
    holds (p_term p) e /\ undefined_key E fuel k (ed_text e) (p_world p).
Proof.
  intros E sgn size fuel tty color m junk root nxt st l a s Hs (Hm & Hu & Hf) w Hl Hub.
  assert (Ho : KeyServerProofs.opening size w).
  { split; [|reflexivity]. split; [exists [OLoad (st_commands st)]; reflexivity|]. split; [split; assumption|intros _; exact Hm]. }
  pose proof (open_kept E size tty (fst (color (w_trace w))) w Ho) as Hk.
  destruct (C67_ub E sgn fuel tty color m junk w l a s Hl Hub) as [H|(p0 & ks & p & k & Hp0 & Hp & Hb)]; [rewrite H in Hk; destruct Hk|].
  unfold opened_alone in Hp0. destruct (open_local E tty (fst (color (w_trace w))) w) as [p0'|x p0'| |] eqn:Hop; try discriminate. injection Hp0 as ->.
  destruct Hk as (Hk & He). destruct (pressed_kept E size fuel tty color ks p0 p Hk He Hp) as ((H1 & H2 & _) & (e & He')).
  exists p0, ks, p, k, e. split; [unfold opened_alone; rewrite Hop; reflexivity|]. split; [exact Hp|]. split; [exact He'|].
  set (ss := let (c1, c2) := color (w_trace (p_world p)) in mkStroke k c1 c2) in *.
  assert (Hks : ks_key ss = k) by (unfold ss; destruct (color (w_trace (p_world p))); reflexivity).
  rewrite <- Hks. apply (press_undefined E size Hs fuel tty ss p e He' H1 H2); [rewrite Hb; discriminate|exact Hb].
Qed.
Print Assumptions C107_local.

(** Tab in one session after the name of a menu and a byte that is not ASCII, while
    another client is connected. *)
Example C107_server_nonvacuous : tree_ok demo_root 20 /\
  let is := [IConnect true; IRun; IConnect true; IRun; IRead 1 (RData (lit "sub" ++ ["233"; "009"]%char)); IRun; IRead 0 (RData (lit "ls")); IRun] in
  (exists sv, demo_server full_env tcp_ok (is ++ runs 3) = VOk sv) /\ demo_server full_env tcp_ok (is ++ runs 4) = VUB /\
  demo_server full_env tcp_ok (is ++ runs 4) <> VFuel.
Proof.
  split; [split; [repeat eexists|split; cbv; repeat constructor; cbn; intuition (discriminate || lia)]|].
  cbn zeta. split; [eexists; vm_compute; reflexivity|]. split; vm_compute; [reflexivity|discriminate].
Qed.

(** The same byte and Tab, typed at the keyboard of a local session. *)
Example C107_local_nonvacuous : exists s,
  lreaches quiet_env true 10 true no_color cooked junk0 demo_world
    (PropLocal.opening ++ [LKbd (Type_ ["233"; "009"]%char)] ++ keys_typed 2 ++ [LMain]) s /\
  l_step quiet_env true 10 true no_color LMain s = LcUB.
Proof. eexists. split; [vm_compute; reflexivity|vm_compute; reflexivity]. Qed.

(** It is not so that only the names of menus one may use are looked at: the name of a
    disabled menu followed by such a character is undefined, too. *)
Definition hidden_world : world :=
  open_session 0 5 (CMenu 10 (lit "cli") true [] (lit "cli") [CMenu 11 (lit "hid") false [] (lit "hid") []]) 20 (StVolatile 10 []) [].
Theorem C107_disabled_refuted : exists w ctx line, in_menu w ctx /\
  (forall k, In k (flat_map cmd_kids ctx) -> cmd_en k = false) /\
  ~ odd_start (mkPlatform true false) line /\ get_completions (mkPlatform true false) 40 line w = GUB.
Proof.
  exists hidden_world, [w_root hidden_world], (lit "hid" ++ e_acute).
  split; [split; [constructor; repeat eexists|]; do 2 eexists; split; reflexivity|].
  split; [intros k Hk; cbn in Hk; destruct Hk as [<-|[]]; reflexivity|].
  split; [rewrite <- trim_odd; discriminate|vm_compute; reflexivity].
Qed.
Print Assumptions C107_disabled_refuted.

(** Nor so that a line whose words are all unknown is harmless. *)
Theorem C107_unknown_refuted : exists w line, live w /\
  ~ odd_start (mkPlatform true false) line /\
  (forall ctx m, in_menu w ctx -> In m (flat_map cmd_kids ctx) -> cmd_name m <> line) /\
  get_completions (mkPlatform true false) 40 line w = GUB.
Proof.
  exists demo_world, (lit "sub" ++ e_acute).
  split; [exists [demo_root]; split; [constructor; repeat eexists|]; do 2 eexists; split; reflexivity|].
  split; [rewrite <- trim_odd; discriminate|]. split; [|vm_compute; reflexivity].
  intros ctx m Hin Hk. apply in_menu_locate in Hin; [|cbv; repeat constructor; cbn; intuition discriminate].
  vm_compute in Hin. injection Hin as <-.
  cbn in Hk. repeat (destruct Hk as [<-|Hk]; [discriminate|]). destruct Hk.
Qed.
Print Assumptions C107_unknown_refuted.
