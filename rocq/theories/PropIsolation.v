(** * C63: sessions of a server do not interfere *)

From Verif Require Import Base FromStringModel HistoryModel StorageModel TerminalModel MenuModel SessionModel ProcessorModel TelnetModel ServerModel ServerSpec
  IsolationSpec IsolationProofs Demo.
Open Scope nat_scope.
Open Scope list_scope.

(** Whatever the other clients do, and in whatever order things happen: what happens in a
    session, and its state, are what they are when the session is alone, from the commands
    stored when it was opened and the keys handled. *)
Theorem C63_alone : forall E net size fuel tty color, separate E net -> menus_fixed E -> forall sid root nxt st is sv,
  sv_run E net size fuel tty color is (server_init root nxt st) = VOk sv -> sid < sv_sid sv ->
  exists is1 is2 sv1 q p0 ks p, is = is1 ++ IRun :: is2 /\ sv_run E net size fuel tty color is1 (server_init root nxt st) = VOk sv1 /\
    sv_sid sv1 = sid /\ sv_queue sv1 = TkAccept true :: q /\
    ended (alone_open (telnet_env E net) tty (fst (color (sv_trace sv1))) sid size root nxt (sv_store sv1)) = Some p0 /\
    typed (telnet_env E net) fuel tty ks p0 = Some p /\ map ks_key ks = handled E net size fuel tty color sid is (server_init root nxt st) /\
    Forall (fun k => exists t, color t = (ks_color k, ks_color' k)) ks /\
    own sid (w_trace (p_world p)) = own sid (sv_trace sv) /\ forall c, sv_conns sv sid = Some c -> same_session p c.
Proof. exact session_alone. Qed.
Print Assumptions C63_alone.
(** So two runs with the same keys of the session, the same stored commands when it was
    opened and the same colours have the same output and calls in that session. *)
Theorem C63_same : forall E net size fuel tty color, separate E net -> menus_fixed E -> forall sid root nxt st c1 c2 is is' sv sv',
  (forall t, color t = (c1, c2)) ->
  sv_run E net size fuel tty color is (server_init root nxt st) = VOk sv -> sv_run E net size fuel tty color is' (server_init root nxt st) = VOk sv' ->
  sid < sv_sid sv -> sid < sv_sid sv' ->
  opened_with E net size fuel tty color sid is (server_init root nxt st) = opened_with E net size fuel tty color sid is' (server_init root nxt st) ->
  handled E net size fuel tty color sid is (server_init root nxt st) = handled E net size fuel tty color sid is' (server_init root nxt st) ->
  own sid (sv_trace sv) = own sid (sv_trace sv').
Proof. exact sessions_same. Qed.
Print Assumptions C63_same.

(** A function that prints how much happened in its session and tells everybody. *)
Definition count_handler (sid h : nat) (args : list value) (tr : list event) : uresult :=
  mkURes [OOut (repeat "x"%char (length (own sid tr))); OBroadcast (lit "b")] UReturn.
Definition count_env : env := mkEnv (mkPlatform true false) (fun _ _ => None) (fun _ _ => None) count_handler demo_hook (fun _ => true).
Definition up (sid : nat) (tr : list event) : bool := true.
Definition plain (tr : list event) : bool * bool := (false, false).
Definition says (sid : nat) (s : str) : list input := IRead sid (RData (s ++ ["013"; "000"]%char)) :: repeat IRun (length s + 2).
Definition add12 : str := lit "add 1 2".
Definition connect2 : list input := [IConnect true; IRun; IConnect true; IRun].
Definition serve (E : env) (root : cmd) (is : list input) : vres := sv_run E up 5 3 false plain is (server_init root 20 (StVolatile 10 [])).
Definition keys (E : env) (root : cmd) (sid : nat) (is : list input) : list key := handled E up 5 3 false plain sid is (server_init root 20 (StVolatile 10 [])).
Example C63_nonvacuous : exists sv sv', let is := connect2 ++ says 1 add12 ++ says 0 (lit "sub") ++ says 1 (lit "say a b") ++ [IRead 0 (RData (lit "deep")); IRead 1 (RData ["004"%char])] ++ repeat IRun 8 in
  let is' := [IConnect true; IRun] ++ says 0 (lit "sub") ++ [IRead 0 (RData (lit "deep"))] ++ repeat IRun 5 in
  separate count_env up /\ menus_fixed count_env /\ serve count_env demo_root is = VOk sv /\ serve count_env demo_root is' = VOk sv' /\
  0 < sv_sid sv /\ 0 < sv_sid sv' /\ keys count_env demo_root 0 is = keys count_env demo_root 0 is' /\ length (keys count_env demo_root 0 is) = 8 /\
  opened_with count_env up 5 3 false plain 0 is (server_init demo_root 20 (StVolatile 10 [])) = Some (StVolatile 10 []) /\
  length (own 0 (sv_trace sv')) = 14 /\ length (sv_trace sv) = 52 /\ sv_conns sv 1 = None.
Proof.
  eexists _, _. cbn zeta. split.
  { split; [intros sid h args t t' H; cbn; unfold count_handler; rewrite H; reflexivity|split; reflexivity]. }
  split; [split; intros; repeat constructor|].
  do 2 (split; [vm_compute; reflexivity|]). do 2 (split; [vm_compute; lia|]). repeat (split; [vm_compute; reflexivity|]). vm_compute. reflexivity.
Qed.
Print Assumptions C63_nonvacuous.

(** The menus are shared: a command of one session that changes them changes the others. *)
Definition turns (s : str) (first : bool) : list input := connect2 ++ (if first then says 1 s else []) ++ says 0 add12 ++ (if first then [] else says 1 s).
Theorem C63_menus_refuted : exists E root s sv sv', separate E up /\ serve E root (turns s true) = VOk sv /\ serve E root (turns s false) = VOk sv' /\
  (forall sid, sid < 2 -> keys E root sid (turns s true) = keys E root sid (turns s false)) /\
  own 0 (sv_trace sv) <> own 0 (sv_trace sv') /\ In (EvCall 0 0 [VInt 1; VInt 2]) (own 0 (sv_trace sv')) /\ ~ In (EvCall 0 0 [VInt 1; VInt 2]) (own 0 (sv_trace sv)).
Proof.
  exists full_env, demo_root, (lit "chg"). eexists _, _. split; [split; [reflexivity|split; reflexivity]|].
  do 2 (split; [vm_compute; reflexivity|]). split. { intros [|[|sid]] H; [vm_compute; reflexivity|vm_compute; reflexivity|lia]. }
  assert (H : forall (a b : list event) x, In x b -> ~ In x a -> a <> b /\ In x b /\ ~ In x a) by (intros a b x Hb Ha; split; [intros ->; exact (Ha Hb)|auto]).
  apply H; [vm_compute; tauto|vm_compute; intuition discriminate].
Qed.
Print Assumptions C63_menus_refuted.
(** A session in a menu that another session's command removes: undefined behaviour at
    its next command. *)
Theorem C63_removed_refuted : exists E root is, separate E up /\
  serve E root (connect2 ++ says 0 (lit "sub") ++ is) <> VUB /\ serve E root (connect2 ++ says 0 (lit "sub") ++ says 1 (lit "sub kill") ++ is) = VUB.
Proof.
  exists full_env, bad_root, (says 0 (lit "help")). split; [split; [reflexivity|split; reflexivity]|]. split; [vm_compute; discriminate|vm_compute; reflexivity].
Qed.
Print Assumptions C63_removed_refuted.
