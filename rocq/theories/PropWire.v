(** * C79: what telnet clients receive *)

From Verif Require Import Base SplitModel FromStringModel HistoryModel StorageModel TerminalModel MenuModel SessionModel ProcessorModel TelnetModel TelnetSpec
  ServerModel ServerSpec IsolationSpec AcceptSpec WireModel WireSpec WireProofs Demo.
Open Scope nat_scope.
Open Scope list_scope.

(** The bytes written to the socket of each client are the greeting, then what is printed
    in its session and what is broadcast, in order, complete and once, lines ended with
    CR LF, mixed with the replies to its telnet commands.  Nothing is missing as long as
    the socket is open; it is closed right after the server's exit action. *)
Theorem C79_stream : forall E net size fuel tty color sid root nxt st is sv,
  sv_run E net size fuel tty color is (server_init root nxt st) = VOk sv -> sid < sv_sid sv ->
  exists ps heard lost, sv_trace sv = heard ++ lost /\
    sk_sent (wire_run E net size fuel tty color sid is (server_init root nxt st) sock_init) = flat_map piece_bytes ps /\
    texts ps = audible sid (since sid heard) /\ replies_in ps = replied E net size fuel tty color sid is (server_init root nxt st) /\
    (exists s ps', ps = Text (hello ++ s) :: ps') /\
    (closed E net sid (sv_trace sv) = false -> own sid lost = [] /\ (sv_conns sv sid <> None -> lost = [])) /\
    (closed E net sid (sv_trace sv) = true -> closes E net sid heard).
Proof. exact streams. Qed.
Print Assumptions C79_stream.
(** Each handler sends what it prints, and then its replies. *)
Theorem C79_order : forall E net size fuel tty color sid root nxt st is sv i sv',
  sv_run E net size fuel tty color is (server_init root nxt st) = VOk sv ->
  (sv_step E net size fuel tty color i sv = VOk sv' \/ exists x, sv_step E net size fuel tty color i sv = VExc x sv') -> sv_conns sv sid <> None ->
  closed E net sid (sv_trace sv') = false -> exists new, sv_trace sv' = sv_trace sv ++ new /\
  sk_sent (wire_run E net size fuel tty color sid (is ++ [i]) (server_init root nxt st) sock_init) =
    sk_sent (wire_run E net size fuel tty color sid is (server_init root nxt st) sock_init) ++ crlf (audible sid new) ++ concat (replies E net sid i sv).
Proof. exact one_step. Qed.
Print Assumptions C79_order.
(** Nothing is sent before a client is accepted, or after its socket was closed. *)
Theorem C79_before : forall E net size fuel tty color sid root nxt st is sv,
  sv_run E net size fuel tty color is (server_init root nxt st) = VOk sv -> sv_sid sv <= sid ->
  sk_sent (wire_run E net size fuel tty color sid is (server_init root nxt st) sock_init) = [].
Proof. exact wire_before. Qed.
Print Assumptions C79_before.
Theorem C79_shut : forall E net size fuel tty color sid root nxt st is sv,
  sv_run E net size fuel tty color is (server_init root nxt st) = VOk sv -> closed E net sid (sv_trace sv) = true -> forall is',
  sk_sent (wire_run E net size fuel tty color sid (is ++ is') (server_init root nxt st) sock_init) =
  sk_sent (wire_run E net size fuel tty color sid is (server_init root nxt st) sock_init).
Proof. exact shut. Qed.
Print Assumptions C79_shut.
(** If the client's bytes are a telnet stream without requests about option 10, and no
    byte 255 is printed, then it receives a telnet stream: the greeting, and then the
    replies to its requests, in order, and data that a client shows as what was printed. *)
Theorem C79_protocol : forall E net size fuel tty color sid root nxt st is sv cis,
  sv_run E net size fuel tty color is (server_init root nxt st) = VOk sv -> sid < sv_sid sv ->
  delivered E net size fuel tty color sid is (server_init root nxt st) = wire cis -> Forall item_ok cis -> (forall q, In q (requests cis) -> snd q <> "010"%char) ->
  ~ In FF (audible sid (tl (since sid (sv_trace sv)))) ->
  exists items heard lost answered waiting, sv_trace sv = heard ++ lost /\
    sk_sent (wire_run E net size fuel tty color sid is (server_init root nxt st) sock_init) = wire (hello_items ++ items) /\ Forall item_ok items /\
    client (data_of items) = audible sid (tl (since sid heard)) /\ requests cis = answered ++ waiting /\ filter control items = map reply_item answered /\
    (closed E net sid (sv_trace sv) = false -> sv_conns sv sid <> None -> lost = []).
Proof. exact telnet_stream. Qed.
Print Assumptions C79_protocol.

(** Two clients; the second negotiates an option, runs a command and exits.  Enter is
    echoed as CR LF, which is sent as CR CR LF. *)
Definition bye_hook (sid : nat) (k : hook) (args : list str) (tr : list event) : uresult :=
  match k with
  | KSesExit => mkURes [OOut (lit "closing"); OBroadcast (lit "!")] UReturn
  | KCliExit => mkURes [OOut (lit "Goodbye" ++ nl)] UReturn
  | _ => mkURes [] UReturn
  end.
Definition bye_env : env := mkEnv (mkPlatform true false) (fun _ _ => None) (fun _ _ => None) demo_handler bye_hook (fun _ => true).
Definition up (sid : nat) (tr : list event) : bool := true.
Definition plain_color (tr : list event) : bool * bool := (false, false).
Definition bye_sent (sid : nat) (is : list input) : str := sk_sent (wire_run bye_env up 5 3 false plain_color sid is (server_init demo_root 20 (StVolatile 10 [])) sock_init).
Definition bye_items : list item := [INeg Do "003"%char; IData "h"; IData "i"; IData "013"; IData "000"]%char.
Definition bye_talk : list input := [IConnect true; IRun; IConnect true; IRun; IRead 1 (RData (wire bye_items))] ++ runs 4.
Example C79_nonvacuous : exists sv sv', let init := server_init demo_root 20 (StVolatile 10 []) in
  sv_run bye_env up 5 3 false plain_color bye_talk init = VOk sv /\ sv_sid sv = 2 /\ closed bye_env up 1 (sv_trace sv) = false /\ sv_conns sv 1 <> None /\
  delivered bye_env up 5 3 false plain_color 1 bye_talk init = wire bye_items /\ Forall item_ok bye_items /\ requests bye_items = [(Do, "003"%char)] /\
  ~ In FF (audible 1 (tl (since 1 (sv_trace sv)))) /\
  bye_sent 1 bye_talk = hello ++ lit "cli> " ++ [IAC; WILL; "003"%char] ++ lit "hi" ++ ["013"; "013"; "010"]%char ++ lit "cli> " /\
  let later := bye_talk ++ [IRead 1 (RData ["004"%char])] ++ runs 3 in
  sv_run bye_env up 5 3 false plain_color later init = VOk sv' /\ closed bye_env up 1 (sv_trace sv') = true /\
  bye_sent 1 later = bye_sent 1 bye_talk ++ lit "closing!" /\ bye_sent 0 later = hello ++ lit "cli> !".
Proof.
  eexists _, _. cbn zeta. split; [vm_compute; reflexivity|]. split; [reflexivity|]. split; [vm_compute; reflexivity|]. split; [discriminate|]. split; [vm_compute; reflexivity|].
  split; [repeat constructor; discriminate|]. split; [reflexivity|]. split; [vm_compute; intuition discriminate|]. split; [vm_compute; reflexivity|].
  split; [vm_compute; reflexivity|]. split; [vm_compute; reflexivity|]. split; vm_compute; reflexivity.
Qed.
Print Assumptions C79_nonvacuous.

(** What the global exit action prints is not received: the socket is closed by then. *)
Theorem C79_goodbye_refuted : exists E root st is sv s, (forall sid args tr, e_hook E sid KCliExit args tr = mkURes [OOut s] UReturn) /\ s = lit "Goodbye" ++ nl /\
  sv_run E up 5 3 false plain_color is (server_init root 20 st) = VOk sv /\ In (EvOut 0 s) (sv_trace sv) /\
  forall is' a b, sk_sent (wire_run E up 5 3 false plain_color 0 (is ++ is') (server_init root 20 st) sock_init) <> a ++ lit "Goodbye" ++ b.
Proof.
  exists bye_env, demo_root, (StVolatile 10 []), ([IConnect true; IRun; IRead 0 (RData ["004"%char])] ++ runs 3). eexists _, _.
  split; [reflexivity|]. split; [reflexivity|]. split; [vm_compute; reflexivity|]. split; [vm_compute; auto 20|].
  intros is' a b. erewrite C79_shut; [|vm_compute; reflexivity|vm_compute; reflexivity].
  match goal with |- ?x <> _ => let y := eval vm_compute in x in change x with y end.
  intros H. assert (Hin : In "G"%char (a ++ lit "Goodbye" ++ b)) by (apply in_or_app; right; left; reflexivity). rewrite <- H in Hin. cbn in Hin. intuition discriminate.
Qed.
Print Assumptions C79_goodbye_refuted.
