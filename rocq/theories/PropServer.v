(** * C55, C60, C61: properties of the telnet server *)

From Verif Require Import Base SplitModel FromStringModel HistoryModel HistorySpec StorageModel TerminalModel TerminalSpec MenuModel SessionModel
  SessionSpec ProcessorModel ProcessorSpec TelnetModel ServerModel ServerSpec ServerProofs Demo.
Open Scope nat_scope.
Open Scope list_scope.

(** C55: in every state a server reaches, if the only thing that happens is that the
    client of an open session sends bytes that mean Ctrl-D, or keys that edit the line to
    the word exit and Enter, then after handling them the session is closed and destroyed,
    no exception left [Run], and the other sessions are as before. *)
Theorem C55_session : forall E net size fuel tty color root nxt st is sv sid c chunk d ks sent,
  exits_return E -> hooks_no_bad_cast E -> (forall tr, net sid tr = true) -> size >= 1 -> 1 <= fuel ->
  sv_run E net size fuel tty color is (server_init root nxt st) = VOk sv ->
  sv_conns sv sid = Some c -> c_reading c = true -> closed E net sid (sv_trace sv) = false -> sv_queue sv = [] ->
  receive chunk (c_dev c) = (d, (ks, sent)) ->
  (ks = [KEof] \/ exists e ks', holds (c_term c) e /\ ks = ks' ++ [KRet] /\ Forall (fun k => editing k = true) ks' /\
     split (ed_text (snd (ed_run (map EKey ks') e))) = Some [lit "exit"]) ->
  let later := IRead sid (RData chunk) :: runs (length ks + 2) in
  exists sv', sv_run E net size fuel tty color later sv = VOk sv' /\ sv_thrown E net size fuel tty color later sv = [] /\
    sv_conns sv' sid = None /\ closed E net sid (sv_trace sv') = true /\ (forall i, i <> sid -> sv_conns sv' i = sv_conns sv i) /\
    sv_accepting sv' = sv_accepting sv /\ sv_queue sv' = [].
Proof.
  intros E net size fuel tty color root nxt st is sv sid c chunk d ks sent Hx Hb Hn Hs Hf Hrun Hc Hr Ho Hq Hrc Hks.
  assert (Hok : conns_ok size sv).
  { pose proof (run_conns E net size fuel tty color is (server_init root nxt st) (init_conns size root nxt st)) as H. rewrite Hrun in H. exact H. }
  exact (session_ends E net size fuel tty color sv sid c chunk d ks sent Hx Hb Hn Hs Hf Hok Hc Hr Ho Hq Hrc Hks).
Qed.
Print Assumptions C55_session.
(** Whatever else is waiting: the handler of Ctrl-D disconnects, and so do those of the
    keys of the exit command. *)
Theorem C55_eof : forall E net size fuel tty color sv sid c q, exits_return E -> (forall tr, net sid tr = true) -> size >= 1 -> reachable size (c_hist c) ->
  sv_conns sv sid = Some c -> closed E net sid (sv_trace sv) = false -> sv_queue sv = TkKey sid KEof :: q ->
  exists sv', sv_step E net size fuel tty color IRun sv = VOk sv' /\ disconnected E net sid sv sv' /\
    sv_queue sv' = q ++ if c_reading c then [TkRead sid RError] else [].
Proof. exact eof_step. Qed.
Print Assumptions C55_eof.
Theorem C55_exit : forall E net size fuel tty color sv sid c e ks q,
  exits_return E -> hooks_no_bad_cast E -> (forall tr, net sid tr = true) -> size >= 1 -> reachable size (c_hist c) -> 1 <= fuel ->
  sv_conns sv sid = Some c -> holds (c_term c) e -> closed E net sid (sv_trace sv) = false ->
  sv_queue sv = map (TkKey sid) (ks ++ [KRet]) ++ q -> Forall (fun k => editing k = true) ks ->
  split (ed_text (snd (ed_run (map EKey ks) e))) = Some [lit "exit"] ->
  exists sv', sv_run E net size fuel tty color (runs (length (ks ++ [KRet]))) sv = VOk sv' /\
    sv_thrown E net size fuel tty color (runs (length (ks ++ [KRet]))) sv = [] /\ disconnected E net sid sv sv' /\
    sv_queue sv' = q ++ if c_reading c then [TkRead sid RError] else [].
Proof. exact exit_steps. Qed.
Print Assumptions C55_exit.

(** Two clients; the second types exit. *)
Definition tcp_ok (sid : nat) (tr : list event) : bool := true.
Definition no_color (tr : list event) : bool * bool := (false, false).
Definition demo_server (E : env) (net : nat -> list event -> bool) (is : list input) : vres :=
  sv_run E net 5 3 false no_color is (server_init demo_root 20 (StVolatile 10 [])).
Definition two_clients : list input := [IConnect true; IRun; IConnect true; IRun; IRead 1 (RData (lit "ls")); IRun; IRun; IRun].
Definition state_of (r : vres) (sv0 : server) : server := match r with VOk sv | VExc _ sv => sv | _ => sv0 end.
Definition two_state : server := state_of (demo_server full_env tcp_ok two_clients) (server_init demo_root 20 (StVolatile 10 [])).
Example C55_nonvacuous : exists c d ks sent, let chunk := ["008"; "008"; "e"; "x"; "i"; "t"; "013"; "000"]%char in
  exits_return full_env /\ hooks_no_bad_cast full_env /\
  demo_server full_env tcp_ok two_clients = VOk two_state /\ sv_conns two_state 1 = Some c /\ c_reading c = true /\
  closed full_env tcp_ok 1 (sv_trace two_state) = false /\ sv_queue two_state = [] /\
  receive chunk (c_dev c) = (d, (ks ++ [KRet], sent)) /\ holds (c_term c) (mkEd (lit "sl") []) /\ Forall (fun k => editing k = true) ks /\
  split (ed_text (snd (ed_run (map EKey ks) (mkEd (lit "sl") [])))) = Some [lit "exit"].
Proof.
  eexists _, _, [KBackspace; KBackspace; KAscii "e"; KAscii "x"; KAscii "i"; KAscii "t"], _. cbn zeta.
  split; [split; [reflexivity|split; reflexivity]|]. split; [discriminate|].
  do 6 (split; [vm_compute; reflexivity|]). split; [split; vm_compute; reflexivity|]. split; [repeat constructor|vm_compute; reflexivity].
Qed.
Print Assumptions C55_nonvacuous.

(** If the application never called [ExitAction] of the server, Ctrl-D makes the
    scheduler's [Run] throw and the exit command leaves the session open. *)
Definition hooks_but_exit : env := demo_env (fun k => match k with KSesExit => false | _ => true end).
Theorem C55_no_action_refuted : exists E root st is1 is2,
  (forall sid k args tr, ur_end (e_hook E sid k args tr) = UReturn) /\
  sv_thrown E tcp_ok 5 3 false no_color is1 (server_init root 20 st) = [bad_function_call] /\
  is1 = [IConnect true; IRun; IRead 0 (RData ["004"%char]); IRun; IRun] /\
  is2 = [IConnect true; IRun; IRead 0 (RData (lit "exit" ++ ["013"; "000"]%char))] ++ runs 6 /\
  exists sv c, sv_run E tcp_ok 5 3 false no_color is2 (server_init root 20 st) = VOk sv /\ sv_queue sv = [] /\
    sv_conns sv 0 = Some c /\ c_exit c = false /\ c_reading c = true /\ closed E tcp_ok 0 (sv_trace sv) = false.
Proof.
  exists hooks_but_exit, demo_root, (StVolatile 10 []), [IConnect true; IRun; IRead 0 (RData ["004"%char]); IRun; IRun],
    ([IConnect true; IRun; IRead 0 (RData (lit "exit" ++ ["013"; "000"]%char))] ++ runs 6).
  split; [reflexivity|]. split; [vm_compute; reflexivity|]. split; [reflexivity|]. split; [reflexivity|].
  eexists _, _. split; [vm_compute; reflexivity|]. repeat (split; [vm_compute; reflexivity|]). vm_compute. reflexivity.
Qed.
Print Assumptions C55_no_action_refuted.
(** Two Ctrl-D in one read: the second shuts a closed socket down, and [Run] throws. *)
Theorem C55_twice_refuted : exists E root st is, exits_return E /\ is = [IConnect true; IRun; IRead 0 (RData ["004"; "004"]%char)] ++ runs 3 /\
  sv_thrown E tcp_ok 5 3 false no_color is (server_init root 20 st) = [XStd (lit "shutdown: Bad file descriptor")].
Proof.
  exists full_env, demo_root, (StVolatile 10 []), ([IConnect true; IRun; IRead 0 (RData ["004"; "004"]%char)] ++ runs 3).
  split; [split; [reflexivity|split; reflexivity]|]. split; [reflexivity|vm_compute; reflexivity].
Qed.
Print Assumptions C55_twice_refuted.
(** The client has reset the connection when the exit is handled: [Run] throws. *)
Theorem C55_reset_refuted : exists E net root st is x, exits_return E /\ is = [IConnect true; IRun; IRead 0 (RData ["004"]%char)] ++ runs 2 /\
  sv_thrown E net 5 3 false no_color is (server_init root 20 st) = [XStd x].
Proof.
  exists full_env, (fun _ _ => false), demo_root, (StVolatile 10 []), ([IConnect true; IRun; IRead 0 (RData ["004"]%char)] ++ runs 2), (lit "shutdown: Transport endpoint is not connected").
  split; [split; [reflexivity|split; reflexivity]|]. split; [reflexivity|vm_compute; reflexivity].
Qed.
Print Assumptions C55_reset_refuted.
(** A command line after exit is executed if it came in the same read, not otherwise. *)
Definition bye : str := lit "exit" ++ ["013"; "000"]%char.
Definition sum : str := lit "add 1 2" ++ ["013"; "000"]%char.
Definition called (sv : server) : bool := existsb (fun e => match e with EvCall _ _ _ => true | _ => false end) (sv_trace sv).
Theorem C55_after_refuted : exists E root st a b, exits_return E /\
  (exists sv, sv_run E tcp_ok 5 3 false no_color ([IConnect true; IRun; IRead 0 (RData (a ++ b))] ++ runs 20) (server_init root 20 st) = VOk sv /\ called sv = true) /\
  (exists sv, sv_run E tcp_ok 5 3 false no_color ([IConnect true; IRun; IRead 0 (RData a)] ++ runs 20 ++ [IRead 0 (RData b)] ++ runs 20) (server_init root 20 st) = VOk sv /\ called sv = false).
Proof.
  exists full_env, demo_root, (StVolatile 10 []), bye, sum. split; [split; [reflexivity|split; reflexivity]|].
  split; eexists; split; vm_compute; reflexivity.
Qed.
Print Assumptions C55_after_refuted.

(** C60: no handler uses a destroyed session: not its keys, nor its reads, whatever
    clients do and in whatever order things happen, also after exceptions. *)
Theorem C60_alive : forall E net size fuel tty color root nxt st is,
  sv_run E net size fuel tty color is (server_init root nxt st) <> VGone.
Proof.
  intros E net size fuel tty color root nxt st is H. pose proof (run_alive E net size fuel tty color is _ (init_alive root nxt st)) as Hg. rewrite H in Hg. exact Hg.
Qed.
Print Assumptions C60_alive.
(** A session is destroyed only with no handler waiting for it. *)
Theorem C60_gone : forall E net size fuel tty color root nxt st is sv sid t,
  sv_run E net size fuel tty color is (server_init root nxt st) = VOk sv -> In t (sv_queue sv) -> of_sid sid t = true -> sv_conns sv sid <> None.
Proof.
  intros E net size fuel tty color root nxt st is sv sid t H Hin Ht Hn. pose proof (run_alive E net size fuel tty color is _ (init_alive root nxt st)) as Hg.
  rewrite H in Hg. destruct Hg as (Hg & _). specialize (Hg sid). rewrite Hn in Hg. cbn in Hg. assert (Hi : In t (mine sid (sv_queue sv))) by (apply filter_In; split; assumption).
  rewrite Hg in Hi. exact Hi.
Qed.
Print Assumptions C60_gone.
(** Keys waiting behind the one that closes the session. *)
Example C60_nonvacuous : exists sv c t, let is := [IConnect true; IRun; IRead 0 (RData (bye ++ sum))] ++ runs 6 in
  demo_server full_env tcp_ok is = VOk sv /\ closed full_env tcp_ok 0 (sv_trace sv) = true /\ sv_conns sv 0 = Some c /\
  length (sv_queue sv) = 9 /\ In t (sv_queue sv) /\ of_sid 0 t = true /\
  exists sv', demo_server full_env tcp_ok (is ++ runs 9) = VOk sv' /\ sv_conns sv' 0 = None /\ sv_queue sv' = [].
Proof.
  eexists _, _, (TkKey 0 KRet). cbn zeta. split; [vm_compute; reflexivity|]. split; [vm_compute; reflexivity|]. split; [vm_compute; reflexivity|]. split; [vm_compute; reflexivity|].
  split; [cbn; intuition|]. split; [reflexivity|]. eexists. split; [vm_compute; reflexivity|]. split; reflexivity.
Qed.
Print Assumptions C60_nonvacuous.

(** C61: the keys of a session that were handled are always the first of those its bytes
    mean, in order, each once, whatever other sessions do and however the bytes are cut. *)
Theorem C61_order : forall E net size fuel tty color sid root nxt st is,
  exists waiting, fst (snd (receive (delivered E net size fuel tty color sid is (server_init root nxt st)) dev_init)) =
    handled E net size fuel tty color sid is (server_init root nxt st) ++ waiting.
Proof.
  intros E net size fuel tty color sid root nxt st is.
  destruct (proj1 (flows_run E net size fuel tty color sid is _ [] [] [] (init_flows sid root nxt st))) as (ks & more & H). cbn [app] in H. rewrite H. exists ks. reflexivity.
Qed.
Print Assumptions C61_order.
(** The same for the replies to its telnet commands. *)
Theorem C61_replies : forall E net size fuel tty color sid root nxt st is,
  exists waiting, snd (snd (receive (delivered E net size fuel tty color sid is (server_init root nxt st)) dev_init)) =
    replied E net size fuel tty color sid is (server_init root nxt st) ++ waiting.
Proof.
  intros E net size fuel tty color sid root nxt st is.
  destruct (proj1 (flows_run E net size fuel tty color sid is _ [] [] [] (init_flows sid root nxt st))) as (ks & more & H). cbn [app] in H. rewrite H. exists more. reflexivity.
Qed.
Print Assumptions C61_replies.
(** All of them, when a session waits for its client and no handler of it is ready. *)
Theorem C61_complete : forall E net size fuel tty color sid root nxt st is sv c,
  sv_run E net size fuel tty color is (server_init root nxt st) = VOk sv -> sv_conns sv sid = Some c -> c_reading c = true ->
  (forall t, In t (sv_queue sv) -> of_sid sid t = false) ->
  snd (receive (delivered E net size fuel tty color sid is (server_init root nxt st)) dev_init) =
    (handled E net size fuel tty color sid is (server_init root nxt st), replied E net size fuel tty color sid is (server_init root nxt st)).
Proof.
  intros E net size fuel tty color sid root nxt st is sv c Hrun Hc Hr Hq.
  pose proof (proj2 (flows_run E net size fuel tty color sid is _ [] [] [] (init_flows sid root nxt st))) as H. rewrite Hrun in H.
  destruct H as (H & _). rewrite Hc in H. destruct H as (bytes & ks & Hb & H). rewrite Hr in H. destruct H as (Hm & Hd). cbn [app] in *. rewrite Hd, Hb.
  destruct ks as [|k ks]; [rewrite app_nil_r; reflexivity|]. exfalso. assert (Hin : In (TkKey sid k) (mine sid (sv_queue sv))) by (rewrite Hm; left; reflexivity).
  apply filter_In in Hin as (Hin & Ht). rewrite (Hq _ Hin) in Ht. discriminate.
Qed.
Print Assumptions C61_complete.
Example C61_nonvacuous : exists sv c, let is := [IConnect true; IRun; IConnect true; IRun; IRead 0 (RData (lit "ab")); IRead 1 (RData (lit "c")); IRun; IRun; IRun;
    IRead 0 (RData ["027"%char]); IRun; IRun; IRun; IRead 0 (RData (lit "[A")); IRun; IRun; IRun] in
  demo_server full_env tcp_ok is = VOk sv /\ sv_conns sv 0 = Some c /\ c_reading c = true /\ sv_queue sv = [] /\
  handled full_env tcp_ok 5 3 false no_color 0 is (server_init demo_root 20 (StVolatile 10 [])) = [KAscii "a"; KAscii "b"; KUp]%char /\
  handled full_env tcp_ok 5 3 false no_color 1 is (server_init demo_root 20 (StVolatile 10 [])) = [KAscii "c"%char] /\
  replied full_env tcp_ok 5 3 false no_color 1 (is ++ [IRead 1 (RData [IAC; DO; "003"; "d"]%char); IRun]) (server_init demo_root 20 (StVolatile 10 [])) = [[IAC; WILL; "003"%char]].
Proof. eexists _, _. cbn zeta. split; [vm_compute; reflexivity|]. repeat (split; [vm_compute; reflexivity|]). vm_compute. reflexivity. Qed.
Print Assumptions C61_nonvacuous.
