(** * Proofs about the telnet server *)

From Verif Require Import Base FromStringModel HistoryModel HistorySpec HistoryProofs StorageModel PrefixModel CompletionModel TerminalModel TerminalSpec MenuModel SessionModel
  SessionSpec SessionProofs InvariantProofs FeatureProofs ProcessorModel ProcessorSpec ProcessorProofs TelnetModel TelnetSpec TelnetProofs ServerModel ServerSpec.
Open Scope nat_scope.
Open Scope list_scope.

(** ** Sessions are alive while they have tasks *)
Section Life.
Context (E : env) (net : nat -> list event -> bool) (size fuel : nat) (tty : bool) (color : list event -> bool * bool).

Definition mine (sid : nat) (q : list task) : list task := filter (of_sid sid) q.
Definition tasks_ok (sid : nat) (c : option conn) (q : list task) : Prop :=
  match c with
  | None => mine sid q = []
  | Some c => exists ks, if c_reading c then mine sid q = map (TkKey sid) ks else exists r, mine sid q = map (TkKey sid) ks ++ [TkRead sid r]
  end.
Definition alive (sv : server) : Prop :=
  (forall sid, tasks_ok sid (sv_conns sv sid) (sv_queue sv)) /\ (forall sid, sv_sid sv <= sid -> sv_conns sv sid = None).

Lemma mine_app sid a b : mine sid (a ++ b) = mine sid a ++ mine sid b.
Proof. apply filter_app. Qed.
Lemma mine_keys sid ks : mine sid (map (TkKey sid) ks) = map (TkKey sid) ks.
Proof. induction ks as [|k ks IH]; [reflexivity|]. cbn. rewrite Nat.eqb_refl. f_equal. exact IH. Qed.
Lemma mine_other sid i ks : i <> sid -> mine sid (map (TkKey i) ks) = [].
Proof. intros H. induction ks as [|k ks IH]; [reflexivity|]. cbn. destruct (Nat.eqb_spec i sid); [contradiction|exact IH]. Qed.
Lemma upd_conn_same f sid c : upd_conn f sid c sid = c.
Proof. unfold upd_conn. rewrite Nat.eqb_refl. reflexivity. Qed.
Lemma upd_conn_other f sid c i : i <> sid -> upd_conn f sid c i = f i.
Proof. intros H. unfold upd_conn. destruct (Nat.eqb_spec i sid); [contradiction|reflexivity]. Qed.

(** Changing one session and its tasks. *)
Lemma alive_change sv sid c q' f : alive sv -> (sv_conns sv sid <> None \/ c = None) ->
  (forall i, i <> sid -> mine i q' = mine i (sv_queue sv)) -> tasks_ok sid c q' ->
  (f = upd_conn (sv_conns sv) sid c) ->
  (forall i, tasks_ok i (f i) q') /\ (forall i, sv_sid sv <= i -> f i = None).
Proof.
  intros (H1 & H2) Hs Ho Hc ->. split.
  - intros i. destruct (Nat.eq_dec i sid) as [->|Hne]; [rewrite upd_conn_same; exact Hc|]. rewrite upd_conn_other by exact Hne.
    specialize (H1 i). unfold tasks_ok in *. rewrite (Ho i Hne). exact H1.
  - intros i Hi. destruct (Nat.eq_dec i sid) as [->|Hne]; [|rewrite upd_conn_other by exact Hne; apply H2, Hi].
    rewrite upd_conn_same. destruct Hs as [Hs|Hs]; [exfalso; apply Hs, H2, Hi|exact Hs].
Qed.

Definition v_good (r : vres) : Prop := match r with VOk sv | VExc _ sv => alive sv | VGone => False | _ => True end.

Lemma after_key_alive sv sid c p k : sv_conns sv sid = Some c -> alive (set_conns (sv_conns sv) (TkKey sid k :: sv_queue sv) sv) ->
  alive (after_key E net sv sid c p).
Proof.
  intros Hc Ha. pose proof (proj1 Ha sid) as H. cbn [set_conns sv_conns sv_queue] in H. rewrite Hc in H. destruct H as (ks & H).
  cbn [mine filter of_sid] in H. rewrite Nat.eqb_refl in H.
  unfold after_key, alive. cbn [sv_conns sv_queue sv_sid].
  refine (alive_change _ sid _ _ _ Ha _ _ _ eq_refl).
  - left. cbn. rewrite Hc. discriminate.
  - intros i Hi. cbn [set_conns sv_queue mine filter of_sid]. destruct (Nat.eqb_spec sid i); [congruence|].
    fold (mine i (sv_queue sv)). rewrite mine_app. rewrite <- (app_nil_r (mine i (sv_queue sv))) at 2. f_equal.
    destruct (c_reading c && closed E net sid (w_trace (p_world p))); [|reflexivity]. cbn. destruct (Nat.eqb_spec sid i); [congruence|reflexivity].
  - cbn [tasks_ok c_reading]. rewrite mine_app. fold (mine sid (sv_queue sv)) in H. destruct (c_reading c); cbn [andb] in *.
    + destruct ks as [|k' ks]; [discriminate|]. injection H as _ H. rewrite H. exists ks. destruct (closed E net sid (w_trace (p_world p))); cbn [negb].
      * exists RError. cbn. rewrite Nat.eqb_refl. reflexivity.
      * cbn. rewrite app_nil_r. reflexivity.
    + destruct H as (r & H). cbn [mine filter]. rewrite app_nil_r. destruct ks as [|k' ks]; [discriminate|]. injection H as _ H. exists ks, r. exact H.
Qed.

Lemma step_alive i sv : alive sv -> v_good (sv_step E net size fuel tty color i sv).
Proof.
  intros Ha. destruct i as [|ok|sid r]; cbn [sv_step].
  - destruct (sv_queue sv) as [|t q] eqn:Hq; [exact Ha|].
    assert (Hback : alive (set_conns (sv_conns (set_conns (sv_conns sv) q sv)) (t :: sv_queue (set_conns (sv_conns sv) q sv)) (set_conns (sv_conns sv) q sv))).
    { unfold alive. cbn. rewrite <- Hq. exact Ha. }
    set (sv0 := set_conns (sv_conns sv) q sv) in *.
    destruct t as [sid k|sid r|ok]; cbn [run_task].
    + destruct (sv_conns sv0 sid) as [c|] eqn:Hc.
      * destruct (color (sv_trace sv0)) as [c1 c2]. destruct (press _ _ _ _ _) as [p|x p| |]; cbn [v_good]; try exact Logic.I; exact (after_key_alive sv0 sid c p k Hc Hback).
      * cbn. pose proof (proj1 Hback sid) as H. cbn in H. change (sv_conns sv sid) with (sv_conns sv0 sid) in H. rewrite Hc in H. cbn in H. rewrite Nat.eqb_refl in H. discriminate.
    + pose proof (proj1 Hback sid) as H. cbn [set_conns sv_conns sv_queue] in H. destruct (sv_conns sv0 sid) as [c|] eqn:Hc; cbn [v_good].
      2:{ cbn in H. rewrite Nat.eqb_refl in H. discriminate. }
      destruct H as (ks & H). cbn [mine filter of_sid] in H. rewrite Nat.eqb_refl in H. fold (mine sid (sv_queue sv0)) in H.
      assert (Hr : c_reading c = false /\ mine sid (sv_queue sv0) = []).
      { destruct (c_reading c); [destruct ks; discriminate|]. split; [reflexivity|]. destruct H as (r' & H). destruct ks; [injection H as _ H; exact H|discriminate]. }
      destruct Hr as (Hr & Hm). unfold run_read.
      assert (Hgone : alive (set_conns (upd_conn (sv_conns sv0) sid None) (sv_queue sv0) sv0)).
      { unfold alive. cbn [set_conns sv_conns sv_queue sv_sid]. refine (alive_change _ sid None _ _ Hback _ _ _ eq_refl).
        - right. reflexivity.
        - intros i Hi. cbn [set_conns sv_queue mine filter of_sid]. destruct (Nat.eqb_spec sid i); [congruence|reflexivity].
        - exact Hm. }
      destruct (closed E net sid (sv_trace sv0)); [exact Hgone|]. destruct r as [chunk| |]; try exact Hgone.
      destruct (receive chunk (c_dev c)) as [d [keys sent]]. unfold alive. cbn [set_conns sv_conns sv_queue sv_sid].
      refine (alive_change _ sid _ _ _ Hback _ _ _ eq_refl).
      * left. cbn [set_conns sv_conns]. change (sv_conns sv sid) with (sv_conns sv0 sid). rewrite Hc. discriminate.
      * intros i Hi. cbn [set_conns sv_queue mine filter of_sid]. destruct (Nat.eqb_spec sid i); [congruence|]. fold (mine i (sv_queue sv0)).
        rewrite mine_app, mine_other by congruence. apply app_nil_r.
      * cbn [tasks_ok c_reading]. exists keys. rewrite mine_app, Hm, mine_keys. reflexivity.
    + assert (H0 : alive sv0).
      { destruct Hback as (H1 & H2). split; [|exact H2]. intros i. specialize (H1 i). unfold tasks_ok in *. cbn [set_conns sv_conns sv_queue] in *. cbn [mine filter of_sid] in H1. exact H1. }
      unfold run_accept. destruct ok; [|exact H0].
      match goal with |- context[p_bind ?a ?b] => destruct (p_bind a b) as [p|x p| |] end; cbn [v_good]; try exact Logic.I.
      * unfold alive. cbn [sv_conns sv_queue sv_sid]. destruct H0 as (H1 & H2). split.
        -- intros i. destruct (Nat.eq_dec i (sv_sid sv0)) as [->|Hne].
           ++ rewrite upd_conn_same. pose proof (H1 (sv_sid sv0)) as H. rewrite (H2 (sv_sid sv0) (le_n _)) in H. exists []. cbn. exact H.
           ++ rewrite upd_conn_other by exact Hne. apply H1.
        -- intros i Hi. rewrite upd_conn_other by lia. apply H2. lia.
      * unfold alive. cbn [sv_conns sv_queue sv_sid]. destruct H0 as (H1 & H2). split; [exact H1|]. intros i Hi. apply H2. lia.
  - destruct (sv_accepting sv); [|exact Ha]. destruct Ha as (H1 & H2). split; [|exact H2].
    intros i. specialize (H1 i). unfold tasks_ok in *. cbn [sv_conns sv_queue]. rewrite mine_app. cbn. rewrite app_nil_r. exact H1.
  - destruct (sv_conns sv sid) as [c|] eqn:Hc; [|exact Ha]. destruct (c_reading c) eqn:Hr; [|exact Ha].
    unfold v_good, alive. cbn [set_conns sv_conns sv_queue sv_sid]. refine (alive_change _ sid _ _ _ Ha _ _ _ eq_refl).
    + left. rewrite Hc. discriminate.
    + intros i Hi. rewrite mine_app. cbn. destruct (Nat.eqb_spec sid i); [congruence|apply app_nil_r].
    + pose proof (proj1 Ha sid) as H. rewrite Hc in H. destruct H as (ks & H). rewrite Hr in H. cbn [tasks_ok c_reading]. exists ks, r.
      rewrite mine_app, H. cbn. rewrite Nat.eqb_refl. reflexivity.
Qed.

Lemma run_alive is : forall sv, alive sv -> v_good (sv_run E net size fuel tty color is sv).
Proof.
  induction is as [|i is IH]; intros sv Ha; cbn [sv_run]; [exact Ha|]. pose proof (step_alive i sv Ha) as H.
  destruct (sv_step E net size fuel tty color i sv) as [sv'|x sv'| | |]; cbn [v_good] in *; try exact H; apply IH, H.
Qed.
Lemma init_alive root nxt st : alive (server_init root nxt st).
Proof. split; [intros sid; reflexivity|intros sid _; reflexivity]. Qed.
End Life.

(** ** Exit *)
Section Exit.
Context (E : env) (net : nat -> list event -> bool) (size fuel : nat) (tty : bool) (color : list event -> bool * bool).
Notation TE := (telnet_env E net).
Notation closed := (closed E net).

Definition not_exit (e : event) : Prop := match e with EvHook _ KSesExit _ => False | _ => True end.
Lemma closed_in_app sid a : forall seen b, closed_in E net sid seen (a ++ b) = closed_in E net sid seen a || closed_in E net sid (seen ++ a) b.
Proof.
  induction a as [|e a IH]; intros seen b; cbn [closed_in app]; [rewrite app_nil_r; reflexivity|].
  rewrite IH, <- app_assoc, orb_assoc. reflexivity.
Qed.
Lemma closed_in_quiet sid evs : Forall not_exit evs -> forall seen, closed_in E net sid seen evs = false.
Proof.
  induction 1 as [|e evs He _ IH]; intros seen; cbn [closed_in]; [reflexivity|]. rewrite IH, orb_false_r.
  destruct e as [| | |i k args| |]; try reflexivity. destruct k; try reflexivity. destruct He.
Qed.
Lemma closed_app sid a b : closed sid (a ++ b) = closed sid a || e_has E KSesExit && closed_in E net sid a b.
Proof. unfold ServerModel.closed. rewrite closed_in_app. cbn [app]. destruct (e_has E KSesExit); reflexivity. Qed.
Lemma closed_quiet sid a b : Forall not_exit b -> closed sid (a ++ b) = closed sid a.
Proof. intros H. rewrite closed_app, closed_in_quiet by exact H. rewrite andb_false_r, orb_false_r. reflexivity. Qed.
Lemma closed_grows sid a b : closed sid a = true -> closed sid (a ++ b) = true.
Proof. intros H. rewrite closed_app, H. reflexivity. Qed.

Lemma ops_quiet os w : exists evs, w_trace (apply_ops os w) = w_trace w ++ evs /\ Forall not_exit evs.
Proof.
  destruct (apply_ops_quiet os w) as (evs & H & Hq). exists evs. split; [exact H|]. eapply Forall_impl; [|exact Hq].
  intros e He. destruct e; try exact Logic.I; destruct He.
Qed.

(** Exit of an open session closes it. *)
Lemma tel_exit w : exits_return E -> (forall tr, net (w_sid w) tr = true) -> HInv (w_hist w) -> closed (w_sid w) (w_trace w) = false ->
  exists w', session_exit TE w = HOk w' /\ w_exit w' = true /\ closed (w_sid w) (w_trace w') = true.
Proof.
  intros (Hh & Hs & Hc) Hn Hi Ho. unfold session_exit. cbn [e_has telnet_env].
  rewrite hook_spec. cbn zeta. cbn [e_hook telnet_env]. rewrite Hh, Hs. cbn [log w_trace]. rewrite removelast_last, Ho, Hn, Hs. cbn [h_bind].
  set (r := e_hook E (w_sid w) KSesExit [] (w_trace w ++ [EvHook (w_sid w) KSesExit []])).
  set (w1 := apply_ops (ur_ops r) (log (EvHook (w_sid w) KSesExit []) w)).
  assert (H1 : closed (w_sid w) (w_trace w1) = true).
  { destruct (ops_quiet (ur_ops r) (log (EvHook (w_sid w) KSesExit []) w)) as (evs & He & Hq). unfold w1. rewrite He, closed_quiet by exact Hq.
    cbn [log w_trace]. rewrite closed_app, Hh, Ho. cbn [closed_in orb andb]. rewrite Nat.eqb_refl. unfold returns. rewrite Hs, Hn. reflexivity. }
  assert (H1h : w_hist w1 = w_hist w).
  { destruct (apply_ops_same (ur_ops r) (log (EvHook (w_sid w) KSesExit []) w)) as (_ & _ & _ & H & _). unfold w1. rewrite H. reflexivity. }
  destruct (e_has E KCliExit).
  - rewrite hook_spec. cbn zeta. cbn [e_hook telnet_env]. rewrite Hc. cbn [h_bind].
    set (r2 := e_hook E (w_sid w1) KCliExit [] (w_trace (log (EvHook (w_sid w1) KCliExit []) w1))).
    destruct (apply_ops_same (ur_ops r2) (log (EvHook (w_sid w1) KCliExit []) w1)) as (_ & _ & _ & H2 & _).
    destruct (ops_quiet (ur_ops r2) (log (EvHook (w_sid w1) KCliExit []) w1)) as (evs & He & Hq).
    rewrite H2. cbn [log w_hist]. rewrite H1h, (get_commands_spec _ Hi). eexists. split; [reflexivity|]. split; [reflexivity|].
    cbn [set_exit set_store w_trace]. rewrite He. apply closed_grows. cbn [log w_trace]. apply closed_grows. exact H1.
  - cbn [h_bind]. rewrite H1h, (get_commands_spec _ Hi). eexists. split; [reflexivity|]. split; [reflexivity|]. exact H1.
Qed.

Definition runs_to (sid : nat) (n : nat) (sv sv' : server) (q : list task) : Prop :=
  sv_run E net size fuel tty color (runs n) sv = VOk sv' /\ sv_queue sv' = q /\
  (forall i, i <> sid -> sv_conns sv' i = sv_conns sv i) /\ sv_accepting sv' = sv_accepting sv /\ sv_sid sv' = sv_sid sv.

Lemma runs_app a : forall b sv sv', sv_run E net size fuel tty color (runs a) sv = VOk sv' ->
  sv_thrown E net size fuel tty color (runs a) sv = [] ->
  sv_run E net size fuel tty color (runs (a + b)) sv = sv_run E net size fuel tty color (runs b) sv'.
Proof.
  unfold runs. induction a as [|a IH]; intros b sv sv' H Ht; cbn [repeat sv_run sv_thrown Nat.add] in *; [injection H as ->; reflexivity|].
  destruct (sv_step E net size fuel tty color IRun sv) as [s|x s| | |]; try discriminate. apply IH; assumption.
Qed.

(** One key that ends normally. *)
Lemma key_step sv sid c k q p : sv_conns sv sid = Some c -> sv_queue sv = TkKey sid k :: q ->
  (forall c1 c2, press TE fuel tty (mkStroke k c1 c2) (proc_of sv sid c) = POk (p c1 c2)) ->
  exists c1 c2, sv_step E net size fuel tty color IRun sv = VOk (after_key E net (set_conns (sv_conns sv) q sv) sid c (p c1 c2)).
Proof.
  intros Hc Hq Hp. cbn [sv_step]. rewrite Hq. cbn [run_task set_conns sv_conns sv_trace]. rewrite Hc. destruct (color (sv_trace sv)) as [c1 c2].
  exists c1, c2. change (proc_of (set_conns (sv_conns sv) q sv) sid c) with (proc_of sv sid c). rewrite Hp. reflexivity.
Qed.

Lemma only_printed_quiet w w' : only_printed w w' -> exists evs, w_trace w' = w_trace w ++ evs /\ Forall not_exit evs.
Proof.
  intros (_ & _ & _ & _ & _ & _ & _ & evs & H & Hq). exists evs. split; [exact H|]. eapply Forall_impl; [|exact Hq]. intros e (s & ->). exact Logic.I.
Qed.

(** Editing keys. *)
Lemma edit_steps sid ks : forall sv c e q, sv_conns sv sid = Some c -> sv_queue sv = map (TkKey sid) ks ++ q -> holds (c_term c) e ->
  closed sid (sv_trace sv) = false -> Forall (fun k => editing k = true) ks ->
  exists sv' c', sv_run E net size fuel tty color (runs (length ks)) sv = VOk sv' /\ sv_thrown E net size fuel tty color (runs (length ks)) sv = [] /\
    sv_queue sv' = q /\ sv_conns sv' sid = Some c' /\ holds (c_term c') (snd (ed_run (map EKey ks) e)) /\ closed sid (sv_trace sv') = false /\
    c_hist c' = c_hist c /\ c_reading c' = c_reading c /\
    (forall i, i <> sid -> sv_conns sv' i = sv_conns sv i) /\ sv_accepting sv' = sv_accepting sv /\ sv_sid sv' = sv_sid sv.
Proof.
  induction ks as [|k ks IH]; intros sv c e q Hc Hq He Ho Hk.
  - exists sv, c. cbn. repeat (split; [first [reflexivity|assumption]|]). split; reflexivity.
  - inversion Hk as [|? ? Hk1 Hk2]; subst. cbn [map app] in Hq. cbn [length runs repeat sv_run sv_thrown].
    cbn [sv_step]. rewrite Hq. cbn [run_task set_conns sv_conns sv_trace]. rewrite Hc. destruct (color (sv_trace sv)) as [c1 c2].
    match goal with |- context[press ?a ?b ?c ?d ?p] => destruct (press_edit a b c d p e He Hk1) as (p' & -> & Hp & He') end.
    set (sv1 := after_key E net (set_conns (sv_conns sv) (map (TkKey sid) ks ++ q) sv) sid c p').
    assert (Ho1 : closed sid (w_trace (p_world p')) = false).
    { destruct (only_printed_quiet _ _ Hp) as (evs & Ht & Hqu). rewrite Ht, closed_quiet by exact Hqu. exact Ho. }
    assert (Hc1 : sv_conns sv1 sid = Some (mkConn (c_dev c) (p_term p') (w_cur (p_world p')) (w_hist (p_world p')) (w_exit (p_world p')) (c_reading c))).
    { unfold sv1, after_key. cbn [sv_conns]. rewrite upd_conn_same, Ho1, andb_false_r. cbn [negb]. rewrite andb_true_r. reflexivity. }
    assert (Hq1 : sv_queue sv1 = map (TkKey sid) ks ++ q).
    { unfold sv1, after_key. cbn [sv_queue set_conns]. rewrite Ho1, andb_false_r. apply app_nil_r. }
    destruct (IH sv1 _ (ed_key k e) q Hc1 Hq1 He' Ho1 Hk2) as (sv' & c' & R & T & Q & C & H & O & Hh & Hr & Hot & Ha & Hsd).
    exists sv', c'. split; [exact R|]. split; [exact T|]. split; [exact Q|]. split; [exact C|]. split.
    { cbn [map ed_run ed_op]. destruct (ed_run (map EKey ks) (ed_key k e)). exact H. }
    split; [exact O|]. split; [rewrite Hh; cbn; apply Hp|]. split; [exact Hr|]. split.
    { intros i Hi. rewrite (Hot i Hi). unfold sv1, after_key. cbn [sv_conns set_conns]. apply upd_conn_other, Hi. }
    split; [exact Ha|exact Hsd].
Qed.

Lemma after_closed sv sid c p q : sv_queue sv = q -> closed sid (w_trace (p_world p)) = true -> w_exit (p_world p) = true ->
  let sv' := after_key E net sv sid c p in
  disconnected E net sid sv sv' /\ sv_queue sv' = q ++ if c_reading c then [TkRead sid RError] else [].
Proof.
  intros Hq Hc Hx. cbn zeta. unfold disconnected, after_key. cbn [sv_trace sv_conns sv_accepting sv_sid sv_queue]. rewrite Hc, Hq, andb_true_r, upd_conn_same.
  split; [|reflexivity]. split; [reflexivity|]. split.
  - eexists. split; [reflexivity|]. cbn. split; [exact Hx|]. destruct (c_reading c); reflexivity.
  - split; [intros i Hi; apply upd_conn_other, Hi|]. split; reflexivity.
Qed.

(** Ctrl-D. *)
Lemma eof_step sv sid c q : exits_return E -> (forall tr, net sid tr = true) -> size >= 1 -> reachable size (c_hist c) ->
  sv_conns sv sid = Some c -> closed sid (sv_trace sv) = false -> sv_queue sv = TkKey sid KEof :: q ->
  exists sv', sv_step E net size fuel tty color IRun sv = VOk sv' /\ disconnected E net sid sv sv' /\
    sv_queue sv' = q ++ if c_reading c then [TkRead sid RError] else [].
Proof.
  intros He Hn Hs Hr Hc Ho Hq. destruct (reachable_inv size _ Hs Hr) as (Hi & _).
  destruct (tel_exit (out [] (p_world (proc_of sv sid c))) He Hn Hi) as (w' & Hw & Hx & Hcl).
  { cbn [proc_of p_world out log w_trace w_sid]. rewrite closed_quiet; [exact Ho|]. repeat constructor. }
  destruct (key_step sv sid c KEof q (fun _ _ => mkProc w' (c_term c)) Hc Hq) as (c1 & c2 & H).
  { intros c1 c2. unfold press, process, p_out. cbn [ks_key keypressed p_world p_term proc_of] in *. rewrite Hw. reflexivity. }
  eexists. split; [exact H|]. apply (after_closed (set_conns (sv_conns sv) q sv) sid c _ q eq_refl); assumption.
Qed.

Lemma te_no_bad_cast : hooks_no_bad_cast E -> hooks_no_bad_cast TE.
Proof.
  intros H sid k args tr s. cbn [e_hook telnet_env]. destruct k; try apply H. destruct (e_has E KSesExit); [|discriminate].
  destruct (ur_end (e_hook E sid KSesExit args tr)) eqn:Hu.
  - destruct (ServerModel.closed E net sid (removelast tr)); [discriminate|]. destruct (net sid tr); [rewrite Hu; discriminate|discriminate].
  - apply H.
Qed.

(** The command. *)
Lemma exit_steps sv sid c e ks q : exits_return E -> hooks_no_bad_cast E -> (forall tr, net sid tr = true) -> size >= 1 -> reachable size (c_hist c) -> 1 <= fuel ->
  sv_conns sv sid = Some c -> holds (c_term c) e -> closed sid (sv_trace sv) = false ->
  sv_queue sv = map (TkKey sid) (ks ++ [KRet]) ++ q -> Forall (fun k => editing k = true) ks ->
  SplitModel.split (ed_text (snd (ed_run (map EKey ks) e))) = Some [lit "exit"] ->
  exists sv', sv_run E net size fuel tty color (runs (length (ks ++ [KRet]))) sv = VOk sv' /\
    sv_thrown E net size fuel tty color (runs (length (ks ++ [KRet]))) sv = [] /\ disconnected E net sid sv sv' /\
    sv_queue sv' = q ++ if c_reading c then [TkRead sid RError] else [].
Proof.
  intros Hex Hb Hn Hs Hr Hf Hc He Ho Hq Hk Hsp.
  rewrite map_app, <- app_assoc in Hq.
  destruct (edit_steps sid ks sv c e _ Hc Hq He Ho Hk) as (sv1 & c1 & R1 & T1 & Q1 & C1 & H1 & O1 & Hh1 & Hr1 & Hot & Ha & Hsd).
  cbn [map app] in Q1. set (e1 := snd (ed_run (map EKey ks) e)) in *.
  destruct (reachable_inv size _ Hs Hr) as (Hi & Hm).
  destruct fuel as [|f] eqn:Hfu; [lia|].
  assert (Hp : forall k1 k2, exists w, press TE (S f) tty (mkStroke KRet k1 k2) (proc_of sv1 sid c1) = POk w /\ w_exit (p_world w) = true /\ closed sid (w_trace (p_world w)) = true).
  { intros k1 k2. destruct (press_ret TE (S f) tty (mkStroke KRet k1 k2) (proc_of sv1 sid c1) e1 H1 eq_refl) as (t & Ht & ->).
    unfold process, p_out, p_log. cbn zeta. cbn [p_world p_term ks_color'].
    match goal with |- context[feed TE (S f) _ ?w] => set (w2 := w) end. destruct (new_command_inv (c_hist c) (ed_text e1) Hi) as (h & Hnew & Hi' & _); [lia|].
    rewrite (feed_exit TE f (ed_text e1) w2 (set_hist h w2) (te_no_bad_cast Hb)).
    2:{ split; [exact Hsp|]. split; [discriminate|]. exists h. split; [|reflexivity]. unfold w2. cbn [proc_of p_world out log w_hist]. rewrite Hh1. exact Hnew. }
    destruct (tel_exit (set_hist h w2) Hex) as (w' & Hw & Hx & Hcl).
    - exact Hn.
    - exact Hi'.
    - unfold w2. cbn [set_hist proc_of p_world out log w_sid w_trace]. rewrite <- app_assoc, closed_quiet; [exact O1|repeat constructor].
    - rewrite Hw. cbn [of_fres p_bind]. unfold p_prompt, prompt. cbn [p_world p_term]. rewrite Hx. cbn [p_bind].
      eexists. split; [reflexivity|]. cbn [p_log p_out p_world out log w_exit w_trace]. split; [exact Hx|]. rewrite <- app_assoc. apply closed_grows. exact Hcl. }
  rewrite app_length. cbn [length].
  assert (Hstep : exists sv', sv_step E net size (S f) tty color IRun sv1 = VOk sv' /\ disconnected E net sid sv sv' /\ sv_queue sv' = q ++ if c_reading c then [TkRead sid RError] else []).
  { cbn [sv_step]. rewrite Q1. cbn [run_task set_conns sv_conns sv_trace]. rewrite C1. destruct (color (sv_trace sv1)) as [k1 k2].
    change (proc_of (set_conns (sv_conns sv1) q sv1) sid c1) with (proc_of sv1 sid c1). destruct (Hp k1 k2) as (w & -> & Hx & Hcl).
    eexists. split; [reflexivity|]. destruct (after_closed (set_conns (sv_conns sv1) q sv1) sid c1 w q eq_refl Hcl Hx) as (D & Q). rewrite <- Hr1. split; [|exact Q].
    destruct D as (D1 & D2 & D3 & D4 & D5). split; [exact D1|]. split; [exact D2|]. split; [intros i Hii; rewrite (D3 i Hii); exact (Hot i Hii)|]. split; [rewrite D4; exact Ha|rewrite D5; exact Hsd]. }
  destruct Hstep as (sv' & St & D & Q). exists sv'. split.
  - rewrite <- Hfu in *. rewrite (runs_app (length ks) 1 sv sv1 R1 T1). cbn [runs repeat sv_run]. rewrite St. reflexivity.
  - split; [|split; [exact D|exact Q]].
    assert (Ht : forall a b s s', sv_run E net size (S f) tty color (runs a) s = VOk s' -> sv_thrown E net size (S f) tty color (runs a) s = [] ->
      sv_thrown E net size (S f) tty color (runs (a + b)) s = sv_thrown E net size (S f) tty color (runs b) s').
    { unfold runs. clear. induction a as [|a IH]; intros b s s' H Ht; cbn [repeat sv_run sv_thrown Nat.add] in *; [injection H as ->; reflexivity|].
      destruct (sv_step E net size (S f) tty color IRun s) as [s1|x s1| | |]; try discriminate. apply IH; assumption. }
    rewrite (Ht _ 1 _ _ R1 T1). cbn [runs repeat sv_thrown]. rewrite St. reflexivity.
Qed.

(** The read handler of a closed session destroys it. *)
Lemma gone_step sv sid c r q : sv_conns sv sid = Some c -> closed sid (sv_trace sv) = true -> sv_queue sv = TkRead sid r :: q ->
  exists sv', sv_step E net size fuel tty color IRun sv = VOk sv' /\ sv_conns sv' sid = None /\ sv_queue sv' = q /\
    (forall i, i <> sid -> sv_conns sv' i = sv_conns sv i) /\ sv_accepting sv' = sv_accepting sv.
Proof.
  intros Hc Ho Hq. cbn [sv_step]. rewrite Hq. cbn [run_task set_conns sv_conns]. rewrite Hc. eexists. split; [reflexivity|].
  unfold run_read. cbn [set_conns sv_trace]. rewrite Ho. cbn [set_conns sv_conns sv_queue sv_accepting].
  split; [apply upd_conn_same|]. split; [reflexivity|]. split; [intros i Hi; apply upd_conn_other, Hi|reflexivity].
Qed.
End Exit.

(** ** Every session of a server has a well-formed line and a reachable history *)
Section Conns.
Context (E : env) (net : nat -> list event -> bool) (size fuel : nat) (tty : bool) (color : list event -> bool * bool).

Definition same_hist (w w' : world) : Prop := w_hist w' = w_hist w.
Lemma hook_hist E' k args w : h_inv (fun w' => w_hist w' = w_hist w) (run_hook E' k args w).
Proof.
  rewrite hook_spec. cbn zeta. match goal with |- context[apply_ops ?o ?w1] => destruct (apply_ops_same o w1) as (_ & _ & _ & H & _) end.
  destruct (ur_end _); exact H.
Qed.
Lemma exit_hist E' w : h_inv (fun w' => w_hist w' = w_hist w) (session_exit E' w).
Proof.
  unfold session_exit. destruct (e_has E' KSesExit); [|reflexivity].
  pose proof (hook_hist E' KSesExit [] w) as H. destruct (run_hook E' KSesExit [] w) as [w1|x w1| |]; cbn [h_bind h_inv] in *; try exact H.
  destruct (e_has E' KCliExit).
  - pose proof (hook_hist E' KCliExit [] w1) as H2. destruct (run_hook E' KCliExit [] w1) as [w2|x w2| |]; cbn [h_bind h_inv] in *; try exact H2; [|congruence].
    destruct (get_commands _); cbn; [congruence|exact Logic.I].
  - cbn [h_bind]. destruct (get_commands _); cbn; [congruence|exact Logic.I].
Qed.
Lemma enter_hist E' w : h_inv (fun w' => w_hist w' = w_hist w) (session_enter E' w).
Proof.
  unfold session_enter. destruct (e_has E' KCliEnter).
  - pose proof (hook_hist E' KCliEnter [] w) as H. destruct (run_hook E' KCliEnter [] w) as [w1|x w1| |]; cbn [h_bind h_inv] in *; try exact H.
    destruct (e_has E' KSesEnter); [|exact H]. pose proof (hook_hist E' KSesEnter [] w1) as H2.
    destruct (run_hook E' KSesEnter [] w1) as [w2|x w2| |]; cbn [h_inv] in *; congruence.
  - cbn [h_bind]. destruct (e_has E' KSesEnter); [|reflexivity]. apply hook_hist.
Qed.
Lemma prompt_hist c p : match p_prompt tty c p with POk p' | PExc _ p' => w_hist (p_world p') = w_hist (p_world p) /\ (forall e, holds (p_term p) e -> holds (p_term p') e) | _ => True end.
Proof.
  unfold p_prompt. destruct (prompt _ _ _ _) as [(b, f)|]; [|exact Logic.I]. split; [reflexivity|]. intros e (H1 & H2). split; assumption.
Qed.
Definition hist_ok (p : proc) : Prop := reachable size (w_hist (p_world p)).
Lemma set_line_hist c s p : w_hist (p_world (p_set_line tty c s p)) = w_hist (p_world p).
Proof. unfold p_set_line. destruct (set_line _ _ _ _). reflexivity. Qed.
Lemma process_hist E' c sy p : hist_ok p -> match process E' fuel tty c sy p with POk p' | PExc _ p' => hist_ok p' | _ => True end.
Proof.
  unfold hist_ok. intros H.
  assert (Hpr : forall line p1, reachable size (w_hist (p_world p1)) -> match p_bind (p_prompt tty c p1) (fun p1 => POk (p_set_line tty c line (p_reset_cursor p1))) with
     POk p' | PExc _ p' => reachable size (w_hist (p_world p')) | _ => True end).
  { intros line p1 H1. pose proof (prompt_hist c p1) as Hp. destruct (p_prompt tty c p1) as [p2|x p2| |]; cbn [p_bind]; try exact Logic.I.
    - rewrite set_line_hist. cbn [p_reset_cursor p_world]. rewrite (proj1 Hp). exact H1.
    - rewrite (proj1 Hp). exact H1. }
  destruct sy as [|cm| | | | |]; unfold process.
  - exact H.
  - cbn [p_log p_world p_term]. pose proof (reachable_feed E' size fuel cm (log (EvInput (w_sid (p_world p)) false) (p_world p)) H) as Hf.
    destruct (feed _ _ _ _) as [w2|x w2| |]; cbn [of_fres p_bind f_inv] in *; try exact Logic.I; [|exact Hf].
    match goal with |- context[p_prompt tty c ?q] => pose proof (prompt_hist c q) as Hp; destruct (p_prompt tty c q) as [p3|x p3| |] end; cbn [p_bind]; try exact Logic.I.
    + unfold p_log, log. cbn [p_world w_hist]. rewrite (proj1 Hp). exact Hf.
    + rewrite (proj1 Hp). exact Hf.
  - unfold previous_cmd. destruct (previous _ _) as [(s, h)|] eqn:Hh; [|exact Logic.I]. rewrite set_line_hist. cbn [p_world set_hist w_hist].
    eapply (reachable_step size _ (OUp _)); [exact H|]. cbn [hstep]. rewrite Hh. reflexivity.
  - unfold next_cmd. destruct (next _) as [(s, h)|] eqn:Hh; [|exact Logic.I]. rewrite set_line_hist. cbn [p_world set_hist w_hist].
    eapply (reachable_step size _ ODown); [exact H|]. cbn [hstep]. rewrite Hh. reflexivity.
  - destruct (get_completions _ _ _ _) as [[|k [|k' l]]| |]; try exact Logic.I; [exact H|rewrite set_line_hist; exact H|].
    destruct (common_prefix _) as [pre|]; [|exact Logic.I]. destruct (Nat.ltb _ _); [rewrite set_line_hist; exact H|apply Hpr; exact H].
  - pose proof (exit_hist E' (p_world p)) as Hx. destruct (session_exit E' (p_world p)); cbn [of_hres h_inv p_world] in *; try exact Logic.I; rewrite Hx; exact H.
  - apply Hpr. exact H.
Qed.
Lemma press_hist E' k p : hist_ok p -> match press E' fuel tty k p with POk p' | PExc _ p' => hist_ok p' | _ => True end.
Proof. intros H. unfold press. destruct (keypressed _ _ _ _) as [((b, sy), t)|]; [|exact Logic.I]. apply process_hist. exact H. Qed.

Definition conn_ok (c : conn) : Prop := reachable size (c_hist c) /\ exists e, holds (c_term c) e.
Definition conns_ok (sv : server) : Prop := forall i c, sv_conns sv i = Some c -> conn_ok c.
Definition v_conns (r : vres) : Prop := match r with VOk sv | VExc _ sv => conns_ok sv | _ => True end.
Lemma conns_upd f i c0 : (forall j c, f j = Some c -> conn_ok c) -> (forall c, c0 = Some c -> conn_ok c) -> forall j c, upd_conn f i c0 j = Some c -> conn_ok c.
Proof. intros Hf Hc j c. unfold upd_conn. destruct (Nat.eqb j i); [apply Hc|apply Hf]. Qed.
Lemma step_conns i sv : conns_ok sv -> v_conns (sv_step E net size fuel tty color i sv).
Proof.
  intros H. destruct i as [|ok|sid r]; cbn [sv_step].
  - destruct (sv_queue sv) as [|t q]; [exact H|]. destruct t as [sid k|sid r|ok]; cbn [run_task set_conns sv_conns].
    + destruct (sv_conns sv sid) as [c|] eqn:Hc; [|exact Logic.I]. destruct (H sid c Hc) as (H1 & H2). destruct (color _) as [c1 c2].
      match goal with |- context[press ?a ?b ?c0 ?d ?p] => pose proof (press_hist a d p H1) as P1; pose proof (press_holds a b c0 d p H2) as P2; destruct (press a b c0 d p) as [p'|x p'| |] end;
        try exact Logic.I; (intros j c' Hj; unfold after_key in Hj; cbn [sv_conns set_conns] in Hj; revert j c' Hj; apply conns_upd; [exact H|]; intros c' Hj; injection Hj as <-; split; [exact P1|exact P2]).
    + destruct (sv_conns sv sid) as [c|] eqn:Hc; [|exact Logic.I]. cbn [v_conns]. unfold run_read.
      destruct (closed _ _ _ _); [intros j c' Hj; cbn [sv_conns set_conns] in Hj; revert j c' Hj; apply conns_upd; [exact H|discriminate]|].
      destruct r as [chunk| |]; try (intros j c' Hj; cbn [sv_conns set_conns] in Hj; revert j c' Hj; apply conns_upd; [exact H|discriminate]).
      destruct (receive chunk (c_dev c)) as [d [ks sent]]. intros j c' Hj; cbn [sv_conns set_conns] in Hj; revert j c' Hj. apply conns_upd; [exact H|]. intros c' Hj. injection Hj as <-. exact (H sid c Hc).
    + unfold run_accept. destruct ok; [|exact H].
      match goal with |- context[session_enter ?a ?w] => pose proof (enter_hist a w) as He; destruct (session_enter a w) as [w1|x w1| |] end; cbn [of_hres p_bind h_inv] in *; try exact Logic.I.
      * match goal with |- context[p_prompt tty ?c ?q] => pose proof (prompt_hist c q) as Hp; destruct (p_prompt tty c q) as [p3|x p3| |] end; try exact Logic.I.
        -- intros j c' Hj; cbn [sv_conns set_conns] in Hj; revert j c' Hj. apply conns_upd; [exact H|]. intros c' Hj. injection Hj as <-. destruct Hp as (Hp1 & Hp2). split.
           ++ cbn [c_hist]. rewrite Hp1. cbn [p_world]. rewrite He. exists [OLoad (st_commands (sv_store sv))]. reflexivity.
           ++ exists (mkEd [] []). apply Hp2. split; reflexivity.
        -- exact H.
      * exact H.
  - destruct (sv_accepting sv); exact H.
  - destruct (sv_conns sv sid) as [c|] eqn:Hc; [|exact H]. destruct (c_reading c); [|exact H].
    intros j c' Hj; cbn [sv_conns set_conns] in Hj; revert j c' Hj. apply conns_upd; [exact H|]. intros c' Hj. injection Hj as <-. exact (H sid c Hc).
Qed.
Lemma run_conns is : forall sv, conns_ok sv -> v_conns (sv_run E net size fuel tty color is sv).
Proof.
  induction is as [|i is IH]; intros sv Ha; cbn [sv_run]; [exact Ha|]. pose proof (step_conns i sv Ha) as H.
  destruct (sv_step E net size fuel tty color i sv) as [sv'|x sv'| | |]; cbn [v_conns] in *; try exact Logic.I; apply IH, H.
Qed.
Lemma init_conns root nxt st : conns_ok (server_init root nxt st).
Proof. discriminate. Qed.

(** ** From the bytes of the client to the end of the session *)
Lemma thrown_app a : forall b s s', sv_run E net size fuel tty color a s = VOk s' -> sv_thrown E net size fuel tty color a s = [] ->
  sv_run E net size fuel tty color (a ++ b) s = sv_run E net size fuel tty color b s' /\
  sv_thrown E net size fuel tty color (a ++ b) s = sv_thrown E net size fuel tty color b s'.
Proof.
  induction a as [|i a IH]; intros b s s' H Ht; cbn [sv_run sv_thrown app] in *; [injection H as ->; split; reflexivity|].
  destruct (sv_step E net size fuel tty color i s) as [s1|x s1| | |]; try discriminate. apply IH; assumption.
Qed.
Lemma read_steps sv sid c chunk d ks sent : sv_conns sv sid = Some c -> c_reading c = true -> closed E net sid (sv_trace sv) = false -> sv_queue sv = [] ->
  receive chunk (c_dev c) = (d, (ks, sent)) ->
  exists sv1, sv_run E net size fuel tty color [IRead sid (RData chunk); IRun] sv = VOk sv1 /\ sv_thrown E net size fuel tty color [IRead sid (RData chunk); IRun] sv = [] /\
    sv_conns sv1 sid = Some (mkConn d (c_term c) (c_cur c) (c_hist c) (c_exit c) true) /\ (forall i, i <> sid -> sv_conns sv1 i = sv_conns sv i) /\
    sv_queue sv1 = map (TkKey sid) ks /\ sv_trace sv1 = sv_trace sv /\ sv_accepting sv1 = sv_accepting sv.
Proof.
  intros Hc Hr Ho Hq Hrec. cbn [sv_run sv_thrown sv_step]. rewrite Hc, Hr, Hq. cbn [app sv_queue set_conns run_task sv_conns]. rewrite upd_conn_same.
  unfold run_read. cbn [sv_trace set_conns c_dev c_term c_cur c_hist c_exit]. rewrite Ho, Hrec. cbn [set_conns sv_conns sv_queue app]. eexists. split; [reflexivity|].
  split; [reflexivity|]. cbn [sv_conns set_conns sv_queue sv_trace sv_accepting]. split; [apply upd_conn_same|]. split.
  - intros i Hi. rewrite !upd_conn_other by exact Hi. reflexivity.
  - split; [reflexivity|]. split; reflexivity.
Qed.

Lemma session_ends sv sid c chunk d ks sent : exits_return E -> hooks_no_bad_cast E -> (forall tr, net sid tr = true) -> size >= 1 -> 1 <= fuel ->
  conns_ok sv -> sv_conns sv sid = Some c -> c_reading c = true -> closed E net sid (sv_trace sv) = false -> sv_queue sv = [] ->
  receive chunk (c_dev c) = (d, (ks, sent)) ->
  (ks = [KEof] \/ exists e ks', holds (c_term c) e /\ ks = ks' ++ [KRet] /\ Forall (fun k => editing k = true) ks' /\
     SplitModel.split (ed_text (snd (ed_run (map EKey ks') e))) = Some [lit "exit"]) ->
  exists sv', sv_run E net size fuel tty color (IRead sid (RData chunk) :: runs (length ks + 2)) sv = VOk sv' /\
    sv_thrown E net size fuel tty color (IRead sid (RData chunk) :: runs (length ks + 2)) sv = [] /\
    sv_conns sv' sid = None /\ closed E net sid (sv_trace sv') = true /\ (forall i, i <> sid -> sv_conns sv' i = sv_conns sv i) /\
    sv_accepting sv' = sv_accepting sv /\ sv_queue sv' = [].
Proof.
  intros Hex Hb Hn Hs Hf Hok Hc Hr Ho Hq Hrec Hks. destruct (Hok _ _ Hc) as (Hh & _).
  destruct (read_steps sv sid c chunk d ks sent Hc Hr Ho Hq Hrec) as (sv1 & R1 & T1 & C1 & O1 & Q1 & Tr1 & A1).
  assert (H2 : exists sv2, sv_run E net size fuel tty color (runs (length ks)) sv1 = VOk sv2 /\ sv_thrown E net size fuel tty color (runs (length ks)) sv1 = [] /\
     disconnected E net sid sv1 sv2 /\ sv_queue sv2 = [TkRead sid RError]).
  { rewrite <- Tr1 in Ho. destruct Hks as [->|(e & ks' & He & -> & Hed & Hsp)].
    - destruct (eof_step E net size fuel tty color sv1 sid (mkConn d (c_term c) (c_cur c) (c_hist c) (c_exit c) true) [] Hex Hn Hs Hh C1 Ho Q1) as (sv2 & St & D & Q). exists sv2. cbn [length runs repeat sv_run sv_thrown]. rewrite St.
      split; [reflexivity|]. split; [reflexivity|]. split; [exact D|exact Q].
    - destruct (exit_steps E net size fuel tty color sv1 sid (mkConn d (c_term c) (c_cur c) (c_hist c) (c_exit c) true) e ks' [] Hex Hb Hn Hs Hh Hf C1 He Ho) as (sv2 & R & T & D & Q); [rewrite app_nil_r; exact Q1|exact Hed|exact Hsp|].
      exists sv2. split; [exact R|]. split; [exact T|]. split; [exact D|exact Q]. }
  destruct H2 as (sv2 & R2 & T2 & (D1 & (c2 & D2 & _) & D3 & D4 & _) & Q2).
  destruct (gone_step E net size fuel tty color sv2 sid c2 RError [] D2 D1 Q2) as (sv3 & St & G1 & G2 & G3 & G4).
  assert (Htr : sv_trace sv3 = sv_trace sv2).
  { cbn [sv_step] in St. rewrite Q2 in St. cbn [run_task set_conns sv_conns] in St. rewrite D2 in St. injection St as <-.
    unfold run_read. cbn [set_conns sv_trace]. rewrite D1. reflexivity. }
  exists sv3. replace (IRead sid (RData chunk) :: runs (length ks + 2)) with ([IRead sid (RData chunk); IRun] ++ (runs (length ks) ++ runs 1)).
  2:{ unfold runs. rewrite <- repeat_app. replace (length ks + 2) with (S (length ks + 1)) by lia. reflexivity. }
  destruct (thrown_app _ (runs (length ks) ++ runs 1) _ _ R1 T1) as (-> & ->). destruct (thrown_app _ (runs 1) _ _ R2 T2) as (-> & ->).
  cbn [runs repeat sv_run sv_thrown]. rewrite St. split; [reflexivity|]. split; [reflexivity|]. split; [exact G1|]. split; [rewrite Htr; exact D1|]. split.
  - intros i Hi. rewrite (G3 i Hi), (D3 i Hi). exact (O1 i Hi).
  - split; [congruence|exact G2].
Qed.
End Conns.

(** ** Keys are handled in order *)
Section Order.
Context (E : env) (net : nat -> list event -> bool) (size fuel : nat) (tty : bool) (color : list event -> bool * bool) (sid : nat).
Notation step := (sv_step E net size fuel tty color).
Notation run := (sv_run E net size fuel tty color).
Notation handled := (handled E net size fuel tty color sid).
Notation delivered := (delivered E net size fuel tty color sid).
Notation replied := (replied E net size fuel tty color sid).

Definition flow (c : option conn) (q : list task) (hs : list key) (ds : str) (sent : list str) : Prop :=
  match c with
  | None => mine sid q = [] /\ exists ks more, snd (receive ds dev_init) = (hs ++ ks, sent ++ more)
  | Some c =>
      exists bytes ks, receive bytes dev_init = (c_dev c, (hs ++ ks, sent)) /\
      if c_reading c then mine sid q = map (TkKey sid) ks /\ ds = bytes
      else exists r, mine sid q = map (TkKey sid) ks ++ [TkRead sid r] /\ ds = bytes ++ match r with RData chunk => chunk | _ => [] end
  end.
Definition flows (sv : server) (hs : list key) (ds : str) (sent : list str) : Prop :=
  flow (sv_conns sv sid) (sv_queue sv) hs ds sent /\ (sv_sid sv <= sid -> sv_conns sv sid = None /\ hs = [] /\ ds = [] /\ sent = []).

Lemma flow_tail c q hs ds ss t : of_sid sid t = false -> flow c (t :: q) hs ds ss <-> flow c q hs ds ss.
Proof. intros H. unfold flow. cbn [mine filter]. rewrite H. fold (mine sid q). reflexivity. Qed.
Lemma flow_app c q q' hs ds ss : mine sid q' = [] -> flow c (q ++ q') hs ds ss <-> flow c q hs ds ss.
Proof. intros H. unfold flow. rewrite mine_app, H, app_nil_r. reflexivity. Qed.
Lemma receive_more a b d1 k1 s1 : receive a dev_init = (d1, (k1, s1)) -> exists k2 s2, snd (receive (a ++ b) dev_init) = (k1 ++ k2, s1 ++ s2).
Proof. intros H. rewrite receive_app, H. destruct (receive b d1) as [d2 [k2 s2]]. exists k2, s2. reflexivity. Qed.

Definition v_flows (r : vres) (hs : list key) (ds : str) (ss : list str) : Prop := match r with VOk sv | VExc _ sv => flows sv hs ds ss | _ => True end.

Lemma flows_key sv sid' c p k hs ds ss : sv_conns sv sid' = Some c -> flows (set_conns (sv_conns sv) (TkKey sid' k :: sv_queue sv) sv) hs ds ss ->
  flows (after_key E net sv sid' c p) (hs ++ if Nat.eqb sid' sid then [k] else []) ds ss.
Proof.
  intros Hc (Hf & Hn). unfold flows, after_key. cbn [set_conns sv_conns sv_queue sv_sid] in *. destruct (Nat.eqb_spec sid' sid) as [->|Hne].
  - rewrite upd_conn_same. rewrite Hc in Hf. destruct Hf as (bytes & ks & Hr & Hq). split.
    2:{ intros Hle. destruct (Hn Hle) as (H & _). congruence. }
    cbn [mine filter of_sid] in Hq. rewrite Nat.eqb_refl in Hq. fold (mine sid (sv_queue sv)) in Hq. unfold flow. cbn [c_dev c_reading].
    destruct (c_reading c); cbn [andb] in *.
    + destruct Hq as (Hq & ->). destruct ks as [|k' ks]; [discriminate|]. injection Hq as <- Hq. exists bytes, ks. rewrite <- app_assoc. split; [exact Hr|].
      rewrite mine_app, Hq. destruct (closed E net sid (w_trace (p_world p))); cbn [negb].
      * exists RError. cbn [mine filter of_sid]. rewrite Nat.eqb_refl, app_nil_r. split; reflexivity.
      * rewrite app_nil_r. split; reflexivity.
    + destruct Hq as (r & Hq & Hd). destruct ks as [|k' ks]; [discriminate|]. injection Hq as <- Hq. exists bytes, ks. rewrite <- app_assoc. split; [exact Hr|].
      exists r. rewrite mine_app, Hq. cbn [mine filter]. rewrite app_nil_r. split; [reflexivity|exact Hd].
  - rewrite app_nil_r, upd_conn_other by congruence. split; [|exact Hn]. apply flow_app.
    { destruct (c_reading c && _); [|reflexivity]. cbn. destruct (Nat.eqb_spec sid' sid); [contradiction|reflexivity]. }
    apply flow_tail in Hf; [exact Hf|]. cbn. destruct (Nat.eqb_spec sid' sid); [contradiction|reflexivity].
Qed.

Lemma flows_step i sv hs ds ss : flows sv hs ds ss ->
  v_flows (step i sv)
    (hs ++ match i, sv_queue sv with IRun, TkKey j k :: _ => if Nat.eqb j sid then [k] else [] | _, _ => [] end)
    (ds ++ match i with
           | IRead j (RData chunk) => match sv_conns sv sid with Some c => if Nat.eqb j sid && c_reading c then chunk else [] | None => [] end
           | _ => [] end)
    (ss ++ replies E net sid i sv).
Proof.
  intros Hf. destruct i as [|ok|j r]; cbn [sv_step].
  - rewrite app_nil_r. unfold replies. destruct (sv_queue sv) as [|t q] eqn:Hq; [rewrite !app_nil_r; exact Hf|].
    assert (Hb : flows (set_conns (sv_conns (set_conns (sv_conns sv) q sv)) (t :: sv_queue (set_conns (sv_conns sv) q sv)) (set_conns (sv_conns sv) q sv)) hs ds ss).
    { unfold flows. cbn. rewrite <- Hq. exact Hf. }
    set (sv0 := set_conns (sv_conns sv) q sv) in *. destruct t as [j k|j r|ok]; cbn [run_task].
    + rewrite (app_nil_r ss). destruct (sv_conns sv0 j) as [c|] eqn:Hc; [|exact Logic.I]. destruct (color (sv_trace sv0)) as [c1 c2].
      destruct (press _ _ _ _ _) as [p|x p| |]; cbn [v_flows]; try exact Logic.I; apply flows_key; assumption.
    + rewrite (app_nil_r hs). destruct (sv_conns sv0 j) as [c|] eqn:Hc; [|exact Logic.I]. cbn [v_flows]. destruct Hb as (Hb & Hn). cbn [set_conns sv_conns sv_queue sv_sid] in Hb, Hn.
      destruct (Nat.eq_dec j sid) as [->|Hne].
      * change (sv_conns sv sid) with (sv_conns sv0 sid) in Hb, Hn |- *. rewrite Hc in Hb. rewrite Hc, Nat.eqb_refl. change (sv_trace sv) with (sv_trace sv0). cbn [andb]. destruct Hb as (bytes & ks & Hr & Hm). cbn [mine filter of_sid] in Hm. rewrite Nat.eqb_refl in Hm.
        fold (mine sid (sv_queue sv0)) in Hm.
        destruct (c_reading c); [destruct Hm as (Hm & _); destruct ks; discriminate|]. destruct Hm as (r' & Hm & ->).
        destruct ks as [|k ks]; [|discriminate]. rewrite app_nil_r in Hr. cbn [map app] in Hm. injection Hm as <- Hm. change (mine sid (sv_queue sv0) = []) in Hm.
        assert (Hnew : sv_sid sv0 <= sid -> False). { intros H. destruct (Hn H) as (H' & _). congruence. }
        assert (Hgone : flows (set_conns (upd_conn (sv_conns sv0) sid None) (sv_queue sv0) sv0) hs (bytes ++ match r with RData chunk => chunk | _ => [] end) ss).
        { split; cbn [set_conns sv_conns sv_queue sv_sid]; [|intros H; exfalso; exact (Hnew H)]. rewrite upd_conn_same. split; [exact Hm|]. destruct (receive_more bytes (match r with RData chunk => chunk | _ => [] end) _ _ _ Hr) as (k2 & s2 & ->). exists k2, s2. reflexivity. }
        unfold run_read. destruct (closed E net sid (sv_trace sv0)); cbn [negb]; [destruct r; rewrite (app_nil_r ss); exact Hgone|]. destruct r as [chunk| |]; try (rewrite (app_nil_r ss); exact Hgone).
        destruct (receive chunk (c_dev c)) as [d [keys sent']] eqn:Hrc. split; cbn [set_conns sv_conns sv_queue sv_sid]; [|intros H; exfalso; exact (Hnew H)].
        rewrite upd_conn_same. exists (bytes ++ chunk), keys. cbn [c_dev c_reading snd]. rewrite receive_app, Hr, Hrc. split; [reflexivity|].
        rewrite mine_app, Hm, mine_keys. split; reflexivity.
      * apply flow_tail in Hb; [|cbn; destruct (Nat.eqb_spec j sid); [contradiction|reflexivity]].
        replace (match r with RData chunk => _ | _ => _ end) with (@nil str) by (destruct r; [destruct (sv_conns sv sid); [destruct (Nat.eqb_spec j sid); [contradiction|]|]| |]; reflexivity).
        rewrite (app_nil_r ss). unfold run_read. destruct (closed E net j (sv_trace sv0)), r as [chunk| |];
          try (split; cbn [set_conns sv_conns sv_queue sv_sid]; [rewrite upd_conn_other by congruence; exact Hb|rewrite upd_conn_other by congruence; exact Hn]).
        destruct (receive chunk (c_dev c)) as [d [keys sent']]. split; cbn [set_conns sv_conns sv_queue sv_sid]; rewrite upd_conn_other by congruence; [|exact Hn].
        apply flow_app; [apply mine_other; congruence|exact Hb].
    + rewrite (app_nil_r hs), (app_nil_r ss). destruct Hb as (Hb & Hn). apply flow_tail in Hb; [|reflexivity]. cbn [set_conns sv_conns sv_queue sv_sid] in Hb, Hn.
      assert (H0 : flows sv0 hs ds ss). { split; assumption. }
      unfold run_accept. destruct ok; [|exact H0].
      match goal with |- context[p_bind ?a ?b] => destruct (p_bind a b) as [p|x p| |] end; cbn [v_flows]; try exact Logic.I.
      * split; cbn [sv_conns sv_queue sv_sid]; [|intros H; rewrite upd_conn_other by lia; apply Hn; cbn in *; lia].
        destruct (Nat.eq_dec sid (sv_sid sv0)) as [Heq|Hne].
        -- rewrite Heq, upd_conn_same. destruct (Hn ltac:(cbn in *; lia)) as (Hc & -> & -> & ->). exists [], []. split; [reflexivity|]. cbn [c_reading].
           change (sv_conns sv sid) with (sv_conns sv0 sid) in *. unfold flow in Hb. rewrite Hc in Hb. destruct Hb as (Hm & _). split; [exact Hm|reflexivity].
        -- rewrite upd_conn_other by congruence. exact Hb.
      * split; [exact Hb|]. cbn [sv_sid sv_conns]. intros H. apply Hn. cbn in *. lia.
  - unfold replies. rewrite !app_nil_r. destruct (sv_accepting sv); [|exact Hf]. destruct Hf as (H1 & H2). split; [|exact H2]. cbn [sv_conns sv_queue]. apply flow_app; [reflexivity|exact H1].
  - unfold replies. rewrite (app_nil_r hs), (app_nil_r ss). destruct Hf as (Hf & Hn). destruct (Nat.eqb_spec j sid) as [->|Hne]; cbn [andb].
    + destruct (sv_conns sv sid) as [c|] eqn:Hc.
      2:{ replace (match r with RData _ => [] | _ => [] end) with (@nil ascii) by (destruct r; reflexivity). rewrite app_nil_r. split; rewrite Hc; assumption. }
      destruct (c_reading c) eqn:Hrd.
      * split; cbn [set_conns sv_conns sv_queue sv_sid]; rewrite upd_conn_same; [|intros H; destruct (Hn H); discriminate].
        destruct Hf as (bytes & ks & Hr & Hm). rewrite Hrd in Hm. destruct Hm as (Hm & ->). exists bytes, ks. cbn [c_dev c_reading]. split; [exact Hr|].
        exists r. rewrite mine_app, Hm. cbn [mine filter of_sid]. rewrite Nat.eqb_refl. split; reflexivity.
      * replace (match r with RData _ => [] | _ => [] end) with (@nil ascii) by (destruct r; reflexivity). rewrite app_nil_r. split; rewrite Hc; assumption.
    + replace (match r with RData _ => match sv_conns sv sid with Some _ => [] | None => [] end | _ => [] end) with (@nil ascii) by (destruct r, (sv_conns sv sid); reflexivity).
      rewrite app_nil_r. destruct (sv_conns sv j) as [c|]; [|split; assumption]. destruct (c_reading c); [|split; assumption].
      split; cbn [set_conns sv_conns sv_queue sv_sid]; rewrite upd_conn_other by congruence; [|exact Hn].
      apply flow_app; [|exact Hf]. cbn. destruct (Nat.eqb_spec j sid); [contradiction|reflexivity].
Qed.

Lemma flow_prefix c q hs ds ss : flow c q hs ds ss -> exists ks more, snd (receive ds dev_init) = (hs ++ ks, ss ++ more).
Proof.
  destruct c as [c|]; cbn [flow]; [|intros (_ & H); exact H]. intros (bytes & ks & Hr & H). destruct (c_reading c).
  - destruct H as (_ & ->). rewrite Hr. exists ks, []. rewrite app_nil_r. reflexivity.
  - destruct H as (r & _ & ->). destruct (receive_more bytes (match r with RData chunk => chunk | _ => [] end) _ _ _ Hr) as (k2 & s2 & ->). exists (ks ++ k2), s2. rewrite app_assoc. reflexivity.
Qed.
(** Also in the middle of a step. *)
Lemma flow_start i sv hs ds ss : flows sv hs ds ss ->
  exists ks more, snd (receive ds dev_init) = ((hs ++ match i, sv_queue sv with IRun, TkKey j k :: _ => if Nat.eqb j sid then [k] else [] | _, _ => [] end) ++ ks, ss ++ replies E net sid i sv ++ more).
Proof.
  intros (Hf & _). assert (H0 : exists ks more, snd (receive ds dev_init) = ((hs ++ []) ++ ks, ss ++ [] ++ more)).
  { rewrite app_nil_r. cbn [app]. eapply flow_prefix. exact Hf. }
  unfold replies. destruct i as [|ok|j r]; try exact H0. destruct (sv_queue sv) as [|t q]; [exact H0|].
  destruct t as [j k|j r|ok]; try exact H0.
  - destruct (Nat.eqb_spec j sid) as [->|Hne]; [|exact H0]. destruct (sv_conns sv sid) as [c|]; cbn [flow] in Hf;
      [|destruct Hf as (Hf & _); cbn in Hf; rewrite Nat.eqb_refl in Hf; discriminate].
    destruct Hf as (bytes & ks & Hr & Hm); cbn [mine filter of_sid] in Hm; rewrite Nat.eqb_refl in Hm.
    assert (Hk : exists ks', ks = k :: ks') by (destruct (c_reading c); [destruct Hm as (Hm & _)|destruct Hm as (r & Hm & _)]; destruct ks as [|k' ks']; try discriminate; injection Hm as <- _; eauto).
    destruct Hk as (ks' & ->). assert (Hd : exists b, ds = bytes ++ b) by (destruct (c_reading c); [destruct Hm as (_ & ->); exists []; symmetry; apply app_nil_r|destruct Hm as (r & _ & ->); eauto]).
    destruct Hd as (b & ->); destruct (receive_more bytes b _ _ _ Hr) as (k2 & s2 & ->); exists (ks' ++ k2), s2; rewrite <- ?app_assoc; reflexivity.
  - destruct r as [chunk| |]; try exact H0. destruct (sv_conns sv sid) as [c|]; [|exact H0]. destruct (Nat.eqb_spec j sid) as [->|Hne]; [|exact H0].
    cbn [andb]. destruct (closed E net sid (sv_trace sv)); [exact H0|]. cbn [negb]. cbn [flow] in Hf. destruct Hf as (bytes & ks & Hr & Hm). cbn [mine filter of_sid] in Hm. rewrite Nat.eqb_refl in Hm.
    destruct (c_reading c); [destruct Hm as (Hm & _); destruct ks; discriminate|]. destruct Hm as (r' & Hm & ->).
    destruct ks as [|k ks]; [|discriminate]. injection Hm as <- _. rewrite receive_app, Hr. destruct (receive chunk (c_dev c)) as (d & k2 & s2).
    exists k2, []. cbn [snd]. rewrite !app_nil_r. reflexivity.
Qed.

Lemma flows_run is : forall sv hs ds ss, flows sv hs ds ss ->
  (exists ks more, snd (receive (ds ++ delivered is sv) dev_init) = ((hs ++ handled is sv) ++ ks, (ss ++ replied is sv) ++ more)) /\
  v_flows (run is sv) (hs ++ handled is sv) (ds ++ delivered is sv) (ss ++ replied is sv).
Proof.
  induction is as [|i is IH]; intros sv hs ds ss Hf; cbn [ServerSpec.handled ServerSpec.delivered ServerSpec.replied sv_run].
  - rewrite !app_nil_r. split; [|exact Hf]. eapply flow_prefix. apply Hf.
  - pose proof (flows_step i sv hs ds ss Hf) as Hs. rewrite !app_assoc.
    destruct (step i sv) as [sv'|x sv'| | |] eqn:Hst; cbn [v_flows] in Hs.
    1,2: exact (IH _ _ _ _ Hs).
    all: rewrite !app_nil_r; split; [|exact Logic.I].
    all: assert (i = IRun) as -> by (destruct i as [|ok|j r]; [reflexivity| |];
      cbn [sv_step] in Hst; [destruct (sv_accepting sv); discriminate|destruct (sv_conns sv j) as [c|]; [destruct (c_reading c)|]; discriminate]).
    all: rewrite app_nil_r; destruct (flow_start IRun sv hs ds ss Hf) as (ks & more & ->); exists ks, more; rewrite <- !app_assoc; reflexivity.
Qed.

Lemma init_flows root nxt st : flows (server_init root nxt st) [] [] [].
Proof. split; [split; [reflexivity|exists [], []; reflexivity]|intros _; repeat (split; [reflexivity|]); reflexivity]. Qed.
End Order.
