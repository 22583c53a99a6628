(** * Proofs: clients that connect *)

From Verif Require Import Base SplitModel FromStringModel HistoryModel HistorySpec StorageModel PrefixModel TerminalModel MenuModel SessionModel CompletionModel ProcessorModel
  SessionSpec SessionProofs InvariantProofs OutputProofs ProcessorSpec ProcessorProofs TelnetModel ServerModel ServerSpec ServerProofs IsolationSpec IsolationProofs AcceptSpec.
Open Scope nat_scope.
Open Scope list_scope.

(** ** Only opening a session runs enter actions *)
Definition by_session (sid : nat) (e : event) : Prop :=
  match e with
  | EvOut i _ | EvCall i _ _ | EvInput i _ => i = sid
  | EvHook i k _ => i = sid /\ ~ enter_hook k
  | _ => True
  end.
Notation steps w := (adds (by_session (w_sid w)) w).
Lemma steps_trans a b c : steps a b -> steps b c -> steps a c.
Proof. intros H1 H2. assert (Hs : w_sid b = w_sid a) by apply H1. rewrite Hs in H2. exact (adds_trans _ _ _ _ H1 H2). Qed.
Lemma steps_log w0 e w : by_session (w_sid w) e -> steps w0 w -> steps w0 (log e w).
Proof. intros He H. exact (steps_trans _ _ _ H (adds_log _ e w He)). Qed.
Lemma steps_out w0 s w : steps w0 w -> steps w0 (out s w).
Proof. intros H. apply (steps_log w0 (EvOut (w_sid w) s)); [reflexivity|exact H]. Qed.
Lemma steps_op w0 w o : steps w0 w -> steps w0 (apply_op w o).
Proof.
  intros H. destruct o as [s|s|id|id|id|pid c]; try exact H; [apply steps_out, H|apply (steps_log w0 (EvBroadcast s)); [exact Logic.I|exact H]|].
  cbn. destruct (relabel (w_next w) c) as (c', n). apply (steps_log w0 (EvInsert pid (w_next w))); [exact Logic.I|exact H].
Qed.
Lemma steps_code w0 e w : code_event (w_sid w) e -> steps w0 w -> steps w0 (log e w).
Proof. intros He. apply steps_log. destruct e; try contradiction; exact He. Qed.
Lemma steps_feed E fuel line w0 w : steps w0 w -> f_inv (adds (by_session (w_sid w0)) w0) (feed E fuel line w).
Proof.
  intros H. assert (Hf : fx_inv (adds (by_session (w_sid w0)) w0) (fun _ => True) (feed E fuel line w)).
  { apply (out_feed_inv E (adds (by_session (w_sid w0)) w0) (fun _ => True) (fun _ => True) (fun _ => True) (code_ops_all E) (all_throws E));
      auto using steps_code, steps_out, steps_op. }
  destruct (feed E fuel line w); cbn in *; tauto.
Qed.
Lemma steps_exit E w0 w : steps w0 w -> h_inv (adds (by_session (w_sid w0)) w0) (session_exit E w).
Proof.
  intros H. assert (Hf : hx_inv (adds (by_session (w_sid w0)) w0) (fun _ => True) (session_exit E w)).
  { apply (o_exit_inv E (adds (by_session (w_sid w0)) w0) (fun _ => True) (fun _ => True) (code_ops_all E) (all_throws E)); auto using steps_code, steps_op. }
  destruct (session_exit E w); cbn in *; tauto.
Qed.
Definition p_steps (w0 : world) (r : pres) : Prop := match r with POk p | PExc _ p => steps w0 (p_world p) | _ => True end.
Lemma steps_prompt w0 tty c p : steps w0 (p_world p) -> p_steps w0 (p_prompt tty c p).
Proof. intros H. unfold p_prompt. destruct (prompt _ _ _ _) as [(b, f)|]; [|exact Logic.I]. cbn. apply steps_out, H. Qed.
Lemma steps_set_line w0 tty c s p : steps w0 (p_world p) -> steps w0 (p_world (p_set_line tty c s p)).
Proof. intros H. unfold p_set_line. destruct (set_line _ _ _ _). cbn. apply steps_out, H. Qed.
Lemma steps_reprint w0 tty c s line p : steps w0 (p_world p) ->
  p_steps w0 (p_bind (p_prompt tty c (p_out s p)) (fun p1 => POk (p_set_line tty c line (p_reset_cursor p1)))).
Proof.
  intros H. pose proof (steps_prompt w0 tty c (p_out s p) (steps_out _ _ _ H)) as Hp. destruct (p_prompt _ _ _) as [p1|x p1| |]; try exact Hp.
  cbn. apply steps_set_line, Hp.
Qed.
Lemma steps_input w0 b w : steps w0 w -> steps w0 (log (EvInput (w_sid w) b) w).
Proof. apply steps_log. reflexivity. Qed.
Lemma steps_process E fuel tty c sy w0 p : steps w0 (p_world p) -> p_steps w0 (process E fuel tty c sy p).
Proof.
  intros H. destruct sy; cbn [process].
  - exact H.
  - pose proof (steps_feed E fuel cmd w0 (p_world (p_log (EvInput (w_sid (p_world p)) false) p)) (steps_input _ _ _ H)) as Hf.
    destruct (feed E fuel cmd _) as [w2|x w2| |]; try exact Hf. cbn [of_fres p_bind].
    pose proof (steps_prompt w0 tty c (mkProc w2 (p_term (p_log (EvInput (w_sid (p_world p)) false) p))) Hf) as Hp.
    destruct (p_prompt _ _ _) as [p3|x p3| |]; try exact Hp. cbn. apply steps_input, Hp.
  - unfold previous_cmd. destruct (previous _ _) as [(s, h)|]; [|exact Logic.I]. apply steps_set_line. exact H.
  - unfold next_cmd. destruct (next _) as [(s, h)|]; [|exact Logic.I]. apply steps_set_line. exact H.
  - destruct (get_completions _ _ _ _) as [l| |]; try exact Logic.I. destruct l as [|a [|a' l]]; [exact H|apply steps_set_line, H|].
    destruct (common_prefix _); [|exact Logic.I]. destruct (Nat.ltb _ _); [apply steps_set_line, H|apply steps_reprint, H].
  - pose proof (steps_exit E w0 (p_world p) H) as He. destruct (session_exit E (p_world p)); exact He.
  - apply steps_reprint, H.
Qed.
Lemma steps_press E fuel tty k p : p_steps (p_world p) (press E fuel tty k p).
Proof.
  unfold press. destruct (keypressed _ _ _ _) as [((b, sy), t)|]; [|exact Logic.I].
  apply steps_process. apply steps_out, adds_refl.
Qed.

(** Opening a telnet session. *)
Definition first_call (E : env) (sid : nat) : list event := if e_has E KCliEnter then [EvHook sid KCliEnter []] else [].
Lemma steps_enter E net w : match session_enter (telnet_env E net) w with
  | HOk w' | HExc _ w' => w_sid w' = w_sid w /\ exists evs, w_trace w' = w_trace w ++ first_call E (w_sid w) ++ evs /\ Forall (by_session (w_sid w)) evs
  | _ => True end.
Proof.
  unfold session_enter, first_call. cbn [telnet_env e_has]. destruct (e_has E KCliEnter).
  - rewrite hook_spec. cbn zeta. set (w1 := log (EvHook (w_sid w) KCliEnter []) w).
    assert (H : forall os, w_sid (apply_ops os w1) = w_sid w /\
      exists evs, w_trace (apply_ops os w1) = w_trace w ++ [EvHook (w_sid w) KCliEnter []] ++ evs /\ Forall (by_session (w_sid w)) evs).
    { intros os. assert (Hs : steps w1 (apply_ops os w1)) by (apply (apply_ops_ind (adds (by_session (w_sid w1)) w1)); [apply adds_refl|intros; apply steps_op; assumption]).
      destruct Hs as (Hs & evs & Ht & Hz). split; [exact Hs|]. exists evs. split; [|exact Hz]. rewrite Ht. cbn. rewrite <- app_assoc. reflexivity. }
    match goal with |- context[ur_end ?r] => destruct (ur_end r) end; cbn [h_bind]; apply H.
  - cbn [h_bind]. split; [reflexivity|]. exists []. rewrite !app_nil_r. split; [reflexivity|constructor].
Qed.
Lemma steps_connect E net tty c sid size root nxt st tr :
  match p_bind (of_hres (session_enter (telnet_env E net) (out (flat_map written greeting) (open_session sid size root nxt st tr))) term_init) (p_prompt tty c) with
  | POk p | PExc _ p => exists evs, w_trace (p_world p) = tr ++ (EvOut sid hello :: first_call E sid) ++ evs /\ Forall (by_session sid) evs
  | _ => True end.
Proof.
  set (w := out _ _). pose proof (steps_enter E net w) as H.
  assert (Hw : w_trace w = tr ++ [EvOut sid hello] /\ w_sid w = sid) by (split; reflexivity). destruct Hw as (Hw & Hi). rewrite Hw, Hi in H.
  destruct (session_enter _ _) as [w1|x w1| |]; cbn [of_hres p_bind]; try exact Logic.I; destruct H as (Hs & evs & Ht & Hz).
  - pose proof (steps_prompt w1 tty c (mkProc w1 term_init) (adds_refl _ _)) as Hp.
    destruct (p_prompt _ _ _) as [p|x p| |]; try exact Logic.I; destruct Hp as (_ & evs' & Ht' & Hz'); exists (evs ++ evs');
      rewrite Ht', Ht, <- !app_assoc; rewrite Hs in Hz'; (split; [reflexivity|apply Forall_app; split; assumption]).
  - exists evs. cbn [p_world]. rewrite Ht, <- app_assoc. split; [reflexivity|exact Hz].
Qed.

(** ** The events of each session *)
Lemma own_by sid i evs : Forall (by_session i) evs -> sid <> i -> own sid evs = [].
Proof.
  intros H Hn. induction H as [|e evs He H IH]; [reflexivity|]. cbn [own filter].
  destruct e; cbn in He |- *; try (destruct He as (He & _)); try subst; try (destruct (Nat.eqb_spec i sid); [congruence|]); exact IH.
Qed.
Lemma own_quiet sid i evs : Forall (by_session i) evs -> Forall no_enter (own sid evs).
Proof.
  intros H. apply Forall_forall. intros e He. apply filter_In in He as (He & _). rewrite Forall_forall in H. specialize (H e He).
  destruct e; try exact Logic.I. destruct H as (_ & H). destruct k; try exact Logic.I; apply H; exact Logic.I.
Qed.

Section Serve.
Context (E : env) (net : nat -> list event -> bool) (size fuel : nat) (tty : bool) (color : list event -> bool * bool).
Notation step := (sv_step E net size fuel tty color).
Notation run := (sv_run E net size fuel tty color).

Definition begun (sv : server) : Prop := forall sid,
  if sid <? sv_sid sv then exists evs, own sid (sv_trace sv) = EvOut sid hello :: first_call E sid ++ evs /\ Forall no_enter evs
  else own sid (sv_trace sv) = [] /\ sv_conns sv sid = None.
Definition v_begun (r : vres) : Prop := match r with VOk sv | VExc _ sv => begun sv | _ => True end.
Lemma own_first sid : own sid (EvOut sid hello :: first_call E sid) = EvOut sid hello :: first_call E sid.
Proof. unfold first_call. cbn. rewrite Nat.eqb_refl. destruct (e_has E KCliEnter); cbn; rewrite ?Nat.eqb_refl; reflexivity. Qed.
Lemma own_first_other sid i : sid <> i -> own sid (EvOut i hello :: first_call E i) = [].
Proof. intros H. unfold first_call. cbn. destruct (Nat.eqb_spec i sid); [congruence|]. destruct (e_has E KCliEnter); cbn; [destruct (Nat.eqb_spec i sid); [congruence|]|]; reflexivity. Qed.

Lemma begun_grow sv sv' i evs : begun sv -> i < sv_sid sv -> sv_sid sv' = sv_sid sv -> sv_trace sv' = sv_trace sv ++ evs -> Forall (by_session i) evs ->
  (forall j, j <> i -> sv_conns sv' j = sv_conns sv j) -> begun sv'.
Proof.
  intros H Hi Hs Ht Hz Hc sid. specialize (H sid). rewrite Hs, Ht, own_app. destruct (Nat.ltb_spec sid (sv_sid sv)) as [Hl|Hl].
  - destruct H as (e0 & H & Hq). exists (e0 ++ own sid evs). rewrite H. cbn. rewrite <- app_assoc. split; [reflexivity|]. apply Forall_app. split; [exact Hq|].
    exact (own_quiet _ _ _ Hz).
  - destruct H as (H & Hn). rewrite H, (own_by sid i evs Hz) by lia. split; [reflexivity|]. rewrite Hc by lia. exact Hn.
Qed.
Lemma begun_open sv sv' evs : begun sv -> sv_sid sv' = S (sv_sid sv) -> sv_trace sv' = sv_trace sv ++ (EvOut (sv_sid sv) hello :: first_call E (sv_sid sv)) ++ evs ->
  Forall (by_session (sv_sid sv)) evs -> (forall j, j <> sv_sid sv -> sv_conns sv' j = sv_conns sv j) -> begun sv'.
Proof.
  intros H Hs Ht Hz Hc sid. specialize (H sid). rewrite Hs, Ht, !own_app.
  destruct (Nat.ltb_spec sid (sv_sid sv)) as [Hl|Hl], (Nat.ltb_spec sid (S (sv_sid sv))) as [Hl'|Hl']; try lia.
  - destruct H as (e0 & H & Hq). exists (e0 ++ own sid evs). rewrite H, own_first_other by lia. cbn. rewrite <- app_assoc. split; [reflexivity|].
    apply Forall_app. split; [exact Hq|]. exact (own_quiet _ _ _ Hz).
  - assert (sid = sv_sid sv) as -> by lia. destruct H as (H & _). rewrite H, own_first. exists (own (sv_sid sv) evs). split; [reflexivity|]. exact (own_quiet _ _ _ Hz).
  - destruct H as (H & Hn). rewrite H, own_first_other, (own_by sid _ evs Hz) by lia. split; [reflexivity|]. rewrite Hc by lia. exact Hn.
Qed.
Lemma begun_same sv sv' : begun sv -> sv_sid sv' = sv_sid sv -> sv_trace sv' = sv_trace sv ->
  (forall j, sv_conns sv j = None -> sv_conns sv' j = None) -> begun sv'.
Proof. intros H Hs Ht Hc sid. specialize (H sid). rewrite Hs, Ht. destruct (sid <? sv_sid sv); [exact H|]. destruct H as (H & Hn). auto. Qed.
Lemma begun_step i sv : begun sv -> v_begun (step i sv).
Proof.
  intros H. destruct i as [|ok|sid r]; cbn [sv_step].
  - destruct (sv_queue sv) as [|t q]; [exact H|].
    assert (H0 : begun (set_conns (sv_conns sv) q sv)) by exact H. set (sv0 := set_conns (sv_conns sv) q sv) in *. clearbody sv0. clear H sv q.
    destruct t as [sid k|sid r|ok]; cbn [run_task].
    + destruct (sv_conns sv0 sid) as [c|] eqn:Hc; [|exact Logic.I]. destruct (color (sv_trace sv0)) as [c1 c2].
      assert (Hlt : sid < sv_sid sv0).
      { specialize (H0 sid). destruct (Nat.ltb_spec sid (sv_sid sv0)); [assumption|]. destruct H0. congruence. }
      pose proof (steps_press (telnet_env E net) fuel tty (mkStroke k c1 c2) (proc_of sv0 sid c)) as Hp.
      destruct (press _ _ _ _ _) as [p|x p| |]; try exact Logic.I; destruct Hp as (_ & evs & Ht & Hz); cbn in Ht, Hz;
        (apply (begun_grow sv0 _ sid evs H0 Hlt); [reflexivity|exact Ht|exact Hz|]); intros j Hj; cbn; apply upd_conn_other, Hj.
    + destruct (sv_conns sv0 sid) as [c|] eqn:Hc; [|exact Logic.I]. cbn [v_begun].
      assert (Hu : forall c' j, sv_conns sv0 j = None -> upd_conn (sv_conns sv0) sid c' j = None).
      { intros c' j Hj. rewrite upd_conn_other; [exact Hj|]. congruence. }
      unfold run_read. destruct (closed E net sid (sv_trace sv0)); [|destruct r; [destruct (receive chunk (c_dev c)) as (d, (ks, s))| |]];
        (apply (begun_same sv0); [exact H0|reflexivity|reflexivity|apply Hu]).
    + unfold run_accept. destruct ok; [|exact H0].
      match goal with |- context[p_prompt tty ?c] => pose proof (steps_connect E net tty c (sv_sid sv0) size (sv_root sv0) (sv_next sv0) (sv_store sv0) (sv_trace sv0)) as Hp end.
      destruct (p_bind _ _) as [p|x p| |]; try exact Logic.I; destruct Hp as (evs & Ht & Hz);
        (apply (begun_open sv0 _ evs H0); [reflexivity|exact Ht|exact Hz|]); intros j Hj; cbn; try (apply upd_conn_other, Hj). reflexivity.
  - destruct (sv_accepting sv); exact H.
  - destruct (sv_conns sv sid) as [c|] eqn:Hc; [|exact H]. destruct (c_reading c); [|exact H].
    apply (begun_same sv); [exact H|reflexivity|reflexivity|]. intros j Hj. cbn. rewrite upd_conn_other; [exact Hj|congruence].
Qed.
Lemma begun_run is : forall sv, begun sv -> v_begun (run is sv).
Proof.
  induction is as [|i is IH]; intros sv H; [exact H|]. cbn [sv_run]. pose proof (begun_step i sv H) as Hs.
  destruct (step i sv); try exact Logic.I; apply IH, Hs.
Qed.
Lemma begins root nxt st is sv : run is (server_init root nxt st) = VOk sv -> forall sid,
  (sid < sv_sid sv -> exists evs, own sid (sv_trace sv) = EvOut sid hello :: (if e_has E KCliEnter then [EvHook sid KCliEnter []] else []) ++ evs /\ Forall no_enter evs) /\
  (sv_sid sv <= sid -> own sid (sv_trace sv) = []).
Proof.
  intros Hr sid. assert (Hi : begun (server_init root nxt st)) by (intros j; cbn; split; reflexivity).
  pose proof (begun_run is _ Hi) as H. rewrite Hr in H. specialize (H sid).
  destruct (Nat.ltb_spec sid (sv_sid sv)) as [Hl|Hl]; (split; intros Hs; [|try lia]); try lia; [exact H|apply H].
Qed.

(** ** Accepting *)
Context (Hent : enter_returns E).
Lemma connect_returns c sid root nxt st tr x p :
  p_bind (of_hres (session_enter (telnet_env E net) (out (flat_map written greeting) (open_session sid size root nxt st tr))) term_init) (p_prompt tty c) <> PExc x p.
Proof.
  unfold session_enter. cbn [telnet_env e_has]. intros H.
  assert (He : exists w1, (if e_has E KCliEnter then run_hook (telnet_env E net) KCliEnter [] (out (flat_map written greeting) (open_session sid size root nxt st tr))
    else HOk (out (flat_map written greeting) (open_session sid size root nxt st tr))) = HOk w1).
  { destruct (e_has E KCliEnter) eqn:Hk; [|eexists; reflexivity]. rewrite hook_spec. cbn zeta. cbn [telnet_env e_hook]. rewrite (Hent Hk). eexists. reflexivity. }
  destruct He as (w1 & He). rewrite He in H. cbn [h_bind of_hres p_bind] in H. exact (p_prompt_exc _ _ _ _ _ H).
Qed.
Definition one_accept (sv : server) : Prop := accepts (sv_queue sv) + (if sv_accepting sv then 1 else 0) = 1.
Lemma accepts_app a b : accepts (a ++ b) = accepts a + accepts b.
Proof. unfold accepts. rewrite filter_app, app_length. reflexivity. Qed.
Lemma accepts_keys sid ks : accepts (map (TkKey sid) ks) = 0.
Proof. induction ks as [|k ks IH]; [reflexivity|exact IH]. Qed.
Definition v_one (r : vres) : Prop := match r with VOk sv | VExc _ sv => one_accept sv | _ => True end.
Lemma one_step i sv : one_accept sv -> v_one (step i sv).
Proof.
  unfold one_accept. intros H. destruct i as [|ok|sid r]; cbn [sv_step].
  - destruct (sv_queue sv) as [|t q] eqn:Hq; [unfold v_one, one_accept; rewrite Hq; exact H|].
    destruct t as [sid k|sid r|ok]; cbn [run_task set_conns sv_conns sv_trace].
    + destruct (sv_conns sv sid) as [c|]; [|exact Logic.I]. destruct (color (sv_trace sv)) as [c1 c2].
      destruct (press _ _ _ _ _) as [p|x p| |]; try exact Logic.I; unfold v_one, one_accept, after_key; cbn [sv_queue sv_accepting set_conns]; rewrite accepts_app;
        match goal with |- context[if ?b then [TkRead _ _] else _] => destruct b end; unfold accepts in *; cbn in H |- *; lia.
    + destruct (sv_conns sv sid) as [c|]; [|exact Logic.I]. unfold run_read. cbn [sv_trace set_conns].
      destruct (closed E net sid (sv_trace sv)); [exact H|]. destruct r as [chunk| |]; [|exact H|exact H].
      destruct (receive chunk (c_dev c)) as (d, (ks, s)). unfold v_one, one_accept. cbn [set_conns sv_queue sv_accepting]. rewrite accepts_app, accepts_keys. unfold accepts in *. cbn in H. lia.
    + unfold run_accept. unfold accepts in H. cbn in H. destruct (sv_accepting sv); [lia|].
      destruct ok; [|unfold v_one, one_accept, accepts; cbn; lia].
      match goal with |- context[p_bind ?a ?b] => destruct (p_bind a b) as [p|x p| |] eqn:Hp end; try exact Logic.I; [unfold v_one, one_accept, accepts; cbn; lia|].
      exfalso. exact (connect_returns _ _ _ _ _ _ _ _ Hp).
  - destruct (sv_accepting sv) eqn:Ha; unfold v_one, one_accept; [|rewrite Ha; exact H]. cbn [sv_queue sv_accepting]. rewrite accepts_app. unfold accepts in *. cbn. lia.
  - destruct (sv_conns sv sid) as [c|] eqn:Hc; [|exact H]. destruct (c_reading c); [|exact H].
    unfold v_one, one_accept. cbn [set_conns sv_queue sv_accepting]. rewrite accepts_app. unfold accepts in *. cbn. lia.
Qed.
Lemma one_run is : forall sv, one_accept sv -> v_one (run is sv).
Proof.
  induction is as [|i is IH]; intros sv H; [exact H|]. cbn [sv_run]. pose proof (one_step i sv H) as Hs.
  destruct (step i sv); try exact Logic.I; apply IH, Hs.
Qed.
Lemma accepting root nxt st is sv : run is (server_init root nxt st) = VOk sv ->
  accepts (sv_queue sv) = if sv_accepting sv then 0 else 1.
Proof.
  intros Hr. assert (Hi : one_accept (server_init root nxt st)) by reflexivity. pose proof (one_run is _ Hi) as H. rewrite Hr in H.
  unfold v_one, one_accept in H. destruct (sv_accepting sv); lia.
Qed.

(** The handlers run in order. *)
Lemma fifo_step sv t q : sv_queue sv = t :: q ->
  match step IRun sv with
  | VOk sv' | VExc _ sv' => exists q', sv_queue sv' = q ++ q' /\ sv_sid sv' = sv_sid sv + (match t with TkAccept true => 1 | _ => 0 end) /\
      (t = TkAccept true -> step IRun sv = VOk sv' /\ sv_accepting sv' = true /\ exists c, sv_conns sv' (sv_sid sv) = Some c /\ c_reading c = true)
  | _ => True
  end.
Proof.
  intros Hq. cbn [sv_step]. rewrite Hq. destruct t as [sid k|sid r|ok]; cbn [run_task set_conns sv_conns sv_trace].
  - destruct (sv_conns sv sid) as [c|]; [|exact Logic.I]. destruct (color (sv_trace sv)) as [c1 c2].
    destruct (press _ _ _ _ _) as [p|x p| |]; try exact Logic.I; cbn [after_key sv_queue sv_sid set_conns]; (eexists; split; [reflexivity|]); (split; [lia|discriminate]).
  - destruct (sv_conns sv sid) as [c|]; [|exact Logic.I]. unfold run_read. cbn [sv_trace set_conns].
    destruct (closed E net sid (sv_trace sv)); [|destruct r; [destruct (receive chunk (c_dev c)) as (d, (ks, s))| |]]; cbn [set_conns sv_queue sv_sid];
      (eexists; split; [first [reflexivity|symmetry; apply app_nil_r]|split; [lia|discriminate]]).
  - unfold run_accept. destruct ok.
    + match goal with |- context[p_bind ?a ?b] => destruct (p_bind a b) as [p|x p| |] eqn:Hp end; try exact Logic.I.
      2:{ exfalso. exact (connect_returns _ _ _ _ _ _ _ _ Hp). }
      cbn [sv_queue sv_sid set_conns sv_accepting sv_conns]. exists []. rewrite app_nil_r. split; [reflexivity|]. split; [lia|]. intros _.
      split; [reflexivity|]. split; [reflexivity|]. rewrite upd_conn_same. eexists. split; reflexivity.
    + cbn [sv_queue sv_sid set_conns]. exists []. rewrite app_nil_r. split; [reflexivity|]. split; [lia|discriminate].
Qed.
Lemma fifo_accept q0 : forall sv q1 sv', accepts q0 = 0 -> sv_queue sv = q0 ++ TkAccept true :: q1 -> run (runs (length q0 + 1)) sv = VOk sv' ->
  sv_sid sv' = S (sv_sid sv) /\ sv_accepting sv' = true /\ exists c, sv_conns sv' (sv_sid sv) = Some c /\ c_reading c = true.
Proof.
  induction q0 as [|t q0 IH]; intros sv q1 sv' Ha Hq Hr; cbn [app length Nat.add runs repeat sv_run] in *.
  - pose proof (fifo_step sv _ _ Hq) as Hf. destruct (step IRun sv) as [s|x s| | |]; try discriminate.
    + destruct Hf as (q' & _ & Hs & Hx). injection Hr as <-. destruct (Hx eq_refl) as (_ & H1 & H2). split; [lia|]. split; [exact H1|exact H2].
    + destruct Hf as (q' & _ & _ & Hx). destruct (Hx eq_refl) as (Hy & _). discriminate.
  - assert (Ht : accepts q0 = 0 /\ match t with TkAccept true => 1 | _ => 0 end = 0).
    { unfold accepts in *. cbn in Ha. destruct t; cbn in Ha; [auto|auto|lia]. }
    destruct Ht as (Ha' & Ht). pose proof (fifo_step sv _ _ Hq) as Hf. destruct (step IRun sv) as [s|x s| | |]; try discriminate;
      destruct Hf as (q' & Hq' & Hs & _); rewrite Ht, Nat.add_0_r in Hs; rewrite <- app_assoc in Hq'; cbn [app] in Hq';
      destruct (IH s _ sv' Ha' Hq' Hr) as (H1 & H2 & H3); rewrite Hs in *; auto.
Qed.
Lemma connects root nxt st is sv sv' : run is (server_init root nxt st) = VOk sv -> sv_accepting sv = true ->
  run (IConnect true :: runs (length (sv_queue sv) + 1)) sv = VOk sv' ->
  sv_sid sv' = S (sv_sid sv) /\ sv_accepting sv' = true /\ exists c, sv_conns sv' (sv_sid sv) = Some c /\ c_reading c = true.
Proof.
  intros Hr Ha Hr'. pose proof (accepting _ _ _ _ _ Hr) as Hacc. rewrite Ha in Hacc. cbn [sv_run sv_step] in Hr'. rewrite Ha in Hr'.
  refine (fifo_accept (sv_queue sv) _ [] _ Hacc _ Hr'). reflexivity.
Qed.
End Serve.

(** ** Not accepting *)
Section Stuck.
Context (E : env) (net : nat -> list event -> bool) (size fuel : nat) (tty : bool) (color : list event -> bool * bool).
Notation step := (sv_step E net size fuel tty color).
Notation run := (sv_run E net size fuel tty color).
Definition stuck (n : nat) (sv : server) : Prop := sv_accepting sv = false /\ accepts (sv_queue sv) = 0 /\ sv_sid sv = n.
Lemma stuck_step n i sv : stuck n sv -> match step i sv with VOk sv' | VExc _ sv' => stuck n sv' | _ => True end.
Proof.
  intros H. destruct i as [|ok|sid r]; cbn [sv_step].
  - destruct (sv_queue sv) as [|t q] eqn:Hq; [exact H|]. destruct H as (Ha & Hn & Hs). rewrite Hq in Hn.
    destruct t as [sid k|sid r|ok]; cbn [run_task set_conns sv_conns sv_trace]; [| |discriminate].
    + destruct (sv_conns sv sid) as [c|]; [|exact Logic.I]. destruct (color (sv_trace sv)) as [c1 c2].
      destruct (press _ _ _ _ _) as [p|x p| |]; try exact Logic.I; (split; [exact Ha|split; [|exact Hs]]); cbn [after_key sv_queue set_conns]; rewrite accepts_app;
        match goal with |- context[if ?b then [TkRead _ _] else _] => destruct b end; unfold accepts in *; cbn in Hn |- *; lia.
    + destruct (sv_conns sv sid) as [c|]; [|exact Logic.I]. unfold run_read. cbn [sv_trace set_conns].
      destruct (closed E net sid (sv_trace sv)); [|destruct r; [destruct (receive chunk (c_dev c)) as (d, (ks, s))| |]]; (split; [exact Ha|split; [|exact Hs]]); try exact Hn.
      cbn [set_conns sv_queue]. rewrite accepts_app, accepts_keys. unfold accepts in *. cbn in Hn. lia.
  - destruct (sv_accepting sv) eqn:Ha; [|exact H]. destruct H. congruence.
  - destruct (sv_conns sv sid) as [c|] eqn:Hc; [|exact H]. destruct (c_reading c); [|exact H]. destruct H as (Ha & Hn & Hs). split; [exact Ha|]. split; [|exact Hs].
    cbn [set_conns sv_queue]. rewrite accepts_app, Hn. reflexivity.
Qed.
Lemma stuck_run n is : forall sv, stuck n sv -> match run is sv with VOk sv' | VExc _ sv' => stuck n sv' | _ => True end.
Proof.
  induction is as [|i is IH]; intros sv H; [exact H|]. cbn [sv_run]. pose proof (stuck_step n i sv H) as Hs.
  destruct (step i sv); try exact Logic.I; apply IH, Hs.
Qed.
End Stuck.
