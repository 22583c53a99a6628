(** * Proofs: sessions of a server do not interfere *)

From Verif Require Import Base SplitModel FromStringModel HistoryModel StorageModel PrefixModel TerminalModel MenuModel SessionModel CompletionModel ProcessorModel
  SessionSpec InvariantProofs OutputProofs SimulationProofs TelnetModel ServerModel ServerSpec ServerProofs IsolationSpec.
Open Scope nat_scope.
Open Scope list_scope.

Lemma own_app sid a b : own sid (a ++ b) = own sid a ++ own sid b.
Proof. apply filter_app. Qed.
Definition own_eq (sid : nat) (t t' : list event) : Prop := own sid t = own sid t'.
Lemma own_eq_add sid t t' e : own_eq sid t t' -> own_eq sid (t ++ [e]) (t' ++ [e]).
Proof. unfold own_eq. intros H. rewrite !own_app, H. reflexivity. Qed.
Definition any_store (s s' : storage) : Prop := True.
Lemma any_store_add s s' l : any_store s s' -> any_store (st_store s l) (st_store s' l).
Proof. intros _. exact Logic.I. Qed.

(** ** The environment of a telnet session *)
Section Env.
Context (E : env) (net : nat -> list event -> bool) (Hsep : separate E net).
Lemma closed_in_own sid rest : forall seen seen', own_eq sid seen seen' -> closed_in E net sid seen rest = closed_in E net sid seen' (own sid rest).
Proof.
  induction rest as [|e rest IH]; intros seen seen' H; [reflexivity|].
  assert (Hs : own_eq sid (seen ++ [e]) (seen' ++ [e])) by (apply own_eq_add, H).
  assert (Hskip : own sid [e] = [] -> closed_in E net sid seen (e :: rest) = closed_in E net sid seen' (own sid (e :: rest))).
  { intros He. change (e :: rest) with ([e] ++ rest) at 2. rewrite own_app, He. cbn [app].
    rewrite <- (IH (seen ++ [e]) seen') by (unfold own_eq in *; rewrite own_app, He, app_nil_r; exact H).
    cbn [closed_in]. destruct e as [i s|s|i h a|i k a|p i|i b]; try reflexivity. destruct k; try reflexivity.
    cbn in He. destruct (Nat.eqb i sid); [discriminate|reflexivity]. }
  destruct (own sid [e]) as [|e' l] eqn:He; [apply Hskip, eq_refl|].
  assert (Hk : own sid (e :: rest) = e :: own sid rest). { cbn in He |- *. destruct e; try discriminate; destruct (Nat.eqb _ _); try discriminate; reflexivity. }
  rewrite Hk. cbn [closed_in]. rewrite (IH _ _ Hs). f_equal. destruct e as [i s|s|i h a|i k a|p i|i b]; try reflexivity. destruct k; try reflexivity.
  destruct Hsep as (_ & Hh & Hn). rewrite (Hh sid KSesExit a _ _ Hs), (Hn sid _ _ Hs). reflexivity.
Qed.
Lemma closed_own sid t t' : own_eq sid t t' -> closed E net sid t = closed E net sid t'.
Proof. intros H. unfold closed. rewrite (closed_in_own sid t [] []), (closed_in_own sid t' [] []) by reflexivity. unfold own_eq in H. rewrite H. reflexivity. Qed.
Lemma tel_handler sid h args t t' : own_eq sid t t' ->
  e_handler (telnet_env E net) sid h args (t ++ [EvCall sid h args]) = e_handler (telnet_env E net) sid h args (t' ++ [EvCall sid h args]).
Proof. intros H. cbn. apply Hsep, own_eq_add, H. Qed.
Lemma tel_hook sid k args t t' : own_eq sid t t' ->
  e_hook (telnet_env E net) sid k args (t ++ [EvHook sid k args]) = e_hook (telnet_env E net) sid k args (t' ++ [EvHook sid k args]).
Proof.
  intros H. pose proof (own_eq_add sid t t' (EvHook sid k args) H) as H1. destruct Hsep as (_ & Hh & Hn). cbn [telnet_env e_hook].
  rewrite (Hh sid KSesExit args _ _ H1), (Hn sid _ _ H1), !removelast_last, (closed_own sid t t' H), (Hh sid k args _ _ H1). reflexivity.
Qed.
End Env.

(** ** Nothing but its own events *)
Section Keep.
Context (E : env) (net : nat -> list event -> bool) (Hfix : menus_fixed E) (sid : nat).
Notation TE := (telnet_env E net).
Definition kept (w w' : world) : Prop :=
  w_root w' = w_root w /\ w_next w' = w_next w /\ w_sid w' = w_sid w /\ (w_sid w <> sid -> own_eq sid (w_trace w') (w_trace w)).
Definition p_kept (w : world) (r : pres) : Prop := match r with POk p | PExc _ p => kept w (p_world p) | _ => True end.
Lemma kept_refl w : kept w w.
Proof. repeat (split; [reflexivity|]). reflexivity. Qed.
Lemma kept_trans a b c : kept a b -> kept b c -> kept a c.
Proof.
  intros (H1 & H2 & H3 & H4) (H1' & H2' & H3' & H4'). repeat (split; [congruence|]). intros Hn. unfold own_eq in *. rewrite H4' by congruence. apply H4, Hn.
Qed.
Lemma kept_log pre e w : (w_sid w <> sid -> own sid [e] = []) -> kept pre w -> kept pre (log e w).
Proof.
  intros He H. eapply kept_trans; [exact H|]. repeat (split; [reflexivity|]). intros Hn. unfold own_eq. cbn. rewrite own_app, He, app_nil_r by exact Hn. reflexivity.
Qed.
Lemma kept_out pre s w : kept pre w -> kept pre (out s w).
Proof. intros H. apply kept_log; [|exact H]. intros Hn. cbn. destruct (Nat.eqb_spec (w_sid w) sid); [contradiction|reflexivity]. Qed.
Lemma kept_input pre b w : kept pre w -> kept pre (log (EvInput (w_sid w) b) w).
Proof. intros H. apply kept_log; [|exact H]. intros Hn. cbn. destruct (Nat.eqb_spec (w_sid w) sid); [contradiction|reflexivity]. Qed.
Lemma kept_code pre e w : code_event (w_sid w) e -> kept pre w -> kept pre (log e w).
Proof.
  intros He. apply kept_log. intros Hn. destruct e; try contradiction; cbn in He; try destruct He as (He & _); subst; cbn; (destruct (Nat.eqb_spec (w_sid w) sid); [contradiction|reflexivity]).
Qed.
Lemma kept_enter_hook pre k w : enter_hook k -> kept pre w -> kept pre (log (EvHook (w_sid w) k []) w).
Proof. intros _. apply kept_log. intros Hn. cbn. destruct (Nat.eqb_spec (w_sid w) sid); [contradiction|reflexivity]. Qed.
Lemma tel_ops : code_ops TE prints_only.
Proof.
  split; [intros; apply (proj1 Hfix)|]. intros i k args tr. cbn [telnet_env e_hook]. destruct k; try apply (proj2 Hfix).
  destruct (e_has E KSesExit); [|constructor]. cbn zeta. destruct (ur_end _); [|apply (proj2 Hfix)].
  destruct (closed _ _ _ _); [apply (proj2 Hfix)|]. destruct (net i tr); apply (proj2 Hfix).
Qed.
Lemma all_throws E' : code_throws E' (fun _ => True).
Proof. split; intros; exact Logic.I. Qed.
Lemma kept_op pre w o : prints_only o -> kept pre w -> kept pre (apply_op w o).
Proof.
  intros Ho H. destruct o; try contradiction; [apply kept_out, H|]. cbn. apply kept_log; [reflexivity|exact H].
Qed.
Lemma kept_feed fuel line pre w : kept pre w -> f_inv (kept pre) (feed TE fuel line w).
Proof.
  intros H. assert (Hf : fx_inv (kept pre) (fun _ => True) (feed TE fuel line w)).
  { apply (out_feed_inv TE (kept pre) (fun _ => True) (fun _ => True) prints_only tel_ops (all_throws TE)); auto using kept_code, kept_out, kept_op. }
  destruct (feed TE fuel line w); cbn in *; tauto.
Qed.
Lemma kept_exit pre w : kept pre w -> h_inv (kept pre) (session_exit TE w).
Proof.
  intros H. assert (Hf : hx_inv (kept pre) (fun _ => True) (session_exit TE w)).
  { apply (o_exit_inv TE (kept pre) (fun _ => True) prints_only tel_ops (all_throws TE)); auto using kept_code, kept_out, kept_op. }
  destruct (session_exit TE w); cbn in *; tauto.
Qed.
Lemma kept_enter pre w : kept pre w -> h_inv (kept pre) (session_enter TE w).
Proof.
  intros H. assert (Hf : hx_inv (kept pre) (fun _ => True) (session_enter TE w)).
  { apply (o_enter_inv TE (kept pre) (fun _ => True) prints_only tel_ops (all_throws TE)); auto using kept_enter_hook, kept_op. }
  destruct (session_enter TE w); cbn in *; tauto.
Qed.
Lemma kept_prompt pre tty c p : kept pre (p_world p) -> p_kept pre (p_prompt tty c p).
Proof. intros H. unfold p_prompt. destruct (prompt _ _ _ _) as [(b, f)|]; [|exact Logic.I]. cbn. apply kept_out, H. Qed.
Lemma kept_set_line pre tty c s p : kept pre (p_world p) -> kept pre (p_world (p_set_line tty c s p)).
Proof. intros H. unfold p_set_line. destruct (set_line _ _ _ _). cbn. apply kept_out, H. Qed.
Lemma kept_reprint pre tty c s line p : kept pre (p_world p) ->
  p_kept pre (p_bind (p_prompt tty c (p_out s p)) (fun p1 => POk (p_set_line tty c line (p_reset_cursor p1)))).
Proof.
  intros H. pose proof (kept_prompt pre tty c (p_out s p) (kept_out _ _ _ H)) as Hp. destruct (p_prompt _ _ _) as [p1|x p1| |]; try exact Hp.
  cbn. apply kept_set_line, Hp.
Qed.
Lemma kept_process fuel tty c sy p : p_kept (p_world p) (process TE fuel tty c sy p).
Proof.
  pose proof (kept_refl (p_world p)) as H. destruct sy; cbn [process].
  - exact H.
  - pose proof (kept_feed fuel cmd (p_world p) (p_world (p_log (EvInput (w_sid (p_world p)) false) p)) (kept_input _ _ _ H)) as Hf.
    destruct (feed TE fuel cmd _) as [w2|x w2| |]; try exact Hf. cbn [of_fres p_bind].
    pose proof (kept_prompt (p_world p) tty c (mkProc w2 (p_term (p_log (EvInput (w_sid (p_world p)) false) p))) Hf) as Hp.
    destruct (p_prompt _ _ _) as [p3|x p3| |]; try exact Hp. cbn. apply kept_input, Hp.
  - unfold previous_cmd. destruct (previous _ _) as [(s, h)|]; [|exact Logic.I]. apply kept_set_line. exact H.
  - unfold next_cmd. destruct (next _) as [(s, h)|]; [|exact Logic.I]. apply kept_set_line. exact H.
  - destruct (get_completions _ _ _ _) as [l| |]; try exact Logic.I. destruct l as [|a [|a' l]]; [exact H|apply kept_set_line, H|].
    destruct (common_prefix _); [|exact Logic.I]. destruct (Nat.ltb _ _); [apply kept_set_line, H|apply kept_reprint, H].
  - pose proof (kept_exit (p_world p) (p_world p) H) as He. destruct (session_exit TE (p_world p)); exact He.
  - apply kept_reprint, H.
Qed.
Lemma kept_press fuel tty k p : p_kept (p_world p) (press TE fuel tty k p).
Proof.
  unfold press. destruct (keypressed _ _ _ _) as [((b, sy), t)|]; [|exact Logic.I].
  pose proof (kept_process fuel tty (ks_color' k) sy (p_out b (mkProc (p_world p) t))) as H.
  assert (H0 : kept (p_world p) (p_world (p_out b (mkProc (p_world p) t)))) by (apply kept_out, kept_refl).
  destruct (process _ _ _ _ _ _) as [p'|x p'| |]; cbn in *; try exact Logic.I; (eapply kept_trans; [exact H0|exact H]).
Qed.
Lemma kept_connect tty c sid' size root nxt st tr :
  p_kept (open_session sid' size root nxt st tr)
    (p_bind (of_hres (session_enter TE (out (flat_map written greeting) (open_session sid' size root nxt st tr))) term_init) (p_prompt tty c)).
Proof.
  set (w := open_session sid' size root nxt st tr). pose proof (kept_enter w _ (kept_out w (flat_map written greeting) w (kept_refl w))) as H.
  destruct (session_enter _ _) as [w1|x w1| |]; try exact H. cbn [of_hres p_bind]. apply kept_prompt, H.
Qed.
End Keep.

(** ** The server *)
Section Serve.
Context (E : env) (net : nat -> list event -> bool) (size fuel : nat) (tty : bool) (color : list event -> bool * bool).
Context (Hsep : separate E net) (Hfix : menus_fixed E) (sid : nat) (root : cmd) (nxt : nat) (st : storage).
Notation TE := (telnet_env E net).
Notation step := (sv_step E net size fuel tty color).
Notation run := (sv_run E net size fuel tty color).
Notation handled := (handled E net size fuel tty color sid).
Notation init := (server_init root nxt st).

Lemma run_app a b : forall s, run (a ++ b) s = match run a s with VOk s' => run b s' | r => r end.
Proof. induction a as [|i a IH]; intros s; [reflexivity|]. cbn [app sv_run]. destruct (step i s); try reflexivity; apply IH. Qed.
Lemma handled_app a b : forall s, handled (a ++ b) s = handled a s ++ match run a s with VOk s' => handled b s' | _ => [] end.
Proof.
  induction a as [|i a IH]; intros s; [reflexivity|]. cbn [app ServerSpec.handled sv_run]. rewrite <- app_assoc. f_equal.
  destruct (step i s); try reflexivity; apply IH.
Qed.
Lemma typed_app a b : forall p, typed TE fuel tty (a ++ b) p = match typed TE fuel tty a p with Some p' => typed TE fuel tty b p' | None => None end.
Proof. induction a as [|k a IH]; intros p; [reflexivity|]. cbn. destruct (ended _); [apply IH|reflexivity]. Qed.

Definition colour_of (k : keystroke) : Prop := exists t, color t = (ks_color k, ks_color' k).
(** The session opened when [is1] had happened, and has done what it does alone. *)
Definition story (is : list input) (sv : server) : Prop :=
  exists is1 is2 sv1 q p0 ks p, is = is1 ++ IRun :: is2 /\ run is1 init = VOk sv1 /\ sv_sid sv1 = sid /\ sv_queue sv1 = TkAccept true :: q /\
  ended (alone_open TE tty (fst (color (sv_trace sv1))) sid size root nxt (sv_store sv1)) = Some p0 /\
  typed TE fuel tty ks p0 = Some p /\ map ks_key ks = handled is init /\ Forall colour_of ks /\
  own_eq sid (w_trace (p_world p)) (sv_trace sv) /\
  forall c, sv_conns sv sid = Some c -> p_sim (own_eq sid) any_store sid p (proc_of sv sid c).
Definition iso (is : list input) (sv : server) : Prop :=
  sv_root sv = root /\ sv_next sv = nxt /\
  (sv_sid sv <= sid -> own sid (sv_trace sv) = [] /\ sv_conns sv sid = None /\ handled is init = []) /\
  (sid < sv_sid sv -> story is sv).

(** Steps that do nothing in the session. *)
Lemma iso_idle is i sv sv' : run is init = VOk sv -> iso is sv -> handled [i] sv = [] ->
  sv_root sv' = sv_root sv -> sv_next sv' = sv_next sv -> sv_sid sv' = sv_sid sv -> own_eq sid (sv_trace sv') (sv_trace sv) ->
  (forall c', sv_conns sv' sid = Some c' -> exists c, sv_conns sv sid = Some c /\ c_term c' = c_term c /\ c_cur c' = c_cur c /\ c_hist c' = c_hist c /\ c_exit c' = c_exit c) ->
  iso (is ++ [i]) sv'.
Proof.
  intros Hrun (Hr & Hn & Hlo & Hhi) Hh Er En Es Et Ec.
  assert (Hha : handled (is ++ [i]) init = handled is init) by (rewrite handled_app, Hrun, Hh, app_nil_r; reflexivity).
  split; [congruence|]. split; [congruence|]. split.
  - intros Hle. rewrite Es in Hle. destruct (Hlo Hle) as (H1 & H2 & H3). unfold own_eq in Et. rewrite Et, Hha. split; [exact H1|]. split; [|exact H3].
    destruct (sv_conns sv' sid) as [c'|] eqn:Hc; [|reflexivity]. destruct (Ec c' eq_refl) as (c & H & _). congruence.
  - intros Hlt. rewrite Es in Hlt. destruct (Hhi Hlt) as (is1 & is2 & sv1 & q & p0 & ks & p & H1 & H2 & H3 & H4 & H5 & H6 & H7 & H8 & H9 & H10).
    exists is1, (is2 ++ [i]), sv1, q, p0, ks, p. rewrite H1, <- app_assoc. split; [reflexivity|]. split; [exact H2|]. split; [exact H3|]. split; [exact H4|].
    split; [exact H5|]. split; [exact H6|]. change (is1 ++ (IRun :: is2) ++ [i]) with (is1 ++ IRun :: (is2 ++ [i])). 
    replace (is1 ++ IRun :: is2 ++ [i]) with (is ++ [i]) by (rewrite H1, <- app_assoc; reflexivity). rewrite Hha.
    split; [exact H7|]. split; [exact H8|]. split; [unfold own_eq in *; congruence|]. intros c' Hc'. destruct (Ec c' Hc') as (c & Hc & E1 & E2 & E3 & E4).
    destruct (H10 c Hc) as ((S1 & S2 & S3 & S4 & S5 & S6 & S7 & S8 & S9) & S10). unfold p_sim, sim, proc_of in *. cbn in *. rewrite Er, En, E1, E2, E3, E4.
    unfold own_eq in *. rewrite Et. tauto.
Qed.

(** A key of the session. *)
Lemma iso_key is sv k q c r : run is init = VOk sv -> iso is sv -> sv_queue sv = TkKey sid k :: q -> sv_conns sv sid = Some c ->
  let sv0 := set_conns (sv_conns sv) q sv in let col := color (sv_trace sv) in
  ended r = ended (press TE fuel tty (mkStroke k (fst col) (snd col)) (proc_of sv0 sid c)) ->
  forall p', ended r = Some p' -> iso (is ++ [IRun]) (after_key E net sv0 sid c p').
Proof.
  intros Hrun (Hr & Hn & Hlo & Hhi) Hq Hc sv0 col Hpr p' Hp'. rewrite Hpr in Hp'.
  assert (Hlt : sid < sv_sid sv). { destruct (Nat.lt_ge_cases sid (sv_sid sv)) as [H|H]; [exact H|]. destruct (Hlo H) as (_ & H' & _). congruence. }
  pose proof (kept_press E net Hfix sid fuel tty (mkStroke k (fst col) (snd col)) (proc_of sv0 sid c)) as Hk.
  destruct (Hhi Hlt) as (is1 & is2 & sv1 & q1 & p0 & ks & p & H1 & H2 & H3 & H4 & H5 & H6 & H7 & H8 & H9 & H10).
  specialize (H10 c Hc).
  pose proof (sim_press (own_eq sid) any_store sid (own_eq_add sid) any_store_add TE (tel_handler E net Hsep sid) (tel_hook E net Hsep sid) fuel tty
    (mkStroke k (fst col) (snd col)) p (proc_of sv0 sid c) H10) as Hsim.
  assert (Hk' : w_root (p_world p') = root /\ w_next (p_world p') = nxt).
  { destruct (press TE fuel tty _ (proc_of sv0 sid c)) as [p2|x p2| |]; try discriminate; cbn in Hp'; injection Hp' as <-; destruct Hk as (K1 & K2 & _);
      cbn in K1, K2; split; congruence. }
  assert (Hst : exists p2, ended (press TE fuel tty (mkStroke k (fst col) (snd col)) p) = Some p2 /\ p_sim (own_eq sid) any_store sid p2 p').
  { destruct (press TE fuel tty _ p) as [a|x a| |], (press TE fuel tty _ (proc_of sv0 sid c)) as [b|x' b| |]; try contradiction; try discriminate;
      cbn in Hp'; injection Hp' as <-; exists a; (split; [reflexivity|]); [exact Hsim|apply Hsim]. }
  destruct Hst as (p2 & He & Hs2).
  split; [apply Hk'|]. split; [apply Hk'|]. split; [cbn; intros Hle; exfalso; lia|]. intros _.
  exists is1, (is2 ++ [IRun]), sv1, q1, p0, (ks ++ [mkStroke k (fst col) (snd col)]), p2.
  assert (Hha : handled (is ++ [IRun]) init = handled is init ++ [k]).
  { rewrite handled_app, Hrun. f_equal. cbn [ServerSpec.handled]. rewrite Hq, Nat.eqb_refl. cbn [app]. destruct (step IRun sv); reflexivity. }
  rewrite Hha, H1, <- app_assoc. split; [reflexivity|]. split; [exact H2|]. split; [exact H3|]. split; [exact H4|]. split; [exact H5|].
  split. { rewrite typed_app, H6. cbn. rewrite He. reflexivity. }
  split; [rewrite map_app, H7, H1; reflexivity|].
  split. { apply Forall_app. split; [exact H8|]. constructor; [|constructor]. exists (sv_trace sv). cbn. unfold col. destruct (color _); reflexivity. }
  split; [apply Hs2|]. cbn [after_key sv_conns]. rewrite upd_conn_same. intros c' [= <-]. unfold p_sim, sim, proc_of in *. cbn in *. 
  destruct Hs2 as ((S1 & S2 & S3 & S4 & S5 & S6 & S7 & S8 & S9) & S10). repeat (split; [tauto || congruence|]). exact S10.
Qed.

Lemma iso_step is i sv sv' : run is init = VOk sv -> iso is sv -> run [i] sv = VOk sv' -> iso (is ++ [i]) sv'.
Proof.
  intros Hrun Hiso Hst. cbn [sv_run] in Hst. destruct i as [|ok|j r].
  2:{ cbn [sv_step] in Hst. apply (iso_idle is (IConnect ok) sv); [exact Hrun|exact Hiso|cbn; destruct (sv_accepting sv); reflexivity|..];
      (destruct (sv_accepting sv); injection Hst as <-; try reflexivity); intros c Hc; exists c; auto. }
  2:{ cbn [sv_step] in Hst.
      assert (Hh : handled [IRead j r] sv = []).
      { cbn [ServerSpec.handled sv_step app]. destruct (sv_conns sv j) as [c|]; [destruct (c_reading c)|]; reflexivity. }
      apply (iso_idle is (IRead j r) sv); [exact Hrun|exact Hiso|exact Hh|..];
      (destruct (sv_conns sv j) as [c|] eqn:Hc; [destruct (c_reading c)|]; injection Hst as <-; try reflexivity); intros c' Hc'; try (exists c'; auto; fail).
      cbn [set_conns sv_conns] in Hc'. unfold upd_conn in Hc'. destruct (Nat.eqb_spec sid j) as [<-|]; [|exists c'; auto]. injection Hc' as <-. exists c. auto. }
  destruct (sv_queue sv) as [|t q] eqn:Hq.
  { cbn [sv_step] in Hst. rewrite Hq in Hst. injection Hst as <-. apply (iso_idle is IRun sv); try reflexivity; try assumption.
    - cbn. rewrite Hq. reflexivity.
    - intros c Hc. exists c. auto. }
  assert (Hha : (forall k, t <> TkKey sid k) -> handled [IRun] sv = []).
  { intros Ht. cbn [ServerSpec.handled]. rewrite Hq. destruct t as [j k|j r|ok]; try (cbn [app]; destruct (step IRun sv); reflexivity).
    destruct (Nat.eqb_spec j sid) as [->|]; [exfalso; exact (Ht k eq_refl)|]. cbn [app]; destruct (step IRun sv); reflexivity. }
  cbn [sv_step] in Hst. rewrite Hq in Hst. set (sv0 := set_conns (sv_conns sv) q sv) in *. destruct t as [j k|j r|ok]; cbn [run_task] in Hst.
  - change (sv_conns sv0 j) with (sv_conns sv j) in Hst. destruct (sv_conns sv j) as [c|] eqn:Hc; [|discriminate].
    change (sv_trace sv0) with (sv_trace sv) in Hst. destruct (Nat.eq_dec j sid) as [->|Hne].
    + pose proof (iso_key is sv k q c _ Hrun Hiso Hq Hc eq_refl) as Hk. cbn zeta in Hk. fold sv0 in Hk. destruct (color (sv_trace sv)) as [c1 c2]. cbn [fst snd] in Hk.
      destruct (press _ _ _ _ _) as [p|x p| |]; try discriminate; injection Hst as <-; apply Hk; reflexivity.
    + destruct (color (sv_trace sv)) as [c1 c2].
      pose proof (kept_press E net Hfix sid fuel tty (mkStroke k c1 c2) (proc_of sv0 j c)) as Hk.
      assert (Hc' : exists p, sv' = after_key E net sv0 j c p /\ kept sid (p_world (proc_of sv0 j c)) (p_world p)).
      { destruct (press _ _ _ _ _) as [p|x p| |]; try discriminate; injection Hst as <-; exists p; split; try reflexivity; exact Hk. }
      destruct Hc' as (p & -> & (K1 & K2 & K3 & K4)). cbn in K1, K2, K3, K4.
      apply (iso_idle is IRun sv); [exact Hrun|exact Hiso|apply Hha; intros k'; congruence|exact K1|exact K2|reflexivity|apply K4, Hne|].
      cbn [after_key sv_conns]. rewrite upd_conn_other by congruence. intros c' Hc'. exists c'. auto.
  - change (sv_conns sv0 j) with (sv_conns sv j) in Hst. destruct (sv_conns sv j) as [c|] eqn:Hc; [|discriminate]. injection Hst as <-.
    assert (Hrr : exists o, run_read E net j r c sv0 = set_conns (upd_conn (sv_conns sv0) j o) (sv_queue (run_read E net j r c sv0)) sv0 /\
      forall c', o = Some c' -> c_term c' = c_term c /\ c_cur c' = c_cur c /\ c_hist c' = c_hist c /\ c_exit c' = c_exit c).
    { unfold run_read. destruct (closed E net j (sv_trace sv0)), r as [chunk| |]; try (exists None; split; [reflexivity|discriminate]).
      destruct (receive chunk (c_dev c)) as (d & ks & sent). eexists. split; [reflexivity|]. intros c' [= <-]. auto. }
    destruct Hrr as (o & -> & Ho). apply (iso_idle is IRun sv); try reflexivity; [exact Hrun|exact Hiso|apply Hha; discriminate|].
    cbn [set_conns sv_conns]. unfold upd_conn. intros c' Hc'. destruct (Nat.eqb_spec sid j) as [->|]; [exists c; auto|exists c'; auto].
  - unfold run_accept in Hst. destruct ok.
    2:{ injection Hst as <-. apply (iso_idle is IRun sv); try reflexivity; [exact Hrun|exact Hiso|apply Hha; discriminate|]. intros c Hc. exists c. auto. }
    set (w0 := open_session (sv_sid sv0) size (sv_root sv0) (sv_next sv0) (sv_store sv0) (sv_trace sv0)) in *.
    change (fst (color (sv_trace sv0))) with (fst (color (sv_trace sv))) in Hst.
    pose proof (kept_connect E net Hfix sid tty (fst (color (sv_trace sv))) (sv_sid sv0) size (sv_root sv0) (sv_next sv0) (sv_store sv0) (sv_trace sv0)) as Hk. fold w0 in Hk.
    set (r := p_bind (of_hres (session_enter TE (out (flat_map written greeting) w0)) term_init) (p_prompt tty (fst (color (sv_trace sv))))) in *.
    assert (Hr : exists p, ended r = Some p /\ kept sid w0 (p_world p) /\ sv_root sv' = w_root (p_world p) /\ sv_next sv' = w_next (p_world p) /\
      sv_trace sv' = w_trace (p_world p) /\ sv_sid sv' = S (sv_sid sv) /\
      (sv_conns sv' = sv_conns sv \/
       exists c, sv_conns sv' = upd_conn (sv_conns sv) (sv_sid sv) (Some c) /\ c = mkConn dev_init (p_term p) (w_cur (p_world p)) (w_hist (p_world p)) (w_exit (p_world p)) true)).
    { destruct r as [p|x p| |]; try discriminate; injection Hst as <-; exists p; cbn; (split; [reflexivity|]); (split; [exact Hk|]); do 4 (split; [reflexivity|]); [right; eauto|left; reflexivity]. }
    destruct Hr as (p & Hr & (K1 & K2 & K3 & K4) & E1 & E2 & E3 & E4 & E5). cbn in K1, K2, K3, K4.
    destruct Hiso as (Hroot & Hnxt & Hlo & Hhi).
    assert (Hh0 : handled (is ++ [IRun]) init = handled is init) by (rewrite handled_app, Hrun, Hha, app_nil_r by discriminate; reflexivity).
    split; [congruence|]. split; [congruence|]. rewrite E4. destruct (Nat.eq_dec (sv_sid sv) sid) as [Heq|Hne].
    + split; [intros Hle; exfalso; lia|]. intros _. destruct (Hlo ltac:(lia)) as (L1 & L2 & L3).
      assert (Hs0 : sim (own_eq sid) any_store sid (open_session sid size root nxt (sv_store sv) []) w0).
      { unfold w0, sim, any_store, own_eq. cbn. repeat (split; [congruence || exact Logic.I || reflexivity|]). congruence. }
      assert (Hsr : o_sim (own_eq sid) any_store sid (alone_open TE tty (fst (color (sv_trace sv))) sid size root nxt (sv_store sv)) r).
      { unfold alone_open, r. apply sim_p_bind.
        - apply sim_of_h. apply (sim_enter _ _ _ (own_eq_add sid) TE (tel_hook E net Hsep sid)).
          apply (sim_out_same _ _ _ (own_eq_add sid)), Hs0.
        - intros. apply (sim_p_prompt _ _ _ (own_eq_add sid)). assumption. }
      assert (Hp0 : exists p0, ended (alone_open TE tty (fst (color (sv_trace sv))) sid size root nxt (sv_store sv)) = Some p0 /\ p_sim (own_eq sid) any_store sid p0 p).
      { destruct (alone_open _ _ _ _ _ _ _ _) as [a|x a| |], r as [b|x' b| |]; try contradiction; try discriminate;
          cbn in Hr; injection Hr as <-; exists a; (split; [reflexivity|]); [exact Hsr|apply Hsr]. }
      destruct Hp0 as (p0 & Hp0 & Hsp). exists is, [], sv, q, p0, [], p0. split; [reflexivity|]. split; [exact Hrun|]. split; [exact Heq|]. split; [exact Hq|].
      split; [exact Hp0|]. split; [reflexivity|]. rewrite Hh0, L3. split; [reflexivity|]. split; [constructor|]. rewrite E3. split; [apply Hsp|].
      intros c Hc. destruct E5 as [E5|(c0 & E5 & ->)]; rewrite E5 in Hc; [congruence|]. rewrite <- Heq, upd_conn_same in Hc. injection Hc as <-.
      unfold p_sim, sim, proc_of in *. cbn in *. rewrite E1, E2, E3.
      destruct Hsp as ((S1 & S2 & S3 & S4 & S5 & S6 & S7 & S8 & S9) & S10). repeat (split; [tauto || congruence|]). exact S10.
    + assert (Ec : sv_conns sv' sid = sv_conns sv sid). { destruct E5 as [->|(c0 & -> & _)]; [reflexivity|]. apply upd_conn_other. congruence. }
      assert (Et : own_eq sid (sv_trace sv') (sv_trace sv)) by (rewrite E3; apply K4, Hne).
      split.
      * intros Hle. destruct (Hlo ltac:(lia)) as (L1 & L2 & L3). unfold own_eq in Et. rewrite Et, Ec, Hh0. auto.
      * intros Hlt. destruct (Hhi ltac:(lia)) as (is1 & is2 & sv1 & q1 & p0 & ks & p1 & H1 & H2 & H3 & H4 & H5 & H6 & H7 & H8 & H9 & H10).
        exists is1, (is2 ++ [IRun]), sv1, q1, p0, ks, p1. rewrite Hh0. split; [rewrite H1, <- app_assoc; reflexivity|]. do 6 (split; [assumption|]). split; [assumption|].
        split; [unfold own_eq in *; congruence|]. rewrite Ec. intros c Hc. destruct (H10 c Hc) as ((S1 & S2 & S3 & S4 & S5 & S6 & S7 & S8 & S9) & S10).
        unfold p_sim, sim, proc_of in *. cbn in *. rewrite E1, E2. unfold own_eq in *. rewrite Et, K1, K2. tauto.
Qed.

Lemma iso_run is : forall sv, run is init = VOk sv -> iso is sv.
Proof.
  induction is as [|i is IH] using rev_ind; intros sv Hrun.
  - injection Hrun as <-. do 2 (split; [reflexivity|]). split; [intros _; auto|cbn; intros H; inversion H].
  - rewrite run_app in Hrun. destruct (run is init) as [s| | | |] eqn:H1; try discriminate. eapply iso_step; [exact H1|apply IH; reflexivity|exact Hrun].
Qed.
Theorem session_alone is sv : run is init = VOk sv -> sid < sv_sid sv ->
  exists is1 is2 sv1 q p0 ks p, is = is1 ++ IRun :: is2 /\ run is1 init = VOk sv1 /\ sv_sid sv1 = sid /\ sv_queue sv1 = TkAccept true :: q /\
  ended (alone_open TE tty (fst (color (sv_trace sv1))) sid size root nxt (sv_store sv1)) = Some p0 /\
  typed TE fuel tty ks p0 = Some p /\ map ks_key ks = handled is init /\ Forall (fun k => exists t, color t = (ks_color k, ks_color' k)) ks /\
  own sid (w_trace (p_world p)) = own sid (sv_trace sv) /\ forall c, sv_conns sv sid = Some c -> same_session p c.
Proof.
  intros Hrun Hlt. destruct (iso_run is sv Hrun) as (_ & _ & _ & H).
  destruct (H Hlt) as (is1 & is2 & sv1 & q & p0 & ks & p & H1 & H2 & H3 & H4 & H5 & H6 & H7 & H8 & H9 & H10).
  exists is1, is2, sv1, q, p0, ks, p. do 8 (split; [assumption|]). split; [exact H9|]. intros c Hc.
  destruct (H10 c Hc) as ((S1 & S2 & S3 & S4 & S5 & S6 & S7 & S8 & S9) & S10). split; [exact S10|]. split; [exact S5|]. split; [exact S6|exact S7].
Qed.

(** ** Two servers *)
Lemma step_sid i sv : match step i sv with VOk sv' | VExc _ sv' => sv_sid sv <= sv_sid sv' | _ => True end.
Proof.
  destruct i as [|ok|j r]; cbn [sv_step].
  - destruct (sv_queue sv) as [|[j k|j r|ok] q]; [apply le_n| | |]; cbn [run_task].
    + cbn [set_conns sv_conns]. destruct (sv_conns sv j) as [c|]; [|exact Logic.I]. destruct (color _). destruct (press _ _ _ _ _); try exact Logic.I; apply le_n.
    + cbn [set_conns sv_conns]. destruct (sv_conns sv j) as [c|]; [|exact Logic.I]. unfold run_read. destruct (closed _ _ _ _), r as [chunk| |]; try apply le_n.
      destruct (receive chunk (c_dev c)) as (d & ks & sent). apply le_n.
    + unfold run_accept. destruct ok; [|apply le_n]. destruct (p_bind _ _); try exact Logic.I; cbn; lia.
  - destruct (sv_accepting sv); apply le_n.
  - destruct (sv_conns sv j) as [c|]; [destruct (c_reading c)|]; apply le_n.
Qed.
Lemma accept_sid sv q : sv_queue sv = TkAccept true :: q -> match step IRun sv with VOk sv' | VExc _ sv' => sv_sid sv < sv_sid sv' | _ => True end.
Proof. intros H. cbn [sv_step]. rewrite H. cbn [run_task]. unfold run_accept. destruct (p_bind _ _); try exact Logic.I; cbn; lia. Qed.
Lemma run_sid is : forall sv sv', run is sv = VOk sv' -> sv_sid sv <= sv_sid sv'.
Proof.
  induction is as [|i is IH]; intros sv sv' H; [injection H as <-; apply le_n|]. cbn [sv_run] in H. pose proof (step_sid i sv) as Hs.
  destruct (step i sv) as [s|x s| | |]; try discriminate; specialize (IH _ _ H); lia.
Qed.
Lemma opened_at is1 is2 : forall sv sv1 q, run is1 sv = VOk sv1 -> sv_sid sv1 = sid -> sv_queue sv1 = TkAccept true :: q ->
  opened_with E net size fuel tty color sid (is1 ++ IRun :: is2) sv = Some (sv_store sv1).
Proof.
  induction is1 as [|i is1 IH]; intros sv sv1 q Hrun Hs Hq.
  - injection Hrun as <-. cbn. rewrite Hq, Hs, Nat.eqb_refl. reflexivity.
  - cbn [app opened_with]. cbn [sv_run] in Hrun.
    assert (Hl : match step i sv with VOk sv' | VExc _ sv' => opened_with E net size fuel tty color sid (is1 ++ IRun :: is2) sv' | _ => None end = Some (sv_store sv1)).
    { destruct (step i sv) as [s|x s| | |]; try discriminate; eapply IH; eassumption. }
    rewrite Hl. destruct i; try reflexivity. destruct (sv_queue sv) as [|[j k|j r|[|]] q'] eqn:Hq'; try reflexivity.
    pose proof (accept_sid sv q' Hq') as Ha. destruct (step IRun sv) as [s|x s| | |]; try discriminate; pose proof (run_sid _ _ _ Hrun);
      (destruct (Nat.eqb_spec (sv_sid sv) sid); [lia|reflexivity]).
Qed.
Lemma strokes c1 c2 ks : (forall t, color t = (c1, c2)) -> Forall (fun k => exists t, color t = (ks_color k, ks_color' k)) ks ->
  ks = map (fun k => mkStroke k c1 c2) (map ks_key ks).
Proof.
  intros Hc. induction 1 as [|[k a b] ks (t & Ht) _ IH]; [reflexivity|]. cbn [map ks_key ks_color ks_color'] in *. rewrite Hc in Ht. injection Ht as <- <-. rewrite <- IH. reflexivity.
Qed.
Theorem sessions_same c1 c2 is is' sv sv' : (forall t, color t = (c1, c2)) ->
  run is init = VOk sv -> run is' init = VOk sv' -> sid < sv_sid sv -> sid < sv_sid sv' ->
  opened_with E net size fuel tty color sid is init = opened_with E net size fuel tty color sid is' init -> handled is init = handled is' init ->
  own sid (sv_trace sv) = own sid (sv_trace sv').
Proof.
  intros Hc Hr Hr' Hs Hs' Ho Hh.
  destruct (session_alone is sv Hr Hs) as (is1 & is2 & sv1 & q & p0 & ks & p & H1 & H2 & H3 & H4 & H5 & H6 & H7 & H8 & H9 & _).
  destruct (session_alone is' sv' Hr' Hs') as (is1' & is2' & sv1' & q' & p0' & ks' & p' & H1' & H2' & H3' & H4' & H5' & H6' & H7' & H8' & H9' & _).
  rewrite H1, (opened_at _ _ _ _ _ H2 H3 H4), H1', (opened_at _ _ _ _ _ H2' H3' H4') in Ho. injection Ho as Ho.
  rewrite !Hc, Ho in H5. rewrite !Hc in H5'. rewrite (strokes c1 c2 ks Hc H8), H7, Hh, <- H7', <- (strokes c1 c2 ks' Hc H8') in H6. congruence.
Qed.
End Serve.
