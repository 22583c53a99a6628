(** * Proofs: several [Cli] objects side by side *)

From Verif Require Import Base SplitModel FromStringModel HistoryModel StorageModel TerminalModel MenuModel SessionModel SessionSpec SessionProofs InvariantProofs
  CompletionModel ProcessorModel ProcessorSpec ProcessorProofs IsolationSpec IsolationProofs AcceptProofs SimulationProofs LifeModel LifeSpec LifeProofs.
Open Scope nat_scope.
Open Scope list_scope.

(** Events of session [sid], or of none. *)
Definition mine (sid : nat) (e : event) : Prop :=
  match e with EvOut i _ | EvCall i _ _ | EvInput i _ | EvHook i _ _ => i = sid | _ => True end.
Lemma by_mine sid e : by_session sid e -> mine sid e.
Proof. destruct e; cbn; tauto. Qed.
Lemma own_mine sid i evs : Forall (mine i) evs -> sid <> i -> own sid evs = [].
Proof.
  intros H Hn. induction H as [|e evs He H IH]; [reflexivity|]. cbn [own filter].
  destruct e; cbn in He |- *; try subst; try (destruct (Nat.eqb_spec i sid); [congruence|]); exact IH.
Qed.
Lemma mine_log w0 e w : mine (w_sid w) e -> adds (mine (w_sid w0)) w0 w -> adds (mine (w_sid w0)) w0 (log e w).
Proof.
  intros He H. eapply adds_trans; [exact H|]. assert (Hs : w_sid w = w_sid w0) by apply H. rewrite <- Hs. apply adds_log. exact He.
Qed.
Lemma mine_ops w0 os w : adds (mine (w_sid w0)) w0 w -> adds (mine (w_sid w0)) w0 (apply_ops os w).
Proof.
  intros H. apply (apply_ops_ind (adds (mine (w_sid w0)) w0)); [exact H|]. intros w' o _ H'.
  destruct o as [s|s|id|id|id|pid c]; try exact H'; [apply (mine_log w0 (EvOut (w_sid w') s)); [reflexivity|exact H']|apply (mine_log w0 (EvBroadcast s)); [exact Logic.I|exact H']|].
  cbn. destruct (relabel (w_next w') c) as (c', n). apply (mine_log w0 (EvInsert pid (w_next w'))); [exact Logic.I|exact H'].
Qed.
Lemma mine_hook E k args w0 w : adds (mine (w_sid w0)) w0 w -> h_inv (adds (mine (w_sid w0)) w0) (run_hook E k args w).
Proof.
  intros H. rewrite hook_spec. cbn zeta.
  match goal with |- context[apply_ops ?os ?w1] => assert (Hw : adds (mine (w_sid w0)) w0 (apply_ops os w1))
    by (apply mine_ops; apply (mine_log w0 (EvHook (w_sid w) k args)); [reflexivity|exact H]) end. dend; exact Hw.
Qed.
Lemma mine_call E fuel c w : match run_call E fuel c w with COkay _ w' => adds (mine (w_sid w)) w w' | _ => True end.
Proof.
  assert (Hr : adds (mine (w_sid w)) w w) by apply adds_refl.
  assert (Ho : forall s, adds (mine (w_sid w)) w (out s w)) by (intros s; apply (adds_log _ (EvOut (w_sid w) s)); reflexivity).
  assert (Hh : forall r, h_inv (adds (mine (w_sid w)) w) r -> match of_h r with COkay _ w' => adds (mine (w_sid w)) w w' | _ => True end) by (intros []; auto).
  destruct c as [line| | |tty color force| | |line| |line]; cbn [run_call].
  - pose proof (steps_feed E fuel line w w (adds_refl _ w)) as H. destruct (feed E fuel line w); cbn in *; try exact Logic.I; eapply adds_weak; try exact H; apply by_mine.
  - apply Hh. unfold session_enter.
    assert (H1 : h_inv (adds (mine (w_sid w)) w) (if e_has E KCliEnter then run_hook E KCliEnter [] w else HOk w)).
    { destruct (e_has E KCliEnter); [apply mine_hook; exact Hr|exact Hr]. }
    destruct (if e_has E KCliEnter then _ else _) as [w1|x w1| |]; cbn [h_bind]; try exact H1.
    destruct (e_has E KSesEnter); [apply mine_hook; exact H1|exact H1].
  - apply Hh. pose proof (steps_exit E w w (adds_refl _ w)) as H. destruct (session_exit E w); cbn in *; try exact Logic.I; eapply adds_weak; try exact H; apply by_mine.
  - destruct (prompt tty color force w) as [(s, f)|]; [apply Ho|exact Logic.I].
  - destruct (help_text w); [apply Ho|exact Logic.I].
  - destruct (show (w_hist w)); [apply Ho|exact Hr].
  - unfold previous_cmd. destruct (previous (w_hist w) line) as [(h, s)|]; [exact Hr|exact Logic.I].
  - unfold next_cmd. destruct (next (w_hist w)) as [(h, s)|]; [exact Hr|exact Logic.I].
  - destruct (get_completions _ _ _ _); [exact Hr|exact Logic.I|exact Logic.I].
Qed.

Section Part.
Context (E : env) (fn : nat -> nat -> hook -> list str -> list event -> uresult) (fuel : nat) (Hsep : separate_code E fn) (A : part).
Notation step := (l_step E fn fuel).
Notation run := (l_run E fn fuel).

Definition alike (t t' : list event) : Prop := forall s, p_ses A s = true -> own s t = own s t'.
Lemma alike_add t t' e : alike t t' -> alike (t ++ [e]) (t' ++ [e]).
Proof. intros H s Hs. rewrite !own_app, (H s Hs). reflexivity. Qed.

Definition c_sim (r r' : cres) (sid : nat) : Prop :=
  match r, r' with
  | COkay x w, COkay x' w' => x = x' /\ sim alike eq sid w w'
  | CUndef, CUndef | CDeep, CDeep => True
  | _, _ => False
  end.
Lemma call_sim a sid c w w' : p_ses A sid = true -> sim alike eq sid w w' ->
  c_sim (run_call (with_fns E fn a) fuel c w) (run_call (with_fns E fn a) fuel c w') sid.
Proof.
  intros Hsid H. destruct Hsep as (S1 & S2).
  assert (HSR : forall (s s' : storage) l, s = s' -> st_store s l = st_store s' l) by (intros; subst; reflexivity).
  assert (Hh : forall h args t t', alike t t' -> e_handler (with_fns E fn a) sid h args (t ++ [EvCall sid h args]) = e_handler (with_fns E fn a) sid h args (t' ++ [EvCall sid h args])).
  { intros h args t t' Ht. apply S1. apply (alike_add _ _ _ Ht). exact Hsid. }
  assert (Hk : forall k args t t', alike t t' -> e_hook (with_fns E fn a) sid k args (t ++ [EvHook sid k args]) = e_hook (with_fns E fn a) sid k args (t' ++ [EvHook sid k args])).
  { intros k args t t' Ht. cbn. destruct (a k) as [[|n]|]; try reflexivity. apply S2. apply (alike_add _ _ _ Ht). exact Hsid. }
  destruct c as [line| | |tty color force| | |line| |line]; cbn [run_call].
  - pose proof (sim_feed alike eq sid alike_add HSR (with_fns E fn a) Hh Hk fuel line w w' H) as Hf.
    destruct (feed _ _ _ w), (feed _ _ _ w'); cbn in *; try contradiction; auto. destruct Hf as (-> & Hf). auto.
  - pose proof (sim_enter alike eq sid alike_add (with_fns E fn a) Hk w w' H) as Hf.
    destruct (session_enter _ w), (session_enter _ w'); cbn in *; try contradiction; auto. destruct Hf as (-> & Hf). auto.
  - pose proof (sim_exit alike eq sid alike_add HSR (with_fns E fn a) Hk w w' H) as Hf.
    destruct (session_exit _ w), (session_exit _ w'); cbn in *; try contradiction; auto. destruct Hf as (-> & Hf). auto.
  - assert (Hp : prompt tty color force w = prompt tty color force w').
    { destruct w, w'. unfold sim in H. cbn in H. destruct H as (-> & -> & -> & -> & -> & -> & -> & _). reflexivity. }
    rewrite <- Hp. destruct (prompt tty color force w) as [(s, f)|]; [|exact Logic.I]. split; [reflexivity|]. apply (sim_out_same alike eq sid alike_add). exact H.
  - rewrite <- (sim_help alike eq sid w w' H). destruct (help_text w); [|exact Logic.I]. split; [reflexivity|]. apply (sim_out_same alike eq sid alike_add). exact H.
  - replace (w_hist w') with (w_hist w) by apply H. destruct (show (w_hist w)); [|split; [reflexivity|exact H]]. split; [reflexivity|]. apply (sim_out_same alike eq sid alike_add). exact H.
  - unfold previous_cmd. replace (w_hist w') with (w_hist w) by apply H. destruct (previous (w_hist w) line) as [(h, s)|]; [|exact Logic.I].
    split; [reflexivity|]. apply sim_set_hist. exact H.
  - unfold next_cmd. replace (w_hist w') with (w_hist w) by apply H. destruct (next (w_hist w)) as [(h, s)|]; [|exact Logic.I].
    split; [reflexivity|]. apply sim_set_hist. exact H.
  - assert (Hp : get_completions (e_plat (with_fns E fn a)) fuel line w = get_completions (e_plat (with_fns E fn a)) fuel line w').
    { destruct w, w'. unfold sim in H. cbn in H. destruct H as (-> & -> & -> & -> & -> & -> & -> & _). reflexivity. }
    rewrite <- Hp. destruct (get_completions _ _ _ w); try exact Logic.I. split; [reflexivity|exact H].
Qed.

(** [g]: the whole program; [g']: only [A]. *)
Record beside (g g' : prog) : Prop := mkBeside {
  be_cli : forall c, p_cli A c = true -> g_clis g' c = g_clis g c;
  be_tree : forall t, p_tree A t = true -> g_trees g' t = g_trees g t;
  be_ses : forall s, p_ses A s = true -> g_ses g' s = g_ses g s;
  be_own : forall c o t, g_clis g c = Live o -> c_tree o = Some t -> p_tree A t = p_cli A c;
  be_ref : forall s x, g_ses g s = Live x -> p_cli A (s_cli x) = p_ses A s /\ p_tree A (s_tree x) = p_ses A s;
  be_trace : alike (g_trace g) (g_trace g') }.

Lemma put_in {B} (q : nat -> bool) (m m' : nat -> B) i a : (forall j, q j = true -> m' j = m j) -> forall j, q j = true -> put m' i a j = put m i a j.
Proof. intros H j Hj. unfold put. destruct (Nat.eqb j i); auto. Qed.
Lemma put_out {B} (q : nat -> bool) (m m' : nat -> B) i a : q i = false -> (forall j, q j = true -> m' j = m j) -> forall j, q j = true -> m' j = put m i a j.
Proof. intros Hi H j Hj. rewrite put_other by congruence. auto. Qed.
Lemma drop_in (q : nat -> bool) o m m' : (forall j, q j = true -> m' j = m j) -> forall j, q j = true -> drop_tree o m' j = drop_tree o m j.
Proof. intros H. destruct o; [apply put_in; exact H|exact H]. Qed.
Lemma drop_out (q : nat -> bool) o m m' : (forall t, o = Some t -> q t = false) -> (forall j, q j = true -> m' j = m j) -> forall j, q j = true -> m' j = drop_tree o m j.
Proof. intros Ho H. destruct o; [apply put_out; auto|exact H]. Qed.

Ltac ins := repeat first [assumption | eapply put_in | eapply drop_in].
Ltac outs := repeat first [assumption | eapply put_out; [assumption|] | eapply drop_out; [assumption|]].

Definition p_same (a b : lres) : Prop :=
  match a, b with
  | LOk x g, LOk x' g' => x = x' /\ beside g g'
  | LUndef, LUndef | LDeep, LDeep | LIll, LIll => True
  | _, _ => False
  end.

Lemma of_cli_own sid e : of_cli sid e = true -> own sid [e] = [e].
Proof. destruct e as [| |i k l| | | ]; try discriminate. cbn. destruct k; try discriminate; intros ->; reflexivity. Qed.
Lemma of_cli_exists sid l : existsb (of_cli sid) l = existsb (of_cli sid) (own sid l).
Proof.
  induction l as [|e l IH]; [reflexivity|]. cbn [existsb own filter].
  destruct (match e with EvOut i _ | EvCall i _ _ | EvHook i _ _ | EvInput i _ => Nat.eqb i sid | _ => false end) eqn:Ee; cbn [existsb]; [rewrite IH; reflexivity|].
  rewrite IH. destruct (of_cli sid e) eqn:Eo; [|reflexivity]. apply of_cli_own in Eo. cbn [own filter] in Eo. rewrite Ee in Eo. discriminate.
Qed.
Lemma news sid w w' v v' : p_ses A sid = true -> w_sid w = sid -> w_sid v = sid -> adds (mine sid) w w' -> adds (mine sid) v v' -> alike (w_trace w) (w_trace v) -> alike (w_trace w') (w_trace v') ->
  existsb (of_cli sid) (skipn (length (w_trace w)) (w_trace w')) = existsb (of_cli sid) (skipn (length (w_trace v)) (w_trace v')).
Proof.
  intros Hp _ _ (_ & a & Ha & _) (_ & b & Hb & _) H1 H2. specialize (H1 sid Hp). specialize (H2 sid Hp).
  rewrite Ha, Hb in *. rewrite !skipn_app, !Nat.sub_diag, !skipn_all. cbn [app skipn].
  rewrite !own_app, H1 in H2. apply app_inv_head in H2. rewrite (of_cli_exists sid a), (of_cli_exists sid b), H2. reflexivity.
Qed.

Lemma in_step g g' o : beside g g' -> inside A o = true -> p_same (step g o) (step g' o).
Proof.
  intros K Hi. pose proof K as [K1 K2 K3 K4 K5 K6].
  destruct o as [c t r st|c k f|c c'|c c'|c|s c size|s k f|s c|s|t o]; cbn [inside names forallb andb] in Hi;
    repeat (apply andb_true_iff in Hi as (? & Hi)); cbn [l_step].
  - rewrite K1, K2 by assumption. destruct (g_clis g c) eqn:Ec; try exact Logic.I. destruct (g_trees g t) eqn:Et; try exact Logic.I.
    split; [reflexivity|]. constructor; cbn; auto; try ins.
    intros d o u. unfold put. destruct (Nat.eqb_spec d c) as [->|]; [intros [= <-] [= <-]; congruence|eauto].
  - rewrite K1 by assumption. destruct (g_clis g c) as [|o|] eqn:Ec; try exact Logic.I. split; [reflexivity|]. constructor; cbn; auto; try ins.
    intros d o' u. unfold put. destruct (Nat.eqb_spec d c) as [->|]; [intros [= <-]; cbn; eauto|eauto].
  - rewrite !K1 by assumption. destruct (g_clis g c) as [|o|] eqn:Ec, (g_clis g c') as [|o'|] eqn:Ec'; try exact Logic.I. split; [reflexivity|]. constructor; cbn; auto; try ins.
    intros d o' u. unfold put. destruct (Nat.eqb_spec d c') as [->|]; [intros [= <-] Hu; rewrite (K4 c o u Ec Hu); congruence|].
    destruct (Nat.eqb_spec d c) as [->|]; [intros [= <-]; discriminate|eauto].
  - rewrite !K1 by assumption. destruct (g_clis g c) as [|o|] eqn:Ec, (g_clis g c') as [|o'|] eqn:Ec'; try exact Logic.I.
    destruct (Nat.eqb c c'); [split; [reflexivity|exact K]|]. split; [reflexivity|]. constructor; cbn; auto; try ins.
    intros d o2 u. unfold put. destruct (Nat.eqb_spec d c') as [->|]; [intros [= <-] Hu; rewrite (K4 c o u Ec Hu); congruence|].
    destruct (Nat.eqb_spec d c) as [->|]; [intros [= <-]; discriminate|eauto].
  - rewrite K1 by assumption. destruct (g_clis g c) as [|o|] eqn:Ec; try exact Logic.I. split; [reflexivity|]. constructor; cbn; auto; try ins.
    intros d o2 u. unfold put. destruct (Nat.eqb_spec d c) as [->|]; [discriminate|eauto].
  - rewrite K3, K1 by assumption. destruct (g_ses g s) eqn:Es; try exact Logic.I. destruct (g_clis g c) as [|[[st|] [t|] f]|] eqn:Ec; try exact Logic.I.
    assert (Ht : p_tree A t = true) by (rewrite (K4 c _ t Ec eq_refl); assumption). rewrite K2 by exact Ht.
    destruct (g_trees g t) as [|r|] eqn:Et; try exact Logic.I. split; [reflexivity|]. constructor; cbn; auto; try ins.
    intros s' x. unfold put. destruct (Nat.eqb_spec s' s) as [->|]; [intros [= <-]; cbn; split; congruence|auto].
  - rewrite K3 by assumption. destruct (g_ses g s) as [|x|] eqn:Es; try exact Logic.I. split; [reflexivity|]. constructor; cbn; auto; try ins.
    intros s' x'. unfold put. destruct (Nat.eqb_spec s' s) as [->|]; [intros [= <-]; cbn; auto|auto].
  - rewrite K3 by assumption. destruct (g_ses g s) as [|x|] eqn:Es; try exact Logic.I.
    destruct (K5 s x Es) as (R1 & R2). assert (Hc : p_cli A (s_cli x) = true) by congruence. assert (Ht : p_tree A (s_tree x) = true) by congruence.
    unfold call_ses. rewrite (K1 _ Hc), (K2 _ Ht). cbn zeta.
    match goal with |- context[run_call (with_fns E fn ?a) fuel c ?w1] => set (w := w1); set (env1 := a) end.
    match goal with |- p_same _ match run_call (with_fns E fn ?a) fuel c ?w1 with _ => _ end => set (v := w1) end.
    assert (Hsim : sim alike eq s w v) by (unfold sim, w, v; cbn; repeat (split; [reflexivity|]); split; [exact K6|reflexivity]).
    pose proof (call_sim env1 s c w v H Hsim) as Hr. pose proof (mine_call (with_fns E fn env1) fuel c w) as M1. pose proof (mine_call (with_fns E fn env1) fuel c v) as M2.
    unfold env1 in *.
    destruct (run_call _ _ _ w) as [r w'| |], (run_call _ _ _ v) as [r' v'| |]; try contradiction; try exact Logic.I.
    destruct Hr as (<- & Hs). pose proof Hs as (S1 & S2 & S3 & S4 & S5 & S6 & S7 & S8 & S9).
    assert (Hn : existsb (of_cli s) (skipn (length (g_trace g)) (w_trace w')) = existsb (of_cli s) (skipn (length (g_trace g')) (w_trace v')))
      by exact (news s w w' v v' H eq_refl eq_refl M1 M2 K6 S8).
    assert (Hfin : forall ex ex', ex = ex' -> beside
      (mkProg
        (match match g_clis g (s_cli x) with Live o => Some o | _ => None end with Some o' => put (g_clis g) (s_cli x) (Live (mkCli (match match match g_clis g (s_cli x) with Live o => Some o | _ => None end with Some o1 => c_store o1 | None => None end with Some _ => Some (w_store w') | None => None end) (c_tree o') (c_fns o'))) | None => g_clis g end)
        (match g_trees g (s_tree x) with Live _ => put (g_trees g) (s_tree x) (Live (mkTree (w_root w') (w_next w'))) | _ => g_trees g end)
        (put (g_ses g) s (Live (mkSes (s_cli x) (s_tree x) (w_cur w') (w_hist w') ex (s_fns x)))) (w_trace w'))
       (mkProg
        (match match g_clis g (s_cli x) with Live o => Some o | _ => None end with Some o' => put (g_clis g') (s_cli x) (Live (mkCli (match match match g_clis g (s_cli x) with Live o => Some o | _ => None end with Some o1 => c_store o1 | None => None end with Some _ => Some (w_store v') | None => None end) (c_tree o') (c_fns o'))) | None => g_clis g' end)
        (match g_trees g (s_tree x) with Live _ => put (g_trees g') (s_tree x) (Live (mkTree (w_root v') (w_next v'))) | _ => g_trees g' end)
        (put (g_ses g') s (Live (mkSes (s_cli x) (s_tree x) (w_cur v') (w_hist v') ex' (s_fns x)))) (w_trace v'))).
    { intros ex ex' <-. rewrite S1, S2, S3, S5, S6. constructor; cbn [g_clis g_trees g_ses g_trace].
      - destruct (g_clis g (s_cli x)); auto; try ins.
      - destruct (g_trees g (s_tree x)); auto; try ins.
      - auto; try ins.
      - intros d o1 u. destruct (g_clis g (s_cli x)) as [|o|] eqn:Ec; try exact (K4 d o1 u).
        unfold put. destruct (Nat.eqb_spec d (s_cli x)) as [->|]; [|exact (K4 d o1 u)]. intros Heq Hu. injection Heq as <-. exact (K4 _ o u Ec Hu).
      - intros s' x'. unfold put. destruct (Nat.eqb_spec s' s) as [->|]; [intros [= <-]; cbn; auto|auto].
      - exact S8. }
    rewrite <- Hn, <- S7.
    destruct (g_clis g (s_cli x)) as [|o|]; [destruct (existsb _ _)|destruct (c_store o); [|destruct (exits c && w_exit w')]|destruct (existsb _ _)];
      try exact Logic.I; (split; [reflexivity|apply Hfin; reflexivity]).
  - rewrite K3 by assumption. destruct (g_ses g s) as [|x|] eqn:Es; try exact Logic.I. split; [reflexivity|]. constructor; cbn; auto; try ins.
    intros s' x'. unfold put. destruct (Nat.eqb s' s); [discriminate|auto].
  - unfold menu_op. rewrite K2 by assumption.
    assert (Hp : forall r1, p_same (LOk RNone (set_trees (put (g_trees g) t (Live r1)) g)) (LOk RNone (set_trees (put (g_trees g') t (Live r1)) g'))).
    { intros r1. split; [reflexivity|]. constructor; cbn; auto; try ins. }
    destruct (g_trees g t) as [|r0|].
    + destruct o; exact Logic.I.
    + destruct o; try apply Hp. destruct (relabel (t_next r0) c). apply Hp.
    + destruct o; try (split; [reflexivity|exact K]). exact Logic.I.
Qed.

Lemma out_step g g' o r g1 : beside g g' -> outside A o = true -> step g o = LOk r g1 -> beside g1 g'.
Proof.
  intros K Hi Hs. pose proof K as [K1 K2 K3 K4 K5 K6].
  destruct o as [c t r0 st|c k f|c c'|c c'|c|s c size|s k f|s c|s|t o]; cbn [outside names forallb andb] in Hi;
    repeat (apply andb_true_iff in Hi as (? & Hi)); repeat match goal with H : negb _ = true |- _ => apply negb_true_iff in H end; cbn [l_step] in Hs.
  - destruct (g_clis g c) eqn:Ec; try discriminate. destruct (g_trees g t) eqn:Et; try discriminate. injection Hs as <- <-.
    constructor; cbn; auto; try outs.
    intros d o u. unfold put. destruct (Nat.eqb_spec d c) as [->|]; [intros [= <-] [= <-]; congruence|eauto].
  - destruct (g_clis g c) as [|o|] eqn:Ec; try discriminate. injection Hs as <- <-. constructor; cbn; auto; try outs.
    intros d o' u. unfold put. destruct (Nat.eqb_spec d c) as [->|]; [intros [= <-]; cbn; eauto|eauto].
  - destruct (g_clis g c) as [|o|] eqn:Ec, (g_clis g c') as [|o'|] eqn:Ec'; try discriminate. injection Hs as <- <-. constructor; cbn; auto; try outs.
    intros d o' u. unfold put. destruct (Nat.eqb_spec d c') as [->|]; [intros [= <-] Hu; rewrite (K4 c o u Ec Hu); congruence|].
    destruct (Nat.eqb_spec d c) as [->|]; [intros [= <-]; discriminate|eauto].
  - destruct (g_clis g c) as [|o|] eqn:Ec, (g_clis g c') as [|o'|] eqn:Ec'; try discriminate.
    destruct (Nat.eqb c c'); injection Hs as <- <-; [exact K|].
    assert (Ho : forall t, c_tree o' = Some t -> p_tree A t = false) by (intros t Ht; rewrite (K4 c' o' t Ec' Ht); assumption).
    constructor; cbn; auto; try outs.
    intros d o2 u. unfold put. destruct (Nat.eqb_spec d c') as [->|]; [intros [= <-] Hu; rewrite (K4 c o u Ec Hu); congruence|].
    destruct (Nat.eqb_spec d c) as [->|]; [intros [= <-]; discriminate|eauto].
  - destruct (g_clis g c) as [|o|] eqn:Ec; try discriminate. injection Hs as <- <-.
    assert (Ho : forall t, c_tree o = Some t -> p_tree A t = false) by (intros t Ht; rewrite (K4 c o t Ec Ht); assumption).
    constructor; cbn; auto; try outs.
    intros d o2 u. unfold put. destruct (Nat.eqb_spec d c) as [->|]; [discriminate|eauto].
  - destruct (g_ses g s) eqn:Es; try discriminate. destruct (g_clis g c) as [|[[st|] [t|] f]|] eqn:Ec; try discriminate.
    destruct (g_trees g t) as [|r1|] eqn:Et; try discriminate. injection Hs as <- <-.
    assert (Ht : p_tree A t = false) by (rewrite (K4 c _ t Ec eq_refl); assumption).
    constructor; cbn; auto; try outs.
    intros s' x. unfold put. destruct (Nat.eqb_spec s' s) as [->|]; [intros [= <-]; cbn; split; congruence|auto].
  - destruct (g_ses g s) as [|x|] eqn:Es; try discriminate. injection Hs as <- <-. constructor; cbn; auto; try outs.
    intros s' x'. unfold put. destruct (Nat.eqb_spec s' s) as [->|]; [intros [= <-]; cbn; auto|auto].
  - destruct (g_ses g s) as [|x|] eqn:Es; try discriminate.
    destruct (K5 s x Es) as (R1 & R2). assert (Hc : p_cli A (s_cli x) = false) by congruence. assert (Ht : p_tree A (s_tree x) = false) by congruence.
    unfold call_ses in Hs. cbn zeta in Hs.
    match type of Hs with context[run_call (with_fns E fn ?a) fuel c ?w1] => pose proof (mine_call (with_fns E fn a) fuel c w1) as M end.
    destruct (run_call _ _ _ _) as [r' w'| |]; try discriminate.
    destruct M as (_ & evs & Htr & Hm). cbn [w_trace w_sid] in Htr, Hm.
    assert (Hal : alike (w_trace w') (g_trace g')).
    { intros s' Hs'. rewrite Htr, own_app, (own_mine s' s evs Hm) by congruence. rewrite app_nil_r. auto. }
    assert (Hfin : forall ex, beside
      (mkProg
        (match match g_clis g (s_cli x) with Live o => Some o | _ => None end with Some o' => put (g_clis g) (s_cli x) (Live (mkCli (match match match g_clis g (s_cli x) with Live o => Some o | _ => None end with Some o1 => c_store o1 | None => None end with Some _ => Some (w_store w') | None => None end) (c_tree o') (c_fns o'))) | None => g_clis g end)
        (match g_trees g (s_tree x) with Live _ => put (g_trees g) (s_tree x) (Live (mkTree (w_root w') (w_next w'))) | _ => g_trees g end)
        (put (g_ses g) s (Live (mkSes (s_cli x) (s_tree x) (w_cur w') (w_hist w') ex (s_fns x)))) (w_trace w')) g').
    { intros ex. constructor; cbn [g_clis g_trees g_ses g_trace].
      - destruct (g_clis g (s_cli x)); auto; try outs.
      - destruct (g_trees g (s_tree x)); auto; try outs.
      - auto; try outs.
      - intros d o1 u. destruct (g_clis g (s_cli x)) as [|o|] eqn:Ec; try exact (K4 d o1 u).
        unfold put. destruct (Nat.eqb_spec d (s_cli x)) as [->|]; [|exact (K4 d o1 u)]. intros Heq Hu. injection Heq as <-. exact (K4 _ o u Ec Hu).
      - intros s' x'. unfold put. destruct (Nat.eqb_spec s' s) as [->|]; [intros [= <-]; cbn; auto|auto].
      - exact Hal. }
    destruct (g_clis g (s_cli x)) as [|o|]; [destruct (existsb _ _)|destruct (c_store o); [|destruct (exits c && w_exit w')]|destruct (existsb _ _)];
      try discriminate; injection Hs as <- <-; apply Hfin.
  - destruct (g_ses g s) as [|x|] eqn:Es; try discriminate. injection Hs as <- <-. constructor; cbn; auto; try outs.
    intros s' x'. unfold put. destruct (Nat.eqb s' s); [discriminate|auto].
  - unfold menu_op in Hs.
    assert (Hp : forall r1, beside (set_trees (put (g_trees g) t (Live r1)) g) g') by (intros r1; constructor; cbn; auto; try outs).
    destruct (g_trees g t) as [|r1|].
    + destruct o; discriminate.
    + destruct o; try (injection Hs as <- <-; apply Hp). destruct (relabel (t_next r1) c). injection Hs as <- <-. apply Hp.
    + destruct o; try discriminate; injection Hs as <- <-; exact K.
Qed.

Lemma part_run os : forall g g' rs g1, splits A os -> beside g g' -> run os g = LEnd rs g1 ->
  exists g2, run (filter (inside A) os) g' = LEnd (results A os rs) g2 /\ beside g1 g2.
Proof.
  induction os as [|o os IH]; intros g g' rs g1 Hsp K Hr; cbn [l_run filter results] in *.
  - injection Hr as <- <-. exists g'. split; [reflexivity|exact K].
  - inversion Hsp as [|? ? Ho Hsp']; subst. destruct (step g o) as [r g2| | |] eqn:Eg; try discriminate.
    destruct (run os g2) as [rs2 g3| | |] eqn:Er; try discriminate. injection Hr as <- <-.
    destruct (inside A o) eqn:Ei.
    + pose proof (in_step g g' o K Ei) as Hs. rewrite Eg in Hs. cbn [l_run]. destruct (step g' o) as [r' g2'| | |]; try contradiction.
      destruct Hs as (<- & K2). destruct (IH _ _ _ _ Hsp' K2 Er) as (g4 & H4 & K4). exists g4. rewrite H4. auto.
    + destruct Ho as [Ho|Ho]; [discriminate|]. apply (IH _ _ _ _ Hsp' (out_step g g' o r g2 K Ho Eg) Er).
Qed.
Lemma parts os rs g : splits A os -> run os g_init = LEnd rs g ->
  exists g', run (filter (inside A) os) g_init = LEnd (results A os rs) g' /\
    forall s, p_ses A s = true -> own s (g_trace g') = own s (g_trace g).
Proof.
  intros Hsp Hr. assert (K : beside g_init g_init) by (constructor; cbn; try discriminate; intros s Hs; reflexivity).
  destruct (part_run os _ _ _ _ Hsp K Hr) as (g' & H & K'). exists g'. split; [exact H|]. intros s Hs. symmetry. exact (be_trace _ _ K' s Hs).
Qed.
End Part.

(** ** Running concrete programs *)
Definition ended (r : lend) : option (list event) := match r with LEnd _ g => Some (g_trace g) | _ => None end.
Lemma ended_trace r t : ended r = Some t -> exists rs g, r = LEnd rs g /\ g_trace g = t.
Proof. destruct r; try discriminate. intros H. injection H as H. eauto. Qed.
Lemma ended_ok r : match ended r with Some _ => true | None => false end = true -> exists rs g, r = LEnd rs g.
Proof. destruct r; try discriminate. eauto. Qed.
