(** * Proofs: lifetimes of [Cli] objects and sessions *)

From Verif Require Import Base FromStringModel HistoryModel StorageModel TerminalModel MenuModel SessionModel SessionSpec CompletionModel LifeModel LifeSpec.
Open Scope nat_scope.
Open Scope list_scope.

Lemma put_same {A} (m : nat -> A) i a : put m i a i = a.
Proof. unfold put. rewrite Nat.eqb_refl. reflexivity. Qed.
Lemma put_other {A} (m : nat -> A) i a j : j <> i -> put m i a j = m j.
Proof. unfold put. destruct (Nat.eqb_spec j i); congruence. Qed.
Lemma at_same {A} (m : nat -> A) i a : at_ m i a i = a.
Proof. unfold at_. rewrite Nat.eqb_refl. reflexivity. Qed.
Lemma at_other {A} (m : nat -> A) i a j : j <> i -> at_ m i a j = m j.
Proof. unfold at_. destruct (Nat.eqb_spec j i); congruence. Qed.

Lemma option_eq_dec (o : option nat) t : o = Some t \/ o <> Some t.
Proof. destruct o as [u|]; [destruct (Nat.eq_dec u t) as [->|]; [left; reflexivity|right; congruence]|right; discriminate]. Qed.

Section Life.
Context (E : env) (fn : nat -> nat -> hook -> list str -> list event -> uresult) (fuel : nat).
Notation step := (l_step E fn fuel).
Notation run := (l_run E fn fuel).

Lemma run_app a b g : run (a ++ b) g =
  match run a g with LEnd rs g' => match run b g' with LEnd rs' g'' => LEnd (rs ++ rs') g'' | e => e end | e => e end.
Proof.
  revert g. induction a as [|o a IH]; intros g; cbn [app l_run]; [destruct (run b g); reflexivity|].
  destruct (step g o) as [r g'| | |]; try reflexivity. rewrite IH. destruct (run a g') as [rs g2| | |]; try reflexivity.
  destruct (run b g2); reflexivity.
Qed.

(** ** Careful programs *)
Record agree (v : view) (g : prog) : Prop := mkAgree {
  ag_cli : forall c, match v_cli v c with
    | CNone => g_clis g c = Unborn
    | CFull t => (exists st f, g_clis g c = Live (mkCli (Some st) (Some t) f)) /\ v_tree v t = TThere
    | CEmpty => exists f, g_clis g c = Live (mkCli None None f)
    | CGone => g_clis g c = Dead end;
  ag_ses : forall s, match v_ses v s with
    | SNone => g_ses g s = Unborn
    | SUsable c => exists x, g_ses g s = Live x /\ s_cli x = c /\ v_cli v c = CFull (s_tree x)
    | SStale => exists x, g_ses g s = Live x
    | SGone => g_ses g s = Dead end;
  ag_tree : forall t, match v_tree v t with
    | TNone => g_trees g t = Unborn
    | TThere => exists r, g_trees g t = Live r
    | TGone => g_trees g t = Dead end;
  ag_own : forall c c' t, v_cli v c = CFull t -> v_cli v c' = CFull t -> c = c' }.

Lemma agree_init : agree v_init g_init.
Proof. constructor; cbn; intros; try reflexivity. discriminate. Qed.

(** An intact session: its [Cli], menus and storage are there. *)
Definition intact (g : prog) (s : nat) (x : ses) (o : cliobj) (st : storage) (t : tree) : Prop :=
  g_ses g s = Live x /\ g_clis g (s_cli x) = Live o /\ c_store o = Some st /\ c_tree o = Some (s_tree x) /\ g_trees g (s_tree x) = Live t.
Definition ses_world (g : prog) (s : nat) (x : ses) (st : storage) (t : tree) : world :=
  mkWorld (t_root t) (t_next t) st s (s_cur x) (s_hist x) (s_exit x) (g_trace g).
Definition ses_env (x : ses) (o : cliobj) : env := with_fns E fn (pick (s_fns x) (c_fns o)).
Definition called (g : prog) (s : nat) (x : ses) (o : cliobj) (w : world) : prog :=
  mkProg (put (g_clis g) (s_cli x) (Live (mkCli (Some (w_store w)) (c_tree o) (c_fns o))))
    (put (g_trees g) (s_tree x) (Live (mkTree (w_root w) (w_next w))))
    (put (g_ses g) s (Live (mkSes (s_cli x) (s_tree x) (w_cur w) (w_hist w) (w_exit w) (s_fns x))))
    (w_trace w).
Lemma call_intact g s x o st t c : intact g s x o st t ->
  step g (LCall s c) = match run_call (ses_env x o) fuel c (ses_world g s x st t) with
    | COkay r w => LOk r (called g s x o w) | CUndef => LUndef | CDeep => LDeep end.
Proof.
  intros (H1 & H2 & H3 & H4 & H5). cbn [l_step]. rewrite H1. unfold call_ses. rewrite H2, H5, H3. reflexivity.
Qed.
Lemma usable_intact v g s c : agree v g -> v_ses v s = SUsable c -> exists x o st t, intact g s x o st t.
Proof.
  intros A H. pose proof (ag_ses _ _ A s) as Hs. rewrite H in Hs. destruct Hs as (x & H1 & H2 & H3).
  pose proof (ag_cli _ _ A c) as Hc. rewrite H3 in Hc. destruct Hc as ((st & f & Hc) & Ht).
  pose proof (ag_tree _ _ A (s_tree x)) as Hr. rewrite Ht in Hr. destruct Hr as (t & Hr).
  exists x, (mkCli (Some st) (Some (s_tree x)) f), st, t. unfold intact. rewrite H2, Hc. auto 6.
Qed.

Ltac eqd := repeat match goal with
  | |- context[Nat.eqb ?a ?b] => destruct (Nat.eqb_spec a b); subst
  | H : context[Nat.eqb ?a ?b] |- _ => destruct (Nat.eqb_spec a b); subst
  end.
Lemma stale_cases c m s : stale c m s = m s \/ (m s = SUsable c /\ stale c m s = SStale).
Proof. unfold stale. destruct (m s) as [|c'| |] eqn:Hm; auto. destruct (Nat.eqb_spec c' c) as [->|]; auto. Qed.
Lemma stale_usable c m s c' : stale c m s = SUsable c' -> m s = SUsable c' /\ c' <> c.
Proof. unfold stale. destruct (m s) as [|x| |]; try discriminate. destruct (Nat.eqb_spec x c) as [->|]; [discriminate|]. intros [= ->]. auto. Qed.

(** Sessions, when some [Cli]s change. *)
Lemma ses_agree v g (m : nat -> sstate) (cl : nat -> cstate) : agree v g ->
  (forall s, m s = v_ses v s \/ (exists c, v_ses v s = SUsable c) /\ m s = SStale) ->
  (forall s c, m s = SUsable c -> cl c = v_cli v c) ->
  forall s, match m s with
    | SNone => g_ses g s = Unborn
    | SUsable c => exists x, g_ses g s = Live x /\ s_cli x = c /\ cl c = CFull (s_tree x)
    | SStale => exists x, g_ses g s = Live x
    | SGone => g_ses g s = Dead end.
Proof.
  intros A Hm Hc s. pose proof (ag_ses _ _ A s) as Hs. destruct (Hm s) as [E0|((c & E1) & E2)].
  - specialize (Hc s). rewrite E0 in *. destruct (v_ses v s); auto. destruct Hs as (x & H1 & H2 & H3). exists x. rewrite (Hc _ eq_refl). auto.
  - rewrite E2. rewrite E1 in Hs. destruct Hs as (x & H1 & _). eauto.
Qed.

Lemma step_agree v g o v' : agree v g -> v_step v o = Some v' ->
  match step g o with
  | LOk r g' => agree v' g'
  | LIll => False
  | LUndef => exists s c x o' st t, o = LCall s c /\ intact g s x o' st t /\ run_call (ses_env x o') fuel c (ses_world g s x st t) = CUndef
  | LDeep => exists s c x o' st t, o = LCall s c /\ intact g s x o' st t /\ run_call (ses_env x o') fuel c (ses_world g s x st t) = CDeep
  end.
Proof.
  intros A Hv. destruct o as [c t r st|c k f|c c'|c c'|c|s c size|s k f|s c|s|t o].
  - cbn in Hv. pose proof (ag_cli _ _ A c) as Hc. pose proof (ag_tree _ _ A t) as Ht.
    destruct (v_cli v c) eqn:Ec; try discriminate. destruct (v_tree v t) eqn:Et; try discriminate. injection Hv as <-.
    cbn [l_step]. rewrite Hc, Ht. constructor; cbn.
    + intros d. destruct (Nat.eq_dec d c) as [->|Hd].
      * rewrite at_same, put_same, at_same. split; [eauto|reflexivity].
      * rewrite at_other, put_other by exact Hd. pose proof (ag_cli _ _ A d) as H. destruct (v_cli v d); try exact H.
        split; [apply H|]. destruct (Nat.eq_dec t0 t) as [->|]; [rewrite at_same; reflexivity|rewrite at_other by assumption; apply H].
    + apply (ses_agree v g _ _ A); [left; reflexivity|]. intros s d Hs. pose proof (ag_ses _ _ A s) as H. rewrite Hs in H.
      destruct H as (x & _ & _ & H). rewrite at_other; [reflexivity|]. congruence.
    + intros u. destruct (Nat.eq_dec u t) as [->|Hu]; [rewrite at_same, put_same; eauto|rewrite at_other, put_other by exact Hu; apply A].
    + intros d d' u. assert (Hn : forall e, v_cli v e = CFull t -> False). { intros e H. pose proof (ag_cli _ _ A e) as H'. rewrite H in H'. destruct H'. congruence. }
      unfold at_. destruct (Nat.eqb_spec d c), (Nat.eqb_spec d' c); subst; auto.
      * intros [= ->] H. destruct (Hn _ H).
      * intros H [= ->]. destruct (Hn _ H).
      * apply A.
  - cbn in Hv. pose proof (ag_cli _ _ A c) as Hc. cbn [l_step].
    assert (Hl : exists o, g_clis g c = Live o /\ v' = v).
    { destruct (v_cli v c); try discriminate; injection Hv as <-; [destruct Hc as ((st & f' & Hc) & _)|destruct Hc as (f' & Hc)]; eauto. }
    destruct Hl as (o & Ho & ->). rewrite Ho. constructor; cbn; try apply A.
    intros d. destruct (Nat.eq_dec d c) as [->|Hd]; [|rewrite put_other by exact Hd; apply A]. rewrite put_same.
    destruct (v_cli v c); try congruence.
    + destruct Hc as ((st & f' & Hc) & Ht). rewrite Ho in Hc. injection Hc as ->. split; [|exact Ht]. cbn. eauto.
    + destruct Hc as (f' & Hc). rewrite Ho in Hc. injection Hc as ->. cbn. eauto.
  - assert (Hx : exists x, v_cli v c = x /\ (x = CEmpty \/ exists t, x = CFull t) /\ v_cli v c' = CNone /\
      v' = mkView (at_ (at_ (v_cli v) c CEmpty) c' x) (stale c (v_ses v)) (v_tree v)).
    { cbn in Hv. destruct (v_cli v c) eqn:Ec; try discriminate; destruct (v_cli v c'); try discriminate; injection Hv as <-; eauto 8. }
    destruct Hx as (x & Ec & Hx & Ec' & ->). assert (Hne : c <> c') by (intros ->; rewrite Ec' in Ec; destruct Hx as [->|(t & ->)]; discriminate).
    pose proof (ag_cli _ _ A c) as Hc. pose proof (ag_cli _ _ A c') as Hc'. rewrite Ec in Hc. rewrite Ec' in Hc'. cbn [l_step]. rewrite Hc'.
    assert (Hl : exists o, g_clis g c = Live o). { destruct Hx as [->|(t & ->)]; [destruct Hc; eauto|destruct Hc as ((st & f & Hc) & _); eauto]. }
    destruct Hl as (o & Ho). rewrite Ho. constructor; cbn.
    + intros d. destruct (Nat.eq_dec d c') as [->|Hd]; [rewrite (at_same _ c'), (put_same _ c'); rewrite Ho in Hc; exact Hc|].
      rewrite (at_other _ c'), (put_other _ c') by exact Hd. destruct (Nat.eq_dec d c) as [->|Hd']; [rewrite at_same, put_same; eauto|].
      rewrite at_other, put_other by exact Hd'. apply A.
    + apply (ses_agree v g _ _ A).
      * intros s. destruct (stale_cases c (v_ses v) s) as [->|(H1 & ->)]; eauto.
      * intros s d Hs. apply stale_usable in Hs as (Hs & Hd). rewrite !at_other; try congruence.
        pose proof (ag_ses _ _ A s) as H. rewrite Hs in H. destruct H as (y & _ & _ & H). congruence.
    + apply A.
    + intros d d' u. unfold at_. destruct (Nat.eqb_spec d c'), (Nat.eqb_spec d' c'); subst; auto.
      * destruct (Nat.eqb_spec d' c); [discriminate|]. intros H1 H2. exfalso. apply n0. exact (ag_own _ _ A _ _ _ H2 H1).
      * destruct (Nat.eqb_spec d c); [discriminate|]. intros H1 H2. exfalso. apply n0. exact (ag_own _ _ A _ _ _ H1 H2).
      * destruct (Nat.eqb_spec d c), (Nat.eqb_spec d' c); try discriminate. apply A.
  - cbn [v_step] in Hv. pose proof (ag_cli _ _ A c) as Hc. pose proof (ag_cli _ _ A c') as Hc'. cbn [l_step].
    destruct (Nat.eqb_spec c c') as [->|Hne].
    { assert (Hl : exists o, g_clis g c' = Live o /\ v' = v).
      { destruct (v_cli v c'); try discriminate; injection Hv as <-; [destruct Hc as ((st & f' & Hc) & _)|destruct Hc as (f' & Hc)]; eauto. }
      destruct Hl as (o & Ho & ->). rewrite Ho. exact A. }
    assert (Hx : exists x y, v_cli v c = x /\ (x = CEmpty \/ exists t, x = CFull t) /\ v_cli v c' = y /\ (y = CEmpty \/ exists t, y = CFull t) /\
      v' = mkView (at_ (at_ (v_cli v) c CEmpty) c' x) (stale c (stale c' (v_ses v))) (destroyed y (v_tree v))).
    { destruct (v_cli v c) eqn:Ec; try discriminate; destruct (v_cli v c'); try discriminate; injection Hv as <-; do 2 eexists; (split; [reflexivity|]); (split; [eauto|]); (split; [reflexivity|]); (split; [eauto|reflexivity]). }
    destruct Hx as (x & y & Ec & Hx & Ec' & Hy & ->). rewrite Ec in Hc. rewrite Ec' in Hc'.
    assert (Hl : exists o, g_clis g c = Live o). { destruct Hx as [->|(t & ->)]; [destruct Hc; eauto|destruct Hc as ((st & f & Hc) & _); eauto]. }
    assert (Hl' : exists o, g_clis g c' = Live o /\ c_tree o = match y with CFull t => Some t | _ => None end).
    { destruct Hy as [->|(t & ->)]; [destruct Hc'; eauto|destruct Hc' as ((st & f & Hc') & _); eauto]. }
    destruct Hl as (o & Ho). destruct Hl' as (o' & Ho' & Hot). rewrite Ho, Ho', Hot.
    assert (Htr : forall d u, v_cli v d = CFull u -> d <> c' -> destroyed y (v_tree v) u = v_tree v u).
    { intros d u H Hd. destruct y; try reflexivity. cbn. apply at_other. intros ->. apply Hd. exact (ag_own _ _ A _ _ _ H Ec'). }
    constructor; cbn.
    + intros d. destruct (Nat.eq_dec d c') as [->|Hd].
      { rewrite (at_same _ c'), (put_same _ c'). rewrite Ho in Hc. destruct Hx as [->|(t & ->)]; [exact Hc|]. rewrite (Htr c t Ec) by congruence. exact Hc. }
      rewrite (at_other _ c'), (put_other _ c') by exact Hd. destruct (Nat.eq_dec d c) as [->|Hd']; [rewrite at_same, put_same; eauto|].
      rewrite at_other, put_other by exact Hd'. pose proof (ag_cli _ _ A d) as H. destruct (v_cli v d) eqn:Ed; try exact H. rewrite (Htr d t Ed Hd). exact H.
    + apply (ses_agree v g _ _ A).
      * intros s. destruct (stale_cases c (stale c' (v_ses v)) s) as [->|(H1 & ->)].
        -- destruct (stale_cases c' (v_ses v) s) as [->|(H1 & ->)]; eauto.
        -- apply stale_usable in H1 as (H1 & _). eauto.
      * intros s d Hs. apply stale_usable in Hs as (Hs & Hd). apply stale_usable in Hs as (Hs & Hd'). rewrite !at_other; congruence.
    + intros u. pose proof (ag_tree _ _ A u) as H. destruct Hy as [->|(t & ->)]; cbn; [exact H|].
      destruct (Nat.eq_dec u t) as [->|Hu]; [rewrite at_same, put_same; reflexivity|rewrite at_other, put_other by exact Hu; exact H].
    + intros d d' u. unfold at_. destruct (Nat.eqb_spec d c'), (Nat.eqb_spec d' c'); subst; auto.
      * destruct (Nat.eqb_spec d' c); [discriminate|]. intros H1 H2. exfalso. apply n0. exact (ag_own _ _ A _ _ _ H2 H1).
      * destruct (Nat.eqb_spec d c); [discriminate|]. intros H1 H2. exfalso. apply n0. exact (ag_own _ _ A _ _ _ H1 H2).
      * destruct (Nat.eqb_spec d c), (Nat.eqb_spec d' c); try discriminate. apply A.
  - cbn [v_step] in Hv. pose proof (ag_cli _ _ A c) as Hc. cbn [l_step].
    assert (Hx : exists x, v_cli v c = x /\ (x = CEmpty \/ exists t, x = CFull t) /\
      v' = mkView (at_ (v_cli v) c CGone) (stale c (v_ses v)) (destroyed x (v_tree v))).
    { destruct (v_cli v c) eqn:Ec; try discriminate; injection Hv as <-; eauto 10. }
    destruct Hx as (x & Ec & Hx & ->). rewrite Ec in Hc.
    assert (Hl : exists o, g_clis g c = Live o /\ c_tree o = match x with CFull t => Some t | _ => None end).
    { destruct Hx as [->|(t & ->)]; [destruct Hc; eauto|destruct Hc as ((st & f & Hc) & _); eauto]. }
    destruct Hl as (o & Ho & Hot). rewrite Ho, Hot. constructor; cbn.
    + intros d. destruct (Nat.eq_dec d c) as [->|Hd]; [rewrite at_same, put_same; reflexivity|]. rewrite at_other, put_other by exact Hd.
      pose proof (ag_cli _ _ A d) as H. destruct (v_cli v d) eqn:Ed; try exact H. split; [apply H|]. destruct Hx as [->|(u & ->)]; [apply H|]. cbn.
      rewrite at_other; [apply H|]. intros ->. apply Hd. exact (ag_own _ _ A _ _ _ Ed Ec).
    + apply (ses_agree v g _ _ A).
      * intros s. destruct (stale_cases c (v_ses v) s) as [->|(H1 & ->)]; eauto.
      * intros s d Hs. apply stale_usable in Hs as (Hs & Hd). rewrite at_other by exact Hd. reflexivity.
    + intros u. pose proof (ag_tree _ _ A u) as H. destruct Hx as [->|(t & ->)]; cbn; [exact H|].
      destruct (Nat.eq_dec u t) as [->|Hu]; [rewrite at_same, put_same; reflexivity|rewrite at_other, put_other by exact Hu; exact H].
    + intros d d' u. unfold at_. destruct (Nat.eqb_spec d c), (Nat.eqb_spec d' c); try discriminate. apply A.
  - cbn [v_step] in Hv. pose proof (ag_cli _ _ A c) as Hc. pose proof (ag_ses _ _ A s) as Hs. cbn [l_step].
    destruct (v_ses v s) eqn:Es; try discriminate. destruct (v_cli v c) eqn:Ec; try discriminate. injection Hv as <-.
    destruct Hc as ((st & f & Hc) & Ht). pose proof (ag_tree _ _ A t) as Hr. rewrite Ht in Hr. destruct Hr as (r & Hr). rewrite Hs, Hc, Hr.
    constructor; cbn; try apply A. intros s'. destruct (Nat.eq_dec s' s) as [->|Hn].
    + rewrite at_same, put_same. eexists. split; [reflexivity|]. split; [reflexivity|exact Ec].
    + rewrite at_other, put_other by exact Hn. apply A.
  - cbn [v_step] in Hv. pose proof (ag_ses _ _ A s) as Hs. cbn [l_step].
    assert (Hl : exists x, g_ses g s = Live x /\ v' = v).
    { destruct (v_ses v s); try discriminate; injection Hv as <-; [destruct Hs as (x & Hs & _)|destruct Hs as (x & Hs)]; eauto. }
    destruct Hl as (x & Hx & ->). rewrite Hx. constructor; cbn; try apply A. intros s'. destruct (Nat.eq_dec s' s) as [->|Hn].
    + rewrite put_same. destruct (v_ses v s); try congruence; [|eauto]. destruct Hs as (y & H1 & H2 & H3). rewrite Hx in H1. injection H1 as <-. eexists. split; [reflexivity|]. auto.
    + rewrite put_other by exact Hn. apply A.
  - cbn [v_step] in Hv. destruct (v_ses v s) as [|d| |] eqn:Es; try discriminate. injection Hv as <-.
    destruct (usable_intact v g s d A Es) as (x & o & st & t & Hi). rewrite (call_intact _ _ _ _ _ _ c Hi).
    destruct (run_call (ses_env x o) fuel c (ses_world g s x st t)) as [r w| |] eqn:Hr; [|exists s, c, x, o, st, t; auto|exists s, c, x, o, st, t; auto].
    destruct Hi as (I1 & I2 & I3 & I4 & I5). constructor; cbn.
    + intros e. destruct (Nat.eq_dec e (s_cli x)) as [->|He]; [|rewrite put_other by exact He; apply A]. rewrite put_same.
      pose proof (ag_cli _ _ A (s_cli x)) as H. destruct (v_cli v (s_cli x)); try congruence.
      * destruct H as ((st' & f & H) & Ht). split; [|exact Ht]. rewrite I2 in H. injection H as ->. cbn. eauto.
      * destruct H as (f & H). rewrite I2 in H. injection H as ->. discriminate.
    + intros e. destruct (Nat.eq_dec e s) as [->|He]; [|rewrite put_other by exact He; apply A]. rewrite put_same, Es.
      pose proof (ag_ses _ _ A s) as H. rewrite Es in H. destruct H as (y & H1 & H2 & H3). rewrite I1 in H1. injection H1 as <-.
      eexists. split; [reflexivity|]. auto.
    + intros e. destruct (Nat.eq_dec e (s_tree x)) as [->|He]; [|rewrite put_other by exact He; apply A]. rewrite put_same.
      pose proof (ag_tree _ _ A (s_tree x)) as H. destruct (v_tree v (s_tree x)); try congruence. eauto.
    + apply A.
  - cbn [v_step] in Hv. pose proof (ag_ses _ _ A s) as Hs. cbn [l_step].
    assert (Hl : (exists x, g_ses g s = Live x) /\ v' = mkView (v_cli v) (at_ (v_ses v) s SGone) (v_tree v)).
    { destruct (v_ses v s); try discriminate; injection Hv as <-; [destruct Hs as (x & Hs & _)|destruct Hs as (x & Hs)]; eauto. }
    destruct Hl as ((x & Hx) & ->). rewrite Hx. constructor; cbn; try apply A. intros s'. destruct (Nat.eq_dec s' s) as [->|Hn].
    + rewrite at_same, put_same. reflexivity.
    + rewrite at_other, put_other by exact Hn. apply A.
  - cbn [v_step] in Hv. pose proof (ag_tree _ _ A t) as Ht. cbn [l_step]. unfold menu_op.
    assert (Hp : forall r, v_tree v t = TThere -> agree v (set_trees (put (g_trees g) t (Live r)) g)).
    { intros r Ev. constructor; cbn; try apply A. intros u. destruct (Nat.eq_dec u t) as [->|Hu]; [rewrite put_same, Ev; eauto|rewrite put_other by exact Hu; apply A]. }
    destruct (v_tree v t) eqn:Ev; try discriminate.
    + injection Hv as <-. destruct Ht as (r & ->). destruct o; try (apply Hp; reflexivity). destruct (relabel (t_next r) c). apply Hp; reflexivity.
    + rewrite Ht. destruct o; try discriminate; injection Hv as <-; exact A.
Qed.

(** Careful programs: what goes wrong goes wrong in a function of a session whose objects
    are all there. *)
Lemma careful_run os : forall v g v', agree v g -> v_run os v = Some v' ->
  match run os g with
  | LEnd _ g' => agree v' g'
  | LEIll => False
  | LEUndef => exists pre s c post rs g1 x o st t, os = pre ++ LCall s c :: post /\ run pre g = LEnd rs g1 /\ intact g1 s x o st t /\
      run_call (ses_env x o) fuel c (ses_world g1 s x st t) = CUndef
  | LEDeep => exists pre s c post rs g1 x o st t, os = pre ++ LCall s c :: post /\ run pre g = LEnd rs g1 /\ intact g1 s x o st t /\
      run_call (ses_env x o) fuel c (ses_world g1 s x st t) = CDeep
  end.
Proof.
  induction os as [|o os IH]; intros v g v' A Hv; cbn [v_run l_run] in *; [injection Hv as <-; exact A|].
  destruct (v_step v o) as [v1|] eqn:Ev; [|discriminate]. pose proof (step_agree v g o v1 A Ev) as Hs.
  destruct (step g o) as [r g1| | |] eqn:Eg; try exact Hs.
  - specialize (IH v1 g1 v' Hs Hv). destruct (run os g1) as [rs g2| | |]; try exact IH;
      destruct IH as (pre & s & c & post & rs & g2 & x & o' & st & t & -> & H2 & H3 & H4);
      exists (o :: pre), s, c, post, (r :: rs), g2, x, o', st, t; cbn [app l_run]; rewrite Eg, H2; auto.
  - destruct Hs as (s & c & x & o' & st & t & -> & H). exists [], s, c, os, [], g, x, o', st, t. auto.
  - destruct Hs as (s & c & x & o' & st & t & -> & H). exists [], s, c, os, [], g, x, o', st, t. auto.
Qed.

(** ** All programs *)
Record ordered (g : prog) : Prop := mkOrdered {
  or_own : forall c c' o o' t, g_clis g c = Live o -> g_clis g c' = Live o' -> c_tree o = Some t -> c_tree o' = Some t -> c = c';
  or_born : forall c o t, g_clis g c = Live o -> c_tree o = Some t -> g_trees g t <> Unborn;
  or_ses : forall s x, g_ses g s = Live x -> g_trees g (s_tree x) <> Unborn }.
Lemma ordered_init : ordered g_init.
Proof. constructor; cbn; discriminate. Qed.

Definition grown {A} (m m' : nat -> life A) : Prop := forall i, m i <> Unborn -> m' i <> Unborn.
Lemma grown_refl {A} (m : nat -> life A) : grown m m.
Proof. intros i H. exact H. Qed.
Lemma grown_put {A} (m : nat -> life A) i a : a <> Unborn -> grown m (put m i a).
Proof. intros Ha j H. unfold put. destruct (Nat.eqb j i); assumption. Qed.
Lemma grown_drop o m : grown m (drop_tree o m).
Proof. destruct o; [apply grown_put; discriminate|apply grown_refl]. Qed.

(** Steps that create no menus and keep, or lose, who owns which. *)
Lemma ordered_keep g g' : ordered g -> grown (g_trees g) (g_trees g') ->
  (forall c o t, g_clis g' c = Live o -> c_tree o = Some t -> exists o1, g_clis g c = Live o1 /\ c_tree o1 = Some t) ->
  (forall s x, g_ses g' s = Live x -> g_trees g' (s_tree x) <> Unborn) -> ordered g'.
Proof.
  intros [H1 H2 H3] Ht Hc Hs. constructor; [| |exact Hs].
  - intros c c' o o' t A B C D. destruct (Hc _ _ _ A C) as (o1 & A1 & C1). destruct (Hc _ _ _ B D) as (o2 & A2 & C2). eapply H1; eassumption.
  - intros c o t A B. destruct (Hc _ _ _ A B) as (o1 & A1 & C1). apply Ht. eapply H2; eassumption.
Qed.
Lemma ordered_step g o r g' : ordered g -> step g o = LOk r g' -> ordered g'.
Proof.
  intros W H. pose proof W as [W1 W2 W3].
  assert (Ws : forall m, grown (g_trees g) m -> forall s x, g_ses g s = Live x -> m (s_tree x) <> Unborn) by (intros m Hm s x Hx; apply Hm; eauto).
  destruct o as [c t r0 st|c k f|c c'|c c'|c|s c size|s k f|s c|s|t o]; cbn [l_step] in H.
  - destruct (g_clis g c) eqn:Ec; try discriminate. destruct (g_trees g t) eqn:Et; try discriminate. injection H as <- <-.
    assert (Hn : forall d o, g_clis g d = Live o -> c_tree o <> Some t) by (intros d o Hd Ho; exact (W2 _ _ _ Hd Ho Et)).
    constructor; cbn.
    + intros d d' o o' u. unfold put. destruct (Nat.eqb_spec d c), (Nat.eqb_spec d' c); subst; auto.
      * intros [= <-] Hd [= <-] Ho. destruct (Hn _ _ Hd Ho).
      * intros Hd [= <-] Ho [= <-]. destruct (Hn _ _ Hd Ho).
      * eauto.
    + intros d o u. unfold put. destruct (Nat.eqb_spec u t); [discriminate|]. destruct (Nat.eqb_spec d c); [intros [= <-] [= ->]; congruence|eauto].
    + apply Ws, grown_put. discriminate.
  - destruct (g_clis g c) as [|o|] eqn:Ec; try discriminate. injection H as <- <-. apply (ordered_keep g); auto; [apply grown_refl|].
    cbn. intros d o' u. unfold put. destruct (Nat.eqb_spec d c) as [->|]; [|eauto]. intros [= <-]. eauto.
  - destruct (g_clis g c) as [|o|] eqn:Ec, (g_clis g c') eqn:Ec'; try discriminate. injection H as <- <-.
    assert (Hne : c <> c') by congruence. constructor; cbn; [| |auto].
    + intros d d' o1 o2 u. unfold put. destruct (Nat.eqb_spec d c'), (Nat.eqb_spec d' c'); subst; auto.
      * destruct (Nat.eqb_spec d' c); [intros _ [= <-]; discriminate|]. intros [= <-] A B C. exfalso. apply n0. eapply W1; eassumption.
      * destruct (Nat.eqb_spec d c); [intros [= <-]; discriminate|]. intros A [= <-] B C. exfalso. apply n0. eapply W1; eassumption.
      * destruct (Nat.eqb_spec d c); [intros [= <-]; discriminate|]. destruct (Nat.eqb_spec d' c); [intros _ [= <-]; discriminate|]. eauto.
    + intros d o1 u. unfold put. destruct (Nat.eqb_spec d c'); [intros [= <-]; eauto|]. destruct (Nat.eqb_spec d c); [intros [= <-]; discriminate|]. eauto.
  - destruct (g_clis g c) as [|o|] eqn:Ec, (g_clis g c') as [|o'|] eqn:Ec'; try discriminate.
    destruct (Nat.eqb_spec c c') as [->|Hne]; injection H as <- <-; [exact W|]. constructor; cbn.
    + intros d d' o1 o2 u. unfold put. destruct (Nat.eqb_spec d c'), (Nat.eqb_spec d' c'); subst; auto.
      * destruct (Nat.eqb_spec d' c); [intros _ [= <-]; discriminate|]. intros [= <-] A B C. exfalso. apply n0. eapply W1; eassumption.
      * destruct (Nat.eqb_spec d c); [intros [= <-]; discriminate|]. intros A [= <-] B C. exfalso. apply n0. eapply W1; eassumption.
      * destruct (Nat.eqb_spec d c); [intros [= <-]; discriminate|]. destruct (Nat.eqb_spec d' c); [intros _ [= <-]; discriminate|]. eauto.
    + intros d o1 u Hd Hu. apply grown_drop. revert Hd. unfold put. destruct (Nat.eqb_spec d c'); [intros [= <-]; eauto|].
      destruct (Nat.eqb_spec d c); [intros [= <-]; discriminate|]. eauto.
    + apply Ws, grown_drop.
  - destruct (g_clis g c) as [|o|] eqn:Ec; try discriminate. injection H as <- <-. apply (ordered_keep g); auto; cbn.
    + apply grown_drop.
    + intros d o' u. unfold put. destruct (Nat.eqb_spec d c); [discriminate|eauto].
    + apply Ws, grown_drop.
  - destruct (g_ses g s); try discriminate. destruct (g_clis g c) as [|[[st|] [t|] f]|] eqn:Ec; try discriminate.
    destruct (g_trees g t) as [|r0|] eqn:Et; try discriminate. injection H as <- <-. apply (ordered_keep g); auto; [apply grown_refl|eauto|].
    cbn. intros s' x. unfold put. destruct (Nat.eqb s' s); [intros [= <-]; cbn; congruence|eauto].
  - destruct (g_ses g s) as [|x|] eqn:Es; try discriminate. injection H as <- <-. apply (ordered_keep g); auto; [apply grown_refl|eauto|].
    cbn. intros s' x'. unfold put. destruct (Nat.eqb s' s); [intros [= <-]; cbn; eauto|eauto].
  - destruct (g_ses g s) as [|x|] eqn:Es; try discriminate. unfold call_ses in H. cbn zeta in H.
    destruct (run_call _ _ _ _) as [r' w'| |]; try discriminate.
    set (o := match g_clis g (s_cli x) with Live o => Some o | _ => None end) in *.
    assert (Hg : exists ex, g' = mkProg
        (match o with Some o' => put (g_clis g) (s_cli x) (Live (mkCli (match match o with Some o1 => c_store o1 | None => None end with Some _ => Some (w_store w') | None => None end) (c_tree o') (c_fns o'))) | None => g_clis g end)
        (match g_trees g (s_tree x) with Live _ => put (g_trees g) (s_tree x) (Live (mkTree (w_root w') (w_next w'))) | _ => g_trees g end)
        (put (g_ses g) s (Live (mkSes (s_cli x) (s_tree x) (w_cur w') (w_hist w') ex (s_fns x))))
        (w_trace w')).
    { destruct o as [o'|]; [destruct (c_store o')|].
      - injection H as <- <-. eauto.
      - destruct (exits c && w_exit w'); [discriminate|]. injection H as <- <-. eauto.
      - destruct (existsb _ _); [discriminate|]. injection H as <- <-. eauto. }
    destruct Hg as (ex & ->). clear H.
    assert (Hgr : grown (g_trees g) (match g_trees g (s_tree x) with Live _ => put (g_trees g) (s_tree x) (Live (mkTree (w_root w') (w_next w'))) | _ => g_trees g end))
      by (destruct (g_trees g (s_tree x)); [apply grown_refl|apply grown_put; discriminate|apply grown_refl]).
    apply (ordered_keep g); auto; cbn [g_clis g_trees g_ses].
    + intros d o1 u. destruct o as [o'|] eqn:Eo; [|eauto]. unfold put. destruct (Nat.eqb_spec d (s_cli x)) as [->|]; [|eauto]. intros [= <-]. cbn. intros Hu.
      exists o'. split; [|exact Hu]. subst o. destruct (g_clis g (s_cli x)); try discriminate. congruence.
    + intros s' x'. unfold put. destruct (Nat.eqb s' s); [intros [= <-]; cbn [s_tree]; apply Hgr; eauto|intros Hx; apply Hgr; eauto].
  - destruct (g_ses g s) as [|x|] eqn:Es; try discriminate. injection H as <- <-. apply (ordered_keep g); auto; [apply grown_refl|eauto|].
    cbn. intros s' x'. unfold put. destruct (Nat.eqb s' s); [discriminate|eauto].
  - unfold menu_op in H. assert (Hp : forall r1, ordered (set_trees (put (g_trees g) t (Live r1)) g)).
    { intros r1. apply (ordered_keep g); auto; [apply grown_put; discriminate|eauto|]. apply Ws, grown_put. discriminate. }
    destruct (g_trees g t) as [|r0|]; try discriminate.
    + destruct o; try (injection H as <- <-; apply Hp). destruct (relabel (t_next r0) c). injection H as <- <-. apply Hp.
    + destruct o; try discriminate; injection H as <- <-; exact W.
Qed.
Lemma ordered_run os : forall g rs g', ordered g -> run os g = LEnd rs g' -> ordered g'.
Proof.
  induction os as [|o os IH]; intros g rs g' W H; cbn [l_run] in H; [injection H as <- <-; exact W|].
  destruct (step g o) as [r g1| | |] eqn:Es; try discriminate. destruct (run os g1) as [rs1 g2| | |] eqn:Er; try discriminate.
  injection H as <- <-. eapply IH; [|exact Er]. eapply ordered_step; eassumption.
Qed.

(** ** Moving *)
Section Moving.
Context (c c' : nat) (dead : option nat).
Notation r := (ren c c').
Definition ren_ses (x : life ses) : life ses :=
  match x with Live x => Live (mkSes (r (s_cli x)) (s_tree x) (s_cur x) (s_hist x) (s_exit x) (s_fns x)) | Unborn => Unborn | Dead => Dead end.
(** [g]: without the move, [g']: with it; [dead]: the menus that were replaced. *)
Record moved (g g' : prog) : Prop := mkMoved {
  mv_cli : forall x, x <> c' -> g_clis g' (r x) = g_clis g x;
  mv_ses : forall s, g_ses g' s = ren_ses (g_ses g s);
  mv_not : forall s x, g_ses g s = Live x -> s_cli x <> c' /\ dead <> Some (s_tree x);
  mv_tree : forall t, dead <> Some t -> g_trees g' t = g_trees g t;
  mv_dead : forall t, dead = Some t -> g_trees g' t <> Unborn /\ g_trees g t <> Unborn;
  mv_own : forall x o t, x <> c' -> g_clis g x = Live o -> c_tree o = Some t -> dead <> Some t;
  mv_trace : g_trace g' = g_trace g }.

Definition away (o : lop) : Prop := ~ mentions c' o /\ forall t m, o = LMenu t m -> dead <> Some t.
Definition l_same (a b : lres) : Prop :=
  match a, b with
  | LOk x g, LOk x' g' => x = x' /\ moved g g'
  | LUndef, LUndef | LDeep, LDeep | LIll, LIll => True
  | _, _ => False
  end.

Lemma r_other x : x <> c -> r x = x.
Proof. unfold ren. destruct (Nat.eqb_spec x c); congruence. Qed.
Lemma r_c : r c = c'.
Proof. unfold ren. rewrite Nat.eqb_refl. reflexivity. Qed.
Lemma r_inj x y : x <> c' -> y <> c' -> r x = r y -> x = y.
Proof. unfold ren. destruct (Nat.eqb_spec x c), (Nat.eqb_spec y c); congruence. Qed.
Lemma put_ren {A} (m m' : nat -> A) i a : i <> c' -> (forall x, x <> c' -> m' (r x) = m x) ->
  forall x, x <> c' -> put m' (r i) a (r x) = put m i a x.
Proof.
  intros Hi H x Hx. destruct (Nat.eq_dec x i) as [->|Hn]; [rewrite !put_same; reflexivity|].
  rewrite !put_other; auto. intros He. apply Hn. apply r_inj; assumption.
Qed.
Lemma put_ren_ses m m' s x : (forall s, m' s = ren_ses (m s)) -> forall s', put m' s (ren_ses x) s' = ren_ses (put m s x s').
Proof. intros H s'. unfold put. destruct (Nat.eqb s' s); auto. Qed.
Lemma put_trees (m m' : nat -> life tree) t x : dead <> Some t -> (forall t, dead <> Some t -> m' t = m t) -> forall t', dead <> Some t' -> put m' t x t' = put m t x t'.
Proof. intros Ht H t' Hd. unfold put. destruct (Nat.eqb t' t); auto. Qed.
Lemma put_dead (m m' : nat -> life tree) t x : dead <> Some t -> (forall t, dead = Some t -> m' t <> Unborn /\ m t <> Unborn) ->
  forall t', dead = Some t' -> put m' t x t' <> Unborn /\ put m t x t' <> Unborn.
Proof. intros Ht H t' Hd. rewrite !put_other by congruence. auto. Qed.
Lemma drop_trees o (m m' : nat -> life tree) : (forall t, o = Some t -> dead <> Some t) -> (forall t, dead <> Some t -> m' t = m t) ->
  forall t', dead <> Some t' -> drop_tree o m' t' = drop_tree o m t'.
Proof. intros Ho H. destruct o; [apply put_trees; auto|exact H]. Qed.
Lemma drop_dead o (m m' : nat -> life tree) : (forall t, o = Some t -> dead <> Some t) -> (forall t, dead = Some t -> m' t <> Unborn /\ m t <> Unborn) ->
  forall t', dead = Some t' -> drop_tree o m' t' <> Unborn /\ drop_tree o m t' <> Unborn.
Proof. intros Ho H. destruct o; [apply put_dead; auto|exact H]. Qed.

Lemma moved_step g g' o : moved g g' -> away o -> l_same (step g o) (step g' (rename c c' o)).
Proof.
  intros M (Hm & Hd). pose proof M as [M1 M2 M3 M4 M5 M6 M7].
  destruct o as [x t r0 st|x k f|x y|x y|x|s x size|s k f|s k|s|t o]; cbn [rename l_step] in *.
  - cbn in Hm. rewrite M1 by exact Hm. destruct (g_clis g x); try exact Logic.I.
    assert (Ht : dead = Some t -> match g_trees g t with Unborn => False | _ => True end /\ match g_trees g' t with Unborn => False | _ => True end).
    { intros H. destruct (M5 t H) as (A & B). destruct (g_trees g t), (g_trees g' t); try congruence; auto. }
    destruct (option_eq_dec dead t) as [Ed|Ed].
    + destruct (Ht Ed) as (A & B). destruct (g_trees g t), (g_trees g' t); try contradiction; exact Logic.I.
    + rewrite (M4 t Ed). destruct (g_trees g t) eqn:Et; try exact Logic.I. split; [reflexivity|]. constructor; cbn; auto.
      * apply put_ren; assumption.
      * apply put_trees; assumption.
      * apply put_dead; assumption.
      * intros d o u Hdn. unfold put. destruct (Nat.eqb d x); [intros [= <-] [= <-]; exact Ed|eauto].
  - cbn in Hm. rewrite M1 by exact Hm. destruct (g_clis g x) as [|o|] eqn:Ex; try exact Logic.I. split; [reflexivity|]. constructor; cbn; auto.
    + apply put_ren; assumption.
    + intros d o' u Hdn. unfold put. destruct (Nat.eqb_spec d x) as [->|]; [|eauto]. intros [= <-]. cbn. eauto.
  - cbn in Hm. rewrite !M1 by tauto. destruct (g_clis g x) as [|o|] eqn:Ex, (g_clis g y) as [|o2|] eqn:Ey; try exact Logic.I.
    split; [reflexivity|]. constructor; cbn; auto.
    + apply put_ren; [tauto|]. apply put_ren; [tauto|assumption].
    + intros d o' u Hdn. unfold put. destruct (Nat.eqb_spec d y) as [->|]; [intros [= <-]; eauto|].
      destruct (Nat.eqb_spec d x) as [->|]; [intros [= <-]; discriminate|eauto].
  - cbn in Hm. rewrite !M1 by tauto. destruct (g_clis g x) as [|o|] eqn:Ex, (g_clis g y) as [|o2|] eqn:Ey; try exact Logic.I.
    assert (Hxy : Nat.eqb (r x) (r y) = Nat.eqb x y).
    { destruct (Nat.eqb_spec x y) as [->|Hn]; [apply Nat.eqb_refl|]. apply Nat.eqb_neq. intros He. apply Hn, r_inj; tauto. }
    rewrite Hxy. destruct (Nat.eqb_spec x y) as [->|Hn]; [split; [reflexivity|exact M]|].
    assert (Ho2 : forall t, c_tree o2 = Some t -> dead <> Some t) by (intros t; apply (M6 y); tauto).
    split; [reflexivity|]. constructor; cbn; auto.
    + apply put_ren; [tauto|]. apply put_ren; [tauto|assumption].
    + apply drop_trees; assumption.
    + apply drop_dead; assumption.
    + intros d o' u Hdn. unfold put. destruct (Nat.eqb_spec d y) as [->|]; [intros [= <-]; apply (M6 x); tauto|].
      destruct (Nat.eqb_spec d x) as [->|]; [intros [= <-]; discriminate|eauto].
  - cbn in Hm. rewrite M1 by exact Hm. destruct (g_clis g x) as [|o|] eqn:Ex; try exact Logic.I.
    assert (Ho : forall t, c_tree o = Some t -> dead <> Some t) by (intros t; apply (M6 x); tauto).
    split; [reflexivity|]. constructor; cbn; auto.
    + apply put_ren; assumption.
    + apply drop_trees; assumption.
    + apply drop_dead; assumption.
    + intros d o' u Hdn. unfold put. destruct (Nat.eqb_spec d x) as [->|]; [discriminate|eauto].
  - cbn in Hm. rewrite M2, M1 by exact Hm. destruct (g_ses g s) eqn:Es; try exact Logic.I. cbn [ren_ses].
    destruct (g_clis g x) as [|[[st|] [t|] f]|] eqn:Ex; try exact Logic.I.
    assert (Ht : dead <> Some t) by (apply (M6 x _ t Hm Ex); reflexivity). rewrite (M4 t Ht). destruct (g_trees g t) as [|r0|] eqn:Et; try exact Logic.I.
    rewrite M7. split; [reflexivity|]. constructor; cbn; auto.
    + intros s'. unfold put. destruct (Nat.eqb s' s); [reflexivity|apply M2].
    + intros s' y. unfold put. destruct (Nat.eqb s' s); [intros [= <-]; cbn; auto|apply M3].
  - rewrite M2. destruct (g_ses g s) as [|x|] eqn:Es; try exact Logic.I. cbn [ren_ses]. split; [reflexivity|]. constructor; cbn; auto.
    + intros s'. unfold put. destruct (Nat.eqb s' s); [reflexivity|apply M2].
    + intros s' y. unfold put. destruct (Nat.eqb s' s); [intros [= <-]; cbn; exact (M3 s x Es)|apply M3].
  - rewrite M2. destruct (g_ses g s) as [|x|] eqn:Es; try exact Logic.I. cbn [ren_ses]. destruct (M3 s x Es) as (Hx & Hxd).
    unfold call_ses. cbn [s_cli s_tree s_cur s_hist s_exit s_fns]. rewrite (M1 _ Hx), (M4 _ Hxd), M7. cbn zeta.
    destruct (run_call _ _ _ _) as [x' w'| |]; try exact Logic.I.
    assert (Hfin : forall ex,
      moved (mkProg
        (match match g_clis g (s_cli x) with Live o => Some o | _ => None end with Some o' => put (g_clis g) (s_cli x) (Live (mkCli (match match match g_clis g (s_cli x) with Live o => Some o | _ => None end with Some o1 => c_store o1 | None => None end with Some _ => Some (w_store w') | None => None end) (c_tree o') (c_fns o'))) | None => g_clis g end)
        (match g_trees g (s_tree x) with Live _ => put (g_trees g) (s_tree x) (Live (mkTree (w_root w') (w_next w'))) | _ => g_trees g end)
        (put (g_ses g) s (Live (mkSes (s_cli x) (s_tree x) (w_cur w') (w_hist w') ex (s_fns x)))) (w_trace w'))
       (mkProg
        (match match g_clis g (s_cli x) with Live o => Some o | _ => None end with Some o' => put (g_clis g') (r (s_cli x)) (Live (mkCli (match match match g_clis g (s_cli x) with Live o => Some o | _ => None end with Some o1 => c_store o1 | None => None end with Some _ => Some (w_store w') | None => None end) (c_tree o') (c_fns o'))) | None => g_clis g' end)
        (match g_trees g (s_tree x) with Live _ => put (g_trees g') (s_tree x) (Live (mkTree (w_root w') (w_next w'))) | _ => g_trees g' end)
        (put (g_ses g') s (Live (mkSes (r (s_cli x)) (s_tree x) (w_cur w') (w_hist w') ex (s_fns x)))) (w_trace w'))).
    { intros ex. constructor; cbn [g_clis g_trees g_ses g_trace]; auto.
      - destruct (g_clis g (s_cli x)); try exact M1. apply put_ren; assumption.
      - intros s'. unfold put. destruct (Nat.eqb s' s); [reflexivity|apply M2].
      - intros s' y. unfold put. destruct (Nat.eqb s' s); [intros [= <-]; auto|apply M3].
      - destruct (g_trees g (s_tree x)); try exact M4. apply put_trees; assumption.
      - destruct (g_trees g (s_tree x)); try exact M5. apply put_dead; assumption.
      - intros d o' u Hdn. destruct (g_clis g (s_cli x)) as [|o|] eqn:Ex; try (apply M6; assumption). unfold put.
        destruct (Nat.eqb_spec d (s_cli x)) as [->|]; [intros [= <-]; cbn; eauto|eauto]. }
    destruct (g_clis g (s_cli x)) as [|o|]; [destruct (existsb _ _)|destruct (c_store o); [|destruct (exits k && w_exit w')]|destruct (existsb _ _)];
      try exact Logic.I; (split; [reflexivity|apply Hfin]).
  - rewrite M2. destruct (g_ses g s) as [|x|] eqn:Es; try exact Logic.I. cbn [ren_ses]. split; [reflexivity|]. constructor; cbn; auto.
    + intros s'. unfold put. destruct (Nat.eqb s' s); [reflexivity|apply M2].
    + intros s' y. unfold put. destruct (Nat.eqb s' s); [discriminate|apply M3].
  - specialize (Hd t o eq_refl). unfold menu_op. rewrite (M4 t Hd).
    assert (Hp : forall r1, l_same (LOk RNone (set_trees (put (g_trees g) t (Live r1)) g)) (LOk RNone (set_trees (put (g_trees g') t (Live r1)) g'))).
    { intros r1. split; [reflexivity|]. constructor; cbn; auto; [apply put_trees; assumption|apply put_dead; assumption]. }
    destruct (g_trees g t) as [|r0|].
    + destruct o; exact Logic.I.
    + destruct o; try apply Hp. destruct (relabel (t_next r0) c0). apply Hp.
    + destruct o; try (split; [reflexivity|exact M]). exact Logic.I.
Qed.
Lemma moved_run os : forall g g', moved g g' -> Forall away os -> same_end (run os g) (run (map (rename c c') os) g').
Proof.
  induction os as [|o os IH]; intros g g' M Ha; cbn [map l_run]; [split; [reflexivity|symmetry; apply M]|].
  inversion Ha; subst. pose proof (moved_step g g' o M H1) as Hs.
  destruct (step g o) as [x g1| | |], (step g' (rename c c' o)) as [x' g1'| | |]; try contradiction; try exact Logic.I.
  destruct Hs as (<- & M1). specialize (IH _ _ M1 H2).
  destruct (run os g1), (run (map (rename c c') os) g1'); try contradiction; try exact Logic.I.
  destruct IH as (-> & IH). split; [reflexivity|exact IH].
Qed.
End Moving.

Lemma moved_now c c' g g' mv : c <> c' -> mv = LMove c c' \/ mv = LAssign c c' -> step g mv = LOk RNone g' ->
  ordered g -> unused c g -> unused c' g -> moved c c' (own_tree g c') g g'.
Proof.
  intros Hne Hmv Hs Ho Hc Hc'.
  assert (Hcli : forall o x, g_clis g c = Live o -> x <> c' ->
    put (put (g_clis g) c (Live (mkCli None None no_fns))) c' (Live o) (ren c c' x) = g_clis g x).
  { intros o x Hl Hx. unfold ren. destruct (Nat.eqb_spec x c) as [->|Hn]; [rewrite put_same; auto|].
    rewrite !put_other by assumption. reflexivity. }
  assert (Hses : forall s, g_ses g s = ren_ses c c' (g_ses g s)).
  { intros s. destruct (g_ses g s) as [|x|] eqn:Es; try reflexivity. cbn. rewrite r_other by apply (Hc _ _ Es). destruct x; reflexivity. }
  assert (Hnot : forall s x, g_ses g s = Live x -> s_cli x <> c' /\ own_tree g c' <> Some (s_tree x)) by (intros s x; apply Hc').
  assert (Hown : forall x o t, x <> c' -> g_clis g x = Live o -> c_tree o = Some t -> own_tree g c' <> Some t).
  { intros x o t Hx Hl Ht He. unfold own_tree in He. destruct (g_clis g c') as [|o'|] eqn:Ec; try discriminate.
    apply Hx. exact (or_own _ Ho _ _ _ _ _ Hl Ec Ht He). }
  assert (Hborn : forall t, own_tree g c' = Some t -> g_trees g t <> Unborn).
  { intros t He. unfold own_tree in He. destruct (g_clis g c') as [|o'|] eqn:Ec; try discriminate. exact (or_born _ Ho _ _ _ Ec He). }
  destruct Hmv as [-> | ->]; cbn [l_step] in Hs.
  - destruct (g_clis g c) as [|o|] eqn:Ec, (g_clis g c') as [|o'|] eqn:Ec'; try discriminate. injection Hs as <-.
    constructor; cbn [g_clis g_trees g_ses g_trace set_clis]; auto.
  - destruct (g_clis g c) as [|o|] eqn:Ec, (g_clis g c') as [|o'|] eqn:Ec'; try discriminate.
    apply Nat.eqb_neq in Hne. rewrite Hne in Hs. injection Hs as <-.
    assert (Hot : own_tree g c' = c_tree o') by (unfold own_tree; rewrite Ec'; reflexivity).
    constructor; cbn [g_clis g_trees g_ses g_trace set_clis set_trees]; auto.
    + intros t Hd. rewrite Hot in Hd. destruct (c_tree o') as [d|]; [apply put_other; congruence|reflexivity].
    + intros t Hd. split; [|auto]. apply grown_drop, Hborn, Hd.
Qed.
Lemma move_transparent c c' pre rs g g' mv post : c <> c' -> mv = LMove c c' \/ mv = LAssign c c' ->
  run pre g_init = LEnd rs g -> step g mv = LOk RNone g' -> unused c g -> unused c' g ->
  Forall (fun o => ~ mentions c' o) post -> Forall (fun o => forall t m, o = LMenu t m -> own_tree g c' <> Some t) post ->
  same_end (run post g) (run (map (rename c c') post) g').
Proof.
  intros Hne Hmv Hr Hs Hc Hc' H1 H2. eapply moved_run.
  - exact (moved_now _ _ _ _ _ Hne Hmv Hs (ordered_run _ _ _ _ ordered_init Hr) Hc Hc').
  - rewrite Forall_forall in H1, H2. apply Forall_forall. intros o Hi. split; [exact (H1 o Hi)|exact (H2 o Hi)].
Qed.
Lemma obeying_faults os : obeys os ->
  match run os g_init with
  | LEnd _ _ => True
  | LEIll => False
  | LEUndef => fault E fn fuel os CUndef
  | LEDeep => fault E fn fuel os CDeep
  end.
Proof.
  intros Ho. unfold obeys in Ho. destruct (v_run os v_init) as [v'|] eqn:Ev; [|congruence].
  pose proof (careful_run os _ _ _ agree_init Ev) as H. destruct (run os g_init); try exact Logic.I; try exact H;
    destruct H as (pre & s & c & post & rs & g1 & x & o & st & t & H1 & H2 & (H3 & H4 & H5 & H6 & H7) & H8);
    exists pre, s, c, post, rs, g1, x, o, st, t; repeat (split; [assumption|]); exact H8.
Qed.
End Life.

(** ** Functions *)
Lemma set_functions E fn fuel g k f :
  (forall c o, In k [KCliEnter; KCliExit; KWrong; KExcept] -> g_clis g c = Live o ->
     exists g' o', l_step E fn fuel g (LCliFn c k f) = LOk RNone g' /\ g_clis g' c = Live o' /\ c_store o' = c_store o /\ c_tree o' = c_tree o /\
       c_fns o' k = f /\ (forall j, j <> k -> c_fns o' j = c_fns o j) /\ forall i, i <> c -> g_clis g' i = g_clis g i) /\
  (forall s x, In k [KSesEnter; KSesExit] -> g_ses g s = Live x ->
     exists g' x', l_step E fn fuel g (LSesFn s k f) = LOk RNone g' /\ g_ses g' s = Live x' /\ s_hist x' = s_hist x /\ s_cur x' = s_cur x /\
       s_fns x' k = f /\ (forall j, j <> k -> s_fns x' j = s_fns x j) /\ forall i, i <> s -> g_ses g' i = g_ses g i).
Proof.
  split; intros c o Hk Hc; cbn [l_step]; rewrite Hc; do 2 eexists; (split; [reflexivity|]); cbn [set_clis set_ses g_clis g_ses]; unfold put; rewrite Nat.eqb_refl;
    (split; [reflexivity|]); cbn [c_store c_tree c_fns s_hist s_cur s_fns]; (split; [reflexivity|]); (split; [reflexivity|]);
    (split; [destruct k; cbn in Hk; intuition discriminate|]); (split; [intros j Hj; destruct j, k; try reflexivity; contradiction|]);
    (intros i Hi; destruct (Nat.eqb_spec i c); [contradiction|reflexivity]).
Qed.
