(** * Proofs about the end of the schedulers based on asio *)

From Coq Require Import Permutation.
From Verif Require Import Base SchedulerModel AsioSchedModel AsioSchedSpec AsioSchedProofs AsioEndModel AsioEndSpec.
Open Scope nat_scope.
Open Scope list_scope.

Lemma astep_queue old a s s' : astep old a s = Some s' -> a_taken s' ++ a_queue s' = a_taken s ++ a_queue s ++ submitted [a].
Proof.
  intros Hs. astart Hs; aproj; cbn [submitted flat_map app]; rewrite ?app_nil_r; rewrite ?Hqueue, <- ?app_assoc; cbn [app]; rewrite ?app_nil_r; reflexivity.
Qed.
Lemma astep_guard old a s s' : astep old a s = Some s' -> a_guard s = false -> a_guard s' = false.
Proof. intros Hs Hg. astart Hs; aproj; auto. Qed.

Lemma elift_ok x r x' : elift x r = AEOk x' -> exists s, r = Some s /\ x' = mkAEnd s (ae_phase x) (ae_dropped x).
Proof. destruct r; [|discriminate]. intros H. injection H as <-. eauto. Qed.
Lemma inside_outside t : inside t = false <-> outside t.
Proof. destruct t as [p fs]. unfold inside, outside. cbn. destruct p, fs; split; try discriminate; intuition discriminate. Qed.

Lemma in_stop_stopping t : in_stop t = true <-> stopping t.
Proof. unfold in_stop, stopping. destruct (at_pc t); intuition discriminate. Qed.
Lemma outside_busy l : (forall i t, nth_error l i = Some t -> outside t) -> list_sum (map busy l) = 0.
Proof.
  induction l as [|t l IH]; intros H; [reflexivity|]. destruct (H 0 t eq_refl) as (Hp & Hf). cbn [map list_sum fold_right].
  change (busy t + list_sum (map busy l) = 0). rewrite IH by (intros i t' Hi; exact (H (S i) t' Hi)). unfold busy, aflight. rewrite Hp, Hf. reflexivity.
Qed.

Section Asio.
Context (old owned : bool).

(** One step: on the context, or the end. *)
Inductive estep_kind (a : eact) (x x' : aend) : Prop :=
| k_ctx b : as_ctx a = Some b -> astep old b (ae_s x) = Some (ae_s x') -> ae_phase x' = ae_phase x -> ae_dropped x' = ae_dropped x ->
    (ae_phase x = AEnded -> owned = false) -> estep_kind a x x'
| k_begin i : a = EDestroy i -> owned = true -> ae_phase x = AUsable -> x' = mkAEnd (drop_guard (ae_s x)) (AEnding i) (ae_dropped x) -> estep_kind a x x'
| k_leave i : a = EDestroy i -> owned = false -> ae_phase x = AUsable -> x' = mkAEnd (ae_s x) AEnded (ae_dropped x) -> estep_kind a x x'
| k_delete i : a = EDelete -> ae_phase x = AEnding i -> existsb inside (a_thr (ae_s x)) = false -> a_guard (ae_s x) = false -> x' = delete_context x -> estep_kind a x x'.
Lemma estep_cases a x x' : estep old owned a x = AEOk x' -> estep_kind a x x'.
Proof.
  intros H. destruct a as [b|i j|i h|i|]; unfold estep in H; cbn [as_ctx] in H.
  4:{ destruct (a_user i (ae_s x)); [|discriminate]. cbn [negb] in H. destruct (ae_phase x) eqn:Hp; try discriminate.
      destruct (existsb in_stop (a_thr (ae_s x))); [discriminate|]. destruct owned eqn:Ho; injection H as <-.
      - eapply k_begin; eauto. - eapply k_leave; eauto. }
  4:{ destruct (ae_phase x) eqn:Hp; try discriminate. destruct (existsb inside (a_thr (ae_s x))) eqn:Hi; [discriminate|].
      destruct (a_guard (ae_s x)) eqn:Hg; [discriminate|]. injection H as <-. eapply k_delete; eauto. }
  all: destruct (ae_phase x) as [|k|] eqn:Hp;
    [apply elift_ok in H as (s & Hs & ->); eapply k_ctx; cbn [as_ctx ae_s ae_phase ae_dropped]; eauto; congruence
    |destruct (negb _); [discriminate|]; destruct (astep old _ (ae_s x)) as [s|] eqn:Hs; [|discriminate];
     try (destruct (of_sched b); [discriminate|]); apply elift_ok in H as (s' & Hs' & ->); injection Hs' as <-;
     eapply k_ctx; cbn [as_ctx ae_s ae_phase ae_dropped]; eauto; congruence
    |destruct (astep old _ (ae_s x)) as [s|] eqn:Hs; [|discriminate]; destruct owned eqn:Ho; [discriminate|];
     try (destruct (of_sched b); [discriminate|]); apply elift_ok in H as (s' & Hs' & ->); injection Hs' as <-;
     eapply k_ctx; cbn [as_ctx ae_s ae_phase ae_dropped]; eauto].
Qed.

Definition e_inv (x : aend) : Prop :=
  aflight_inv (ae_s x) /\
  match ae_phase x with
  | AUsable => ae_dropped x = []
  | AEnding _ => owned = true /\ ae_dropped x = [] /\ a_guard (ae_s x) = false
  | AEnded => if owned then a_queue (ae_s x) = [] /\ a_flight (ae_s x) = [] /\ (forall i t, nth_error (a_thr (ae_s x)) i = Some t -> outside t) /\ a_ops (ae_s x) = 0 else ae_dropped x = []
  end.
Lemma drop_guard_same s : a_queue (drop_guard s) = a_queue s /\ a_taken (drop_guard s) = a_taken s /\ a_log (drop_guard s) = a_log s /\ a_thr (drop_guard s) = a_thr s /\
  a_guard (drop_guard s) = false.
Proof. unfold drop_guard. destruct (a_guard s) eqn:Hg; auto. Qed.

Lemma no_inside s : existsb inside (a_thr s) = false -> forall i t, nth_error (a_thr s) i = Some t -> outside t.
Proof.
  intros H i t Hi. apply inside_outside. destruct (inside t) eqn:He; [|reflexivity].
  assert (existsb inside (a_thr s) = true) by (apply existsb_exists; exists t; split; [eapply nth_error_In; exact Hi|exact He]). congruence.
Qed.
Lemma estep_inv a x x' : e_inv x -> estep old owned a x = AEOk x' ->
  e_inv x' /\ a_taken (ae_s x') ++ ae_dropped x' ++ a_queue (ae_s x') = (a_taken (ae_s x) ++ ae_dropped x ++ a_queue (ae_s x)) ++ e_submitted [a].
Proof.
  intros [F I] H. destruct (estep_cases a x x' H) as [b Hb Hs Hp Hd Hc|i -> Ho Hp ->|i -> Ho Hp ->|i -> Hp Hi Hg ->].
  - assert (Sub : submitted [b] = e_submitted [a]) by (destruct a; cbn [as_ctx] in Hb; try discriminate; injection Hb as <-; reflexivity).
    pose proof (astep_queue _ _ _ _ Hs) as Q. rewrite Sub in Q.
    assert (D : ae_dropped x = []).
    { destruct (ae_phase x); [exact I|exact (proj1 (proj2 I))|]. rewrite (Hc eq_refl) in I. exact I. }
    split; [|rewrite Hd, D; cbn [app]; rewrite Q, app_assoc; reflexivity].
    split; [eapply astep_flight; eassumption|]. rewrite Hp, Hd. destruct (ae_phase x) eqn:Ep; [exact I| |].
    + destruct I as (H1 & H2 & H3). split; [exact H1|]. split; [exact H2|]. eapply astep_guard; eassumption.
    + rewrite (Hc eq_refl) in *. exact I.
  - destruct (drop_guard_same (ae_s x)) as (G1 & G2 & G3 & G4 & G5). rewrite Hp in I. split; [split|].
    + unfold aflight_inv, abegun, a_flight in *. cbn [ae_s]. rewrite G2, G3, G4. exact F.
    + cbn [ae_phase ae_dropped ae_s]. auto.
    + cbn [ae_s ae_dropped e_submitted flat_map]. rewrite G1, G2, app_nil_r. reflexivity.
  - rewrite Hp in I. split; [split; [exact F|]|].
    + cbn [ae_phase ae_dropped]. rewrite Ho. exact I.
    + cbn [ae_s ae_dropped e_submitted flat_map]. rewrite app_nil_r. reflexivity.
  - rewrite Hp in I. destruct I as (Ho & D & _). pose proof (no_inside _ Hi) as Out. split; [split|].
    + exact F.
    + cbn [delete_context ae_phase ae_s a_queue]. rewrite Ho. split; [reflexivity|]. split; [|split; [exact Out|reflexivity]].
      unfold a_flight. cbn [a_thr]. clear -Out. induction (a_thr (ae_s x)) as [|t l IH]; [reflexivity|]. cbn [flat_map].
      destruct (Out 0 t eq_refl) as [Hu _]. unfold aflight. rewrite Hu. apply IH. intros i t' Hi. exact (Out (S i) t' Hi).
    + cbn [delete_context ae_s a_taken ae_dropped a_queue e_submitted flat_map]. rewrite D. cbn [app]. rewrite !app_nil_r. reflexivity.
Qed.
Lemma erun_inv l : forall x x', e_inv x -> erun old owned l x = AEOk x' ->
  e_inv x' /\ a_taken (ae_s x') ++ ae_dropped x' ++ a_queue (ae_s x') = (a_taken (ae_s x) ++ ae_dropped x ++ a_queue (ae_s x)) ++ e_submitted l.
Proof.
  induction l as [|a l IH]; intros x x' I H; cbn [erun] in H; [injection H as <-; split; [exact I|cbn; rewrite app_nil_r; reflexivity]|].
  destruct (estep old owned a x) as [x1| |] eqn:Hs; try discriminate. destruct (estep_inv a x x1 I Hs) as [I1 Q1]. destruct (IH x1 x' I1 H) as [I2 Q2].
  split; [exact I2|]. rewrite Q2, Q1, <- app_assoc. f_equal. unfold e_submitted. cbn [flat_map]. rewrite app_nil_r. reflexivity.
Qed.
Lemma e_init_inv ops n : e_inv (e_init owned ops n).
Proof. split; [|reflexivity]. exact (areach_flight old owned ops n [] _ eq_refl). Qed.
Lemma ereach_inv ops n l x : ereaches old owned ops n l x ->
  e_inv x /\ a_taken (ae_s x) ++ ae_dropped x ++ a_queue (ae_s x) = e_submitted l.
Proof. intros H. exact (erun_inv l _ x (e_init_inv ops n) H). Qed.
End Asio.

(** The context of an application does not notice. *)
Lemma borrowed old l : forall s d, (forall a, In a l -> context_only a) ->
  erun old false l (mkAEnd s AEnded d) = match arun old (on_context l) s with Some s' => AEOk (mkAEnd s' AEnded d) | None => AENo end.
Proof.
  induction l as [|a l IH]; intros s d H; [reflexivity|]. pose proof (H a (or_introl eq_refl)) as Ha. cbn [erun].
  assert (Hl : forall b, In b l -> context_only b) by (intros b Hb; apply H; right; exact Hb).
  destruct a as [b|i j|i h|i|]; cbn [context_only] in Ha; try contradiction; unfold on_context; cbn [flat_map app arun estep as_ctx ae_phase ae_s];
    (match goal with |- context [astep old ?b s] => destruct (astep old b s) as [s'|] eqn:Hs end; [|reflexivity]); cbn [elift ae_phase ae_dropped];
    try exact (IH s' d Hl).
  assert (of_sched b = false) as -> by (destruct b as [i c| | | |]; try reflexivity; destruct c; try contradiction; reflexivity).
  cbn [elift ae_phase ae_dropped]. exact (IH s' d Hl).
Qed.

(** Until the destructor begins, the context is as in AsioSchedModel.v. *)
Lemma usable_run old owned l : forall x x', ae_phase x = AUsable -> erun old owned l x = AEOk x' -> ae_phase x' = AUsable -> arun old (on_context l) (ae_s x) = Some (ae_s x').
Proof.
  assert (Mono : forall l x x', erun old owned l x = AEOk x' -> ae_phase x' = AUsable -> ae_phase x = AUsable).
  { clear l. induction l as [|a l IH]; intros x x' H Hp; cbn [erun] in H; [congruence|]. destruct (estep old owned a x) as [x1| |] eqn:Hs; try discriminate.
    pose proof (IH _ _ H Hp) as H1. destruct (estep_cases _ _ _ _ _ Hs) as [b Hb _ Hq _ _|i _ _ Hq ->|i _ _ Hq ->|i _ Hq _ _ ->]; try congruence; cbn in H1; discriminate. }
  induction l as [|a l IH]; intros x x' Hp H Hp'; cbn [erun] in H; [injection H as <-; reflexivity|].
  destruct (estep old owned a x) as [x1| |] eqn:Hs; try discriminate. pose proof (Mono _ _ _ H Hp') as H1.
  destruct (estep_cases _ _ _ _ _ Hs) as [b Hb Ha _ _ _|i _ _ _ ->|i _ _ _ ->|i _ _ _ _ ->]; try (cbn in H1; discriminate).
  specialize (IH _ _ H1 H Hp'). destruct a; cbn [as_ctx] in Hb; try discriminate; injection Hb as <-; unfold on_context; cbn [flat_map app arun]; rewrite Ha; exact IH.
Qed.
Lemma guard_given_up old ops n e l x i x' : ereaches old true ops n l x -> ae_phase x = AUsable -> stopper e (on_context l) ->
  estep old true (EDestroy i) x = AEOk x' -> a_work (ae_s x') = Z.of_nat (left (ae_s x')).
Proof.
  intros H Hp He Hs. pose proof (usable_run old true l (e_init true ops n) x eq_refl H Hp) as Hr.
  destruct (areach_stop_inv old true ops n e (on_context l) (ae_s x) Hr He) as (Hw & _).
  unfold estep in Hs. destruct (a_user i (ae_s x)); [|discriminate]. cbn [negb] in Hs. rewrite Hp in Hs.
  destruct (existsb in_stop (a_thr (ae_s x))) eqn:Hin; [discriminate|]. injection Hs as <-. cbn [ae_s].
  assert (Hst : stage2 e (a_thr (ae_s x)) = false).
  { unfold stage2. destruct (nth_error (a_thr (ae_s x)) e) as [t|] eqn:Ht; [|reflexivity]. destruct (at_pc t) eqn:Hq; try reflexivity.
    assert (existsb in_stop (a_thr (ae_s x)) = true) by (apply existsb_exists; exists t; split; [eapply nth_error_In; exact Ht|unfold in_stop; rewrite Hq; reflexivity]). congruence. }
  unfold held in Hw. rewrite Hst, andb_true_r in Hw. unfold drop_guard, left in *. destruct (a_guard (ae_s x)); cbn [aset_guard work_finished a_work a_ops a_queue a_thr]; lia.
Qed.
