(** * Proofs about the schedulers based on asio *)

From Verif Require Import Base SchedulerModel SchedulerSpec SchedulerProofs AsioSchedModel AsioSchedSpec.
Open Scope nat_scope.
Open Scope list_scope.

(** ** Runs *)
Lemma arun_app old l l' s s1 : arun old l s = Some s1 -> arun old (l ++ l') s = arun old l' s1.
Proof. revert s. induction l as [|a l IH]; intros s H; cbn [arun app] in *; [congruence|]. destruct (astep old a s); [|discriminate]. apply IH, H. Qed.
Lemma arun_split old l l' s s2 : arun old (l ++ l') s = Some s2 -> exists s1, arun old l s = Some s1 /\ arun old l' s1 = Some s2.
Proof.
  revert s. induction l as [|a l IH]; intros s H; cbn [arun app] in *; [eauto|]. destruct (astep old a s) as [s1|]; [|discriminate]. apply IH, H.
Qed.
Lemma areach_ind old s0 (P : list aact -> asched -> Prop) : P [] s0 ->
  (forall l a s s', arun old l s0 = Some s -> P l s -> astep old a s = Some s' -> P (l ++ [a]) s') ->
  forall l s, arun old l s0 = Some s -> P l s.
Proof.
  intros H0 Hs l. induction l as [|a l IH] using rev_ind; intros s H; [cbn in H; congruence|].
  destruct (arun_split _ _ _ _ _ H) as (s1 & H1 & H2). cbn [arun] in H2. destruct (astep old a s1) as [s2|] eqn:Ha; [|discriminate].
  injection H2 as <-. exact (Hs _ _ _ _ H1 (IH _ H1) Ha).
Qed.

Ltac apick := match goal with H : context[match nth_error ?l ?i with _ => _ end] |- _ => destruct (nth_error l i) as [t|] eqn:Hi; [|discriminate] end.
(** The cases of a step, with the thread [mkAThr p fs] that makes it. *)
Ltac acases Hs :=
  repeat match type of Hs with
    | context[if Z.eqb ?x 0 then _ else _] => destruct (Z.eqb x 0) eqn:Hwork
    | context[if a_stopped ?s then _ else _] => destruct (a_stopped s) eqn:Hstop
    | context[match atake ?s with _ => _ end] => unfold atake in Hs; destruct (a_queue s) as [|j0 q0] eqn:Hqueue
    | context[if j_call ?j then _ else _] => destruct (j_call j) eqn:Hcall
    | context[match ?h with HRun => _ | _ => _ end] => destruct h
    end.
Ltac astart Hs :=
  match type of Hs with astep _ ?a _ = _ => destruct a as [i c|i|i|i|j] end; cbn [astep] in Hs;
  [apick; match goal with t : athread |- _ => destruct t as [p fs] end; cbn [at_pc at_frames] in *; match goal with p : apc |- _ => destruct p end; try discriminate; injection Hs as <-; match goal with c : acall |- _ => destruct c as [j| |h| | |] end; cbn [acalled at_frames] in *
  |apick; match goal with t : athread |- _ => destruct t as [p fs] end; unfold ago in Hs; cbn [at_pc at_frames] in *; match goal with p : apc |- _ => destruct p as [|h|h|h j| | | |] end; try discriminate; acases Hs; try discriminate; injection Hs as <-
  |apick; match goal with t : athread |- _ => destruct t as [p fs] end; cbn [at_pc at_frames] in *; match goal with p : apc |- _ => destruct p end; try discriminate; match goal with fs : list how |- _ => destruct fs as [|h fs]; [discriminate|] end; injection Hs as <-; unfold adone; match goal with h : how |- _ => destruct h end
  |apick; match goal with t : athread |- _ => destruct t as [p fs] end; cbn [at_pc at_frames] in *; match goal with p : apc |- _ => destruct p end; try discriminate; match goal with fs : list how |- _ => destruct fs as [|h fs]; [discriminate|] end; injection Hs as <-
  |destruct (a_ops _) as [|n0] eqn:Hops; [discriminate|]; injection Hs as <-].
Ltac aproj := unfold athrown, aret, alog, aset_thr, aset_stopped, aset_guard, aset_ops, aqueue, work_started, work_finished in *;
  cbn [a_queue a_stopped a_work a_guard a_ops a_thr a_taken a_log] in *.

(** ** The queue *)
Lemma submitted_app l l' : submitted (l ++ l') = submitted l ++ submitted l'.
Proof. apply flat_map_app. Qed.
Lemma areach_queue old owned ops n l s : areaches old owned ops n l s -> a_taken s ++ a_queue s = submitted l.
Proof.
  apply (areach_ind old _ (fun l s => a_taken s ++ a_queue s = submitted l)); [reflexivity|]. clear l s. intros l a s s' _ IH Hs. rewrite submitted_app.
  astart Hs; aproj; cbn [submitted flat_map]; rewrite ?app_nil_r; rewrite <- ?IH, ?Hqueue, <- ?app_assoc; reflexivity.
Qed.

(** ** Tasks taken and started *)
Lemma abegun_app a b : abegun_of (a ++ b) = abegun_of a ++ abegun_of b.
Proof. apply flat_map_app. Qed.
Lemma aflights_put l i t x : nth_error l i = Some t -> exists a b, flat_map aflight l = a ++ aflight t ++ b /\ flat_map aflight (put i x l) = a ++ aflight x ++ b.
Proof.
  intros H. destruct (put_split l i t H) as (a & b & -> & _ & Hp). exists (flat_map aflight a), (flat_map aflight b). rewrite Hp, !flat_map_app. split; reflexivity.
Qed.
Lemma aflights_same l i t x : nth_error l i = Some t -> aflight x = aflight t -> flat_map aflight (put i x l) = flat_map aflight l.
Proof. intros H Hx. destruct (aflights_put l i t x H) as (a & b & -> & ->). rewrite Hx. reflexivity. Qed.
Definition aflight_inv (s : asched) : Prop := Permutation (a_taken s) (abegun s ++ a_flight s).
Lemma astep_flight old a s s' : aflight_inv s -> astep old a s = Some s' -> aflight_inv s'.
Proof.
  unfold aflight_inv, abegun, a_flight. intros IH Hs.
  astart Hs; aproj; rewrite ?abegun_app; cbn [abegun_of flat_map]; rewrite ?app_nil_r;
    try (erewrite aflights_same; [exact IH|exact Hi|reflexivity]); try exact IH;
    try (erewrite aflights_same; [exact IH|exact Hi|destruct (a_guard s && negb old); reflexivity]).
  - match goal with |- context[put i ?x _] => destruct (aflights_put _ _ _ x Hi) as (u & v & E1 & E2) end; rewrite E2; rewrite E1 in IH; cbn [aflight at_pc app] in *;
    rewrite IH, <- app_assoc; apply Permutation_app_head; etransitivity; [|apply Permutation_middle]; symmetry; apply Permutation_cons_append.
  - match goal with |- context[put i ?x _] => destruct (aflights_put _ _ _ x Hi) as (u & v & E1 & E2) end; rewrite E2; rewrite E1 in IH; cbn [aflight at_pc app] in *;
    rewrite IH, <- app_assoc; apply Permutation_app_head; cbn [app]; symmetry; apply Permutation_middle.
  - match goal with |- context[put i ?x _] => destruct (aflights_put _ _ _ x Hi) as (u & v & E1 & E2) end; rewrite E2; rewrite E1 in IH; cbn [aflight at_pc app] in *;
    rewrite IH, <- app_assoc; apply Permutation_app_head; cbn [app]; symmetry; apply Permutation_middle.
Qed.
Lemma ainit_thr owned ops n i t : nth_error (a_thr (asched_init owned ops n)) i = Some t -> t = mkAThr QUser [].
Proof. cbn. intros H. apply nth_error_In, repeat_spec in H. exact H. Qed.
Lemma areach_flight old owned ops n l s : areaches old owned ops n l s -> aflight_inv s.
Proof.
  apply (areach_ind old _ (fun _ s => aflight_inv s)); [|intros ? a ? ? _ H; exact (astep_flight _ _ _ _ H)].
  unfold aflight_inv, a_flight, abegun. cbn. induction n as [|n IH]; [constructor|exact IH].
Qed.

(** ** One executing thread *)
Definition aplain (t : athread) : Prop :=
  at_frames t = [] /\ match at_pc t with QEnter _ | QIn _ | QTaken _ _ => False | _ => True end.
Definition asolo (e : nat) (s : asched) : Prop :=
  (forall j t, nth_error (a_thr s) j = Some t -> j <> e -> aplain t) /\
  a_taken s = abegun s ++ match nth_error (a_thr s) e with Some t => aflight t | None => [] end.
Lemma areach_solo old owned ops n e l s : areaches old owned ops n l s -> aexecutor e l -> asolo e s.
Proof.
  apply (areach_ind old _ (fun l s => aexecutor e l -> asolo e s)).
  { intros _. split.
    - intros j t H _. apply ainit_thr in H as ->. split; [reflexivity|exact Logic.I].
    - cbn. destruct (nth_error _ e) eqn:H; [apply (ainit_thr owned ops) in H as ->|]; reflexivity. }
  clear l s. intros l a s s' _ IH Hs He.
  assert (He' : aexecutor e l) by (intros j h H; apply (He j h), in_or_app; left; exact H).
  specialize (IH He') as (H1 & H2).
  assert (Hl : forall j h, a = BCall j (DRun h) -> j = e) by (intros j h ->; apply (He j h), in_or_app; right; left; reflexivity).
  clear He He'. unfold asolo, abegun in *.
  (* threads other than [e] *)
  assert (Hn : forall i x, (i <> e -> aplain x) -> forall j t, nth_error (put i x (a_thr s)) j = Some t -> j <> e -> aplain t).
  { intros i x Hx j t Ht Hj. apply put_nth in Ht as [(-> & ->)|(_ & Ht)]; [exact (Hx Hj)|exact (H1 _ _ Ht Hj)]. }
  assert (Hf : forall i t x, nth_error (a_thr s) i = Some t -> aflight x = aflight t ->
    match nth_error (put i x (a_thr s)) e with Some t => aflight t | None => [] end = match nth_error (a_thr s) e with Some t => aflight t | None => [] end).
  { intros i t x Hi Hx. destruct (Nat.eq_dec i e) as [->|Hne]; [rewrite (put_same _ _ _ _ Hi), Hi; exact Hx|rewrite put_other by exact Hne; reflexivity]. }
  astart Hs; aproj; rewrite ?abegun_app; cbn [abegun_of flat_map]; rewrite ?app_nil_r;
    try (split; [exact H1|exact H2]);
    try (pose proof (Hl _ _ eq_refl) as ->);
    try (split; [apply Hn; let N := fresh in intros N; try contradiction; destruct (H1 _ _ Hi N) as (U & V); cbn [at_frames at_pc] in U, V;
                   first [(destruct V; fail)|discriminate U|split; [exact U|cbn [at_pc]; try destruct (a_guard s && negb old); exact Logic.I]]
                |rewrite (Hf _ _ _ Hi); [exact H2|unfold aflight; cbn [at_pc]; try destruct (a_guard s && negb old); reflexivity]]; fail).
  (* only [e] takes and starts tasks *)
  all: destruct (Nat.eq_dec i e) as [->|Hne]; [|destruct (H1 _ _ Hi Hne) as (_ & [])].
  all: split; [apply Hn; let H := fresh in intros H; contradiction|].
  all: rewrite (put_same _ _ _ _ Hi); rewrite Hi in H2; rewrite H2; unfold aflight at 1; cbn [at_pc]; rewrite ?app_nil_r; reflexivity.
Qed.

(** ** Outstanding work *)
Lemma busy_put l i t x : nth_error l i = Some t -> list_sum (map busy (put i x l)) + busy t = list_sum (map busy l) + busy x.
Proof.
  intros H. destruct (put_split l i t H) as (a & b & -> & _ & Hp). rewrite Hp, !map_app, !list_sum_app. cbn [map list_sum fold_right]. unfold list_sum. cbn [fold_right]. lia.
Qed.
Lemma init_busy n : list_sum (map busy (repeat (mkAThr QUser []) n)) = 0.
Proof. induction n as [|n IH]; [reflexivity|exact IH]. Qed.
Ltac abusy Hi := match goal with |- context[put ?i ?x ?l] => let B := fresh "B" in pose proof (busy_put l i _ x Hi) as B; unfold busy at 2 4 in B; cbn [aflight at_pc at_frames length] in B end.

(** With an own context that nobody stops. *)
Definition at_work (s : asched) : Prop :=
  a_stopped s = false /\ a_guard s = true /\ a_work s = Z.of_nat (S (left s)) /\
  (forall i t, nth_error (a_thr s) i = Some t -> match at_pc t with QStop0 | QStop1 | QStop2 | QStop3 => False | _ => True end) /\
  (forall i, ~ returned i HRun s).
Lemma areach_work old ops n l s : areaches old true ops n l s -> never_stopped l -> at_work s.
Proof.
  apply (areach_ind old _ (fun l s => never_stopped l -> at_work s)).
  { intros _. unfold at_work, left. cbn [asched_init a_stopped a_guard a_work a_ops a_queue a_thr length]. rewrite init_busy. repeat split; [f_equal; lia| |intros i []].
    intros i t H. apply (ainit_thr true ops) in H as ->. exact Logic.I. }
  clear l s. intros l a s s' _ IH Hs He.
  assert (He' : never_stopped l) by (intros i; split; intros H; [apply (proj1 (He i))|apply (proj2 (He i))]; apply in_or_app; left; exact H).
  specialize (IH He') as (H1 & H2 & H3 & H4 & H5).
  assert (Hl : forall i, a <> BCall i DStop /\ a <> BCall i DCtxStop) by (intros i; split; intros ->; [apply (proj1 (He i))|apply (proj2 (He i))]; apply in_or_app; right; left; reflexivity).
  clear He He'.
  assert (Hn : forall i x, match at_pc x with QStop0 | QStop1 | QStop2 | QStop3 => False | _ => True end -> forall j t, nth_error (put i x (a_thr s)) j = Some t -> match at_pc t with QStop0 | QStop1 | QStop2 | QStop3 => False | _ => True end).
  { intros i x Hx j t Ht. apply put_nth in Ht as [(-> & ->)|(_ & Ht)]; [exact Hx|exact (H4 _ _ Ht)]. }
  assert (Hr : forall e, (forall i, e <> QRet i HRun) -> forall i, ~ In (QRet i HRun) (a_log s ++ [e])).
  { intros e Hx i H. apply in_app_or in H as [H|[H|[]]]; [exact (H5 i H)|exact (Hx i H)]. }
  assert (Hz : forall x m, x = Z.of_nat (S (S m)) -> Z.eqb (x - 1) 0 = false) by (intros x m ->; apply Z.eqb_neq; lia).
  unfold at_work, left, returned in *.
  astart Hs; try (destruct (proj1 (Hl i) eq_refl); fail); try (destruct (proj2 (Hl i) eq_refl); fail); try (destruct (H4 _ _ Hi); fail);
    try congruence; try (apply Z.eqb_eq in Hwork; lia);
    aproj; repeat match goal with |- _ /\ _ => split end;
    try assumption; try reflexivity;
    try (apply Hn; exact Logic.I);
    try (apply Hr; intros; congruence);
    try (abusy Hi; rewrite ?Hqueue in *; cbn [length] in *; rewrite ?app_length; cbn [length]; lia);
    try (rewrite ?app_length; cbn [length]; lia).
  all: try (rewrite H1; cbn [orb]; pose proof (busy_put _ _ _ (mkAThr QUser fs) Hi) as B; unfold busy at 2 4 in B; cbn [aflight at_pc at_frames length] in B; apply (Hz _ (a_ops s + length (a_queue s) + list_sum (map busy (put i (mkAThr QUser fs) (a_thr s))))); rewrite H3; f_equal; lia).
  intros i0 Hx. apply in_app_or in Hx as [Hx|[Hx|[]]]; [|discriminate Hx]. revert Hx. apply Hr. intros; discriminate.
Qed.

(** With the application's context. *)
Lemma areach_left old ops n l s : areaches old false ops n l s -> a_guard s = false /\ a_work s = Z.of_nat (left s) /\
  (forall i t, nth_error (a_thr s) i = Some t -> match at_pc t with QStop1 | QStop2 => False | _ => True end).
Proof.
  apply (areach_ind old _ (fun l s => a_guard s = false /\ a_work s = Z.of_nat (left s) /\
    (forall i t, nth_error (a_thr s) i = Some t -> match at_pc t with QStop1 | QStop2 => False | _ => True end))).
  { unfold left. cbn [asched_init a_stopped a_guard a_work a_ops a_queue a_thr length]. rewrite init_busy. repeat split; [f_equal; lia|].
    intros i t H. apply (ainit_thr false ops) in H as ->. exact Logic.I. }
  clear l s. intros l a s s' _ (H1 & H2 & H3) Hs.
  assert (Hn : forall i x, match at_pc x with QStop1 | QStop2 => False | _ => True end -> forall j t, nth_error (put i x (a_thr s)) j = Some t -> match at_pc t with QStop1 | QStop2 => False | _ => True end).
  { intros i x Hx j t Ht. apply put_nth in Ht as [(-> & ->)|(_ & Ht)]; [exact Hx|exact (H3 _ _ Ht)]. }
  unfold left in *. astart Hs; try (destruct (H3 _ _ Hi); fail);
    aproj; try rewrite H1 in *; cbn [andb] in *; repeat match goal with |- _ /\ _ => split end; try assumption; try reflexivity;
    try (apply Hn; exact Logic.I);
    try (abusy Hi; rewrite ?Hqueue in *; cbn [length] in *; rewrite ?app_length; cbn [length]; lia);
    try (rewrite ?app_length; cbn [length]; lia).
Qed.
(** It stops by itself only when nothing is left. *)
Lemma astep_stops old a s s' : astep old a s = Some s' -> a_stopped s = false -> a_stopped s' = true ->
  a_work s = 0%Z \/ a_work s' = 0%Z \/ (exists i, a = BCall i DCtxStop) \/ exists i t, a = BGo i /\ nth_error (a_thr s) i = Some t /\ at_pc t = QStop3.
Proof.
  intros Hs H1 H2. astart Hs; aproj; try congruence; rewrite ?H1 in H2; cbn [orb] in H2; try (apply Z.eqb_eq in H2; auto).
  all: try (apply Z.eqb_eq in Hwork; auto).
  - right. right. left. eexists. reflexivity.
  - right. right. right. eexists i, _. split; [reflexivity|split; [exact Hi|reflexivity]].
  - right. left. cbn in H2. rewrite H1 in H2. apply Z.eqb_eq in H2. exact H2.
  - right. left. cbn in H2. rewrite H1 in H2. apply Z.eqb_eq in H2. exact H2.
  - right. left. cbn in H2. rewrite H1 in H2. apply Z.eqb_eq in H2. exact H2.
Qed.

(** ** After a stop *)
Lemma astep_stopped old a s s' : astep old a s = Some s' -> (forall i, a <> BCall i DRestart) -> a_stopped s = true -> a_stopped s' = true /\ a_taken s' = a_taken s.
Proof.
  intros Hs Hn H1. astart Hs; aproj; try congruence; rewrite ?H1; try (split; [first [exact H1|reflexivity]|reflexivity]).
  - destruct (Hn i eq_refl).
  - auto.
Qed.
Lemma arun_stopped old l : forall s s', arun old l s = Some s' -> no_restart l -> a_stopped s = true -> a_stopped s' = true /\ a_taken s' = a_taken s.
Proof.
  induction l as [|a l IH]; intros s s' H Hn H1; cbn [arun] in H; [injection H as <-; auto|]. destruct (astep old a s) as [s1|] eqn:Ha; [|discriminate].
  assert (Hs : a_stopped s1 = true /\ a_taken s1 = a_taken s) by (apply (astep_stopped old a); [exact Ha|intros i ->; apply (Hn i); left; reflexivity|exact H1]).
  destruct Hs as (H2 & <-). apply (IH _ _ H); [|exact H2]. intros i Hx. apply (Hn i). right. exact Hx.
Qed.
Lemma astep_log old a s s' : astep old a s = Some s' -> exists new, a_log s' = a_log s ++ new.
Proof.
  intros Hs. astart Hs; aproj; try (exists []; rewrite app_nil_r; reflexivity); try (eexists; reflexivity). eexists. rewrite <- app_assoc. reflexivity.
Qed.
Lemma arun_log old l : forall s s', arun old l s = Some s' -> exists new, a_log s' = a_log s ++ new.
Proof.
  induction l as [|a l IH]; intros s s' H; cbn [arun] in H; [injection H as <-; exists []; rewrite app_nil_r; reflexivity|]. destruct (astep old a s) as [s1|] eqn:Ha; [|discriminate].
  destruct (IH _ _ H) as (n1 & ->). destruct (astep_log _ _ _ _ Ha) as (n2 & ->). eexists. rewrite <- app_assoc. reflexivity.
Qed.
Lemma aflight_run old l : forall s s', aflight_inv s -> arun old l s = Some s' -> aflight_inv s'.
Proof.
  induction l as [|a l IH]; intros s s' Hf H; cbn [arun] in H; [injection H as <-; exact Hf|]. destruct (astep old a s) as [s1|] eqn:Ha; [|discriminate].
  exact (IH _ _ (astep_flight _ _ _ _ Hf Ha) H).
Qed.
Lemma stopped_begun old owned ops n l0 l s s' : areaches old owned ops n l0 s -> a_stopped s = true -> arun old l s = Some s' -> no_restart l ->
  exists new, abegun s' = abegun s ++ new /\ Permutation (new ++ a_flight s') (a_flight s).
Proof.
  intros H0 H1 Hr Hn. destruct (arun_stopped _ _ _ _ Hr Hn H1) as (_ & Ht). destruct (arun_log _ _ _ _ Hr) as (new & Hl).
  exists (abegun_of new). unfold abegun at 1. rewrite Hl, abegun_app. split; [reflexivity|].
  pose proof (areach_flight _ _ _ _ _ _ H0) as P1. pose proof (aflight_run _ _ _ _ P1 Hr) as P2. unfold aflight_inv in *. rewrite Ht, P1 in P2.
  unfold abegun in P2 at 2. rewrite Hl, abegun_app, <- app_assoc in P2. apply Permutation_app_inv_l in P2. symmetry. exact P2.
Qed.

(** ** Steps in the scheduler *)
Lemma aquiet old s : (forall i, astep old (BGo i) s = None) -> forall i t, nth_error (a_thr s) i = Some t ->
  at_pc t = QUser \/ (waits t /\ a_queue s = [] /\ a_stopped s = false).
Proof.
  intros H i t Hi. specialize (H i). cbn [astep] in H. rewrite Hi in H. destruct t as [p fs]. unfold ago in H. cbn [at_pc at_frames] in *.
  destruct p; try discriminate; auto.
  - destruct (Z.eqb _ 0); discriminate.
  - destruct (a_stopped s); [discriminate|]. unfold atake in H. destruct (a_queue s); [|discriminate]. right. unfold waits. cbn [at_pc]. destruct h; try discriminate; auto.
  - destruct (j_call j); discriminate.
Qed.
Definition aweight (t : athread) : nat :=
  match at_pc t with QUser => 0 | QEnter _ => 3 | QIn _ => 2 | QTaken _ _ => 1 | QStop0 => 4 | QStop1 => 3 | QStop2 => 2 | QStop3 => 1 end.
Lemma weight_put l i t x : nth_error l i = Some t -> list_sum (map aweight (put i x l)) + aweight t = list_sum (map aweight l) + aweight x.
Proof.
  intros H. destruct (put_split l i t H) as (a & b & -> & _ & Hp). rewrite Hp, !map_app, !list_sum_app. cbn [map list_sum fold_right]. unfold list_sum. cbn [fold_right]. lia.
Qed.
Lemma ago_weight old i s s' : astep old (BGo i) s = Some s' -> list_sum (map aweight (a_thr s')) < list_sum (map aweight (a_thr s)).
Proof.
  intros Hs. cbn [astep] in Hs. apick. destruct t as [p fs]. unfold ago in Hs. cbn [at_pc at_frames] in Hs.
  destruct p as [|h|h|h j| | | |]; try discriminate; acases Hs; try discriminate; injection Hs as <-; aproj;
    match goal with |- context[put i ?x ?l] => pose proof (weight_put l i _ x Hi) as B end; unfold aweight at 2 4 in B; cbn [at_pc] in B; try lia.
  destruct (a_guard s && negb old); cbn in B; lia.
Qed.
Lemma agoes_bounded old is : forall s s', arun old (agoes is) s = Some s' -> length is + list_sum (map aweight (a_thr s')) <= list_sum (map aweight (a_thr s)).
Proof.
  induction is as [|i is IH]; intros s s' H; cbn [agoes map arun] in H; [injection H as <-; cbn; lia|].
  destruct (astep old (BGo i) s) as [s1|] eqn:Ha; [|discriminate]. apply ago_weight in Ha. specialize (IH _ _ H). cbn [length]. lia.
Qed.
Lemma weight_bound l : list_sum (map aweight l) <= 4 * length l.
Proof. induction l as [|[p fs] l IH]; [cbn; lia|]. cbn [map length]. change (list_sum (?a :: ?b)) with (a + list_sum b). unfold aweight at 1. cbn [at_pc]. destruct p; lia. Qed.
Lemma ago_length old is : forall s s', arun old is s = Some s' -> length (a_thr s') = length (a_thr s).
Proof.
  induction is as [|a is IH]; intros s s' H; cbn [arun] in H; [injection H as <-; reflexivity|]. destruct (astep old a s) as [s1|] eqn:Ha; [|discriminate].
  rewrite (IH _ _ H). clear - Ha. astart Ha; aproj; rewrite ?put_length; reflexivity.
Qed.

(** ** The application's context stops by itself when nothing is left *)
Lemma areach_nostop old owned ops n l s : areaches old owned ops n l s -> never_stopped l ->
  forall i t, nth_error (a_thr s) i = Some t -> match at_pc t with QStop0 | QStop1 | QStop2 | QStop3 => False | _ => True end.
Proof.
  apply (areach_ind old _ (fun l s => never_stopped l -> forall i t, nth_error (a_thr s) i = Some t -> match at_pc t with QStop0 | QStop1 | QStop2 | QStop3 => False | _ => True end)).
  { intros _ i t H. apply (ainit_thr owned ops) in H as ->. exact Logic.I. }
  clear l s. intros l a s s' _ IH Hs He.
  assert (He' : never_stopped l) by (intros i; split; intros H; [apply (proj1 (He i))|apply (proj2 (He i))]; apply in_or_app; left; exact H).
  specialize (IH He'). assert (Hl : forall i, a <> BCall i DStop) by (intros i ->; apply (proj1 (He i)); apply in_or_app; right; left; reflexivity). clear He He'.
  assert (Hn : forall i x, match at_pc x with QStop0 | QStop1 | QStop2 | QStop3 => False | _ => True end -> forall j t, nth_error (put i x (a_thr s)) j = Some t -> match at_pc t with QStop0 | QStop1 | QStop2 | QStop3 => False | _ => True end).
  { intros i x Hx j t Ht. apply put_nth in Ht as [(-> & ->)|(_ & Ht)]; [exact Hx|exact (IH _ _ Ht)]. }
  astart Hs; try (destruct (Hl i eq_refl); fail); try (destruct (IH _ _ Hi); fail); aproj; try exact IH; apply Hn; exact Logic.I.
Qed.
Lemma areach_idle old ops n l s : areaches old false ops n l s -> never_stopped l -> a_stopped s = true ->
  exists l1 l2 s1, l = l1 ++ l2 /\ areaches old false ops n l1 s1 /\ left s1 = 0.
Proof.
  intros H. revert H. apply (areach_ind old _ (fun l s => never_stopped l -> a_stopped s = true -> exists l1 l2 s1, l = l1 ++ l2 /\ areaches old false ops n l1 s1 /\ left s1 = 0)).
  { intros _ Hx. discriminate Hx. }
  clear l s. intros l a s s' Hr IH Hs He H1.
  assert (He' : never_stopped l) by (intros i; split; intros H; [apply (proj1 (He i))|apply (proj2 (He i))]; apply in_or_app; left; exact H).
  assert (Hl : forall i, a <> BCall i DCtxStop) by (intros i ->; apply (proj2 (He i)); apply in_or_app; right; left; reflexivity).
  destruct (a_stopped s) eqn:H0.
  - destruct (IH He' eq_refl) as (l1 & l2 & s1 & -> & Hr1 & Hz). exists l1, (l2 ++ [a]), s1. rewrite app_assoc. auto.
  - destruct (astep_stops old a s s' Hs H0 H1) as [Hz|[Hz|[(i & ->)|(i & t & -> & Hi & Hp)]]].
    + exists l, [a], s. split; [reflexivity|]. split; [exact Hr|]. destruct (areach_left _ _ _ _ _ Hr) as (_ & Hw & _). lia.
    + assert (Hr' : areaches old false ops n (l ++ [a]) s') by (unfold areaches; rewrite (arun_app _ _ _ _ _ Hr); cbn [arun]; rewrite Hs; reflexivity).
      exists (l ++ [a]), [], s'. rewrite app_nil_r. split; [reflexivity|]. split; [exact Hr'|]. destruct (areach_left _ _ _ _ _ Hr') as (_ & Hw & _). lia.
    + destruct (Hl i eq_refl).
    + pose proof (areach_nostop _ _ _ _ _ _ Hr He' i t Hi) as Hx. rewrite Hp in Hx. destruct Hx.
Qed.

(** ** [ExecOne] runs a task before it returns *)
Definition frames_of (h : how) (t : athread) : nat := length (filter (fun f => match f, h with HRun, HRun | HExec, HExec | HPoll, HPoll => true | _, _ => false end) (at_frames t)).
Definition exec_inv (i : nat) (s : asched) : Prop :=
  exec_rets i (a_log s) + match nth_error (a_thr s) i with Some t => frames_of HExec t | None => 0 end <= begun_by i (a_log s).
Lemma exec_rets_app i a b : exec_rets i (a ++ b) = exec_rets i a + exec_rets i b.
Proof. unfold exec_rets. rewrite filter_app, app_length. reflexivity. Qed.
Lemma begun_by_app i a b : begun_by i (a ++ b) = begun_by i a + begun_by i b.
Proof. unfold begun_by. rewrite filter_app, app_length. reflexivity. Qed.
Lemma areach_exec old ops n l s e : areaches old true ops n l s -> never_stopped l -> exec_inv e s.
Proof.
  apply (areach_ind old _ (fun l s => never_stopped l -> exec_inv e s)).
  { intros _. unfold exec_inv. cbn [asched_init a_log]. destruct (nth_error _ e) eqn:H; [apply (ainit_thr true ops) in H as ->|]; cbn; lia. }
  clear l s. intros l a s s' Hr IH Hs He.
  assert (He' : never_stopped l) by (intros i; split; intros H; [apply (proj1 (He i))|apply (proj2 (He i))]; apply in_or_app; left; exact H).
  specialize (IH He'). destruct (areach_work _ _ _ _ _ Hr He') as (H1 & _ & H3 & H4 & _). clear He He' Hr. unfold exec_inv in *.
  astart Hs; try congruence; try (apply Z.eqb_eq in Hwork; lia); aproj; rewrite ?exec_rets_app, ?begun_by_app; try exact IH;
    (destruct (Nat.eq_dec i e) as [->|Hne]; [rewrite (put_same _ _ _ _ Hi); rewrite Hi in IH|rewrite put_other by exact Hne; apply Nat.eqb_neq in Hne]);
    unfold frames_of in *; cbn [at_frames filter length] in *;
    unfold exec_rets, begun_by in *; cbn [filter length] in *; rewrite ?Nat.eqb_refl, ?Hne; cbn [length]; try lia.
  all: try (destruct h; cbn [length] in *; lia).
Qed.

(** ** Exceptions *)
Lemma areach_exc old owned ops n l s e : areaches old owned ops n l s ->
  excs_by e false (a_log s) = throws_by e l /\ excs_by e true (a_log s) = empties_by e (a_log s).
Proof.
  apply (areach_ind old _ (fun l s => excs_by e false (a_log s) = throws_by e l /\ excs_by e true (a_log s) = empties_by e (a_log s))); [split; reflexivity|].
  clear l s. intros l a s s' _ (H1 & H2) Hs. unfold excs_by, throws_by, empties_by in *.
  astart Hs; aproj; rewrite ?filter_app, ?app_length; cbn [filter length Bool.eqb andb negb]; rewrite ?Hcall, ?andb_false_r, ?andb_true_r; cbn [length negb andb];
    rewrite ?andb_false_r, ?andb_true_r; try (destruct (Nat.eqb i e)); cbn [length]; split; lia.
Qed.

(** ** One thread stops *)
Definition stage2 (e : nat) (l : list athread) : bool :=
  match nth_error l e with Some t => match at_pc t with QStop2 => true | _ => false end | None => false end.
Definition held (e : nat) (s : asched) : bool := a_guard s && negb (stage2 e (a_thr s)).
Lemma held_spec e s : held e s = true <-> guarding e s.
Proof.
  unfold held, stage2, guarding. rewrite andb_true_iff, negb_true_iff. destruct (nth_error (a_thr s) e) as [t|]; split.
  - intros (H1 & H2). split; [exact H1|]. intros t' Ht. injection Ht as <-. destruct (at_pc t); congruence.
  - intros (H1 & H2). split; [exact H1|]. specialize (H2 t eq_refl). destruct (at_pc t); congruence.
  - intros (H1 & _). split; [exact H1|]. intros t Ht. discriminate Ht.
  - intros (H1 & _). auto.
Qed.
Definition stop_inv (e : nat) (s : asched) : Prop :=
  a_work s = (Z.of_nat (left s) + if held e s then 1 else 0)%Z /\
  (forall j t, nth_error (a_thr s) j = Some t -> match at_pc t with QStop0 | QStop3 => j = e | QStop1 | QStop2 => j = e /\ a_guard s = true | _ => True end).
Lemma areach_stop_inv old owned ops n e l s : areaches old owned ops n l s -> stopper e l -> stop_inv e s.
Proof.
  apply (areach_ind old _ (fun l s => stopper e l -> stop_inv e s)).
  { intros _. split.
    - unfold left, held, stage2. cbn [asched_init a_work a_ops a_queue a_thr a_guard length]. rewrite init_busy.
      destruct (nth_error _ e) eqn:H; [apply (ainit_thr owned ops) in H as ->|]; cbn [at_pc negb]; rewrite andb_true_r; destruct owned; lia.
    - intros j t H. apply (ainit_thr owned ops) in H as ->. exact Logic.I. }
  clear l s. intros l a s s' _ IH Hs He.
  assert (He' : stopper e l) by (intros j H; apply He, in_or_app; left; exact H).
  assert (Hl : forall j, a = BCall j DStop -> j = e) by (intros j ->; apply He, in_or_app; right; left; reflexivity).
  specialize (IH He') as (H1 & H2). clear He He'.
  unfold stop_inv.
  assert (Hn : forall i x g, (g = a_guard s \/ forall j t, nth_error (a_thr s) j = Some t -> j <> i -> match at_pc t with QStop1 | QStop2 => False | _ => True end) ->
    match at_pc x with QStop0 | QStop3 => i = e | QStop1 | QStop2 => i = e /\ g = true | _ => True end ->
    forall j t, nth_error (put i x (a_thr s)) j = Some t -> match at_pc t with QStop0 | QStop3 => j = e | QStop1 | QStop2 => j = e /\ g = true | _ => True end).
  { intros i x g Hg Hx j t Ht. apply put_nth in Ht as [(-> & ->)|(Hne & Ht)]; [exact Hx|]. pose proof (H2 _ _ Ht) as H. destruct Hg as [->|Hg]; [exact H|].
    specialize (Hg _ _ Ht). destruct (at_pc t); auto; destruct Hg; auto. }
  assert (Hp : forall i t x, nth_error (a_thr s) i = Some t -> stage2 e (put i x (a_thr s)) = (if Nat.eqb i e then match at_pc x with QStop2 => true | _ => false end else stage2 e (a_thr s))).
  { intros i t x Hi. unfold stage2. destruct (Nat.eqb_spec i e) as [->|Hne]; [rewrite (put_same _ _ _ _ Hi)|rewrite put_other by exact Hne]; reflexivity. }
  assert (Hq : forall i t, nth_error (a_thr s) i = Some t -> at_pc t <> QStop2 -> Nat.eqb i e = true -> stage2 e (a_thr s) = false).
  { intros i t Hi Ht Heq. apply Nat.eqb_eq in Heq as ->. unfold stage2. rewrite Hi. destruct (at_pc t); congruence. }
  assert (Hd : forall s, held e s = a_guard s && negb (stage2 e (a_thr s))) by reflexivity.
  rewrite Hd in *. unfold left in *.
  astart Hs; aproj; (split; [|try exact H2]);
    try (rewrite ?app_length; cbn [length]; lia).
  (* the count *)
  all: try (abusy Hi; rewrite (Hp _ _ _ Hi); cbn [at_pc]; rewrite ?Hqueue, ?app_length in *; cbn [length] in *;
            destruct (Nat.eqb i e) eqn:Hie; [first [rewrite (Hq _ _ Hi) in H1 by (cbn [at_pc]; congruence)|idtac]|]; destruct (a_guard s); cbn [negb andb] in *; lia).
  (* the threads *)
  all: try (apply (Hn _ _ (a_guard s)); [left; reflexivity|cbn [at_pc]; try exact Logic.I; try (apply (Hl _ eq_refl)); try (exact (H2 _ _ Hi)); try (exact (proj1 (H2 _ _ Hi)))]; fail).
  - pose proof (H2 _ _ Hi) as ->. abusy Hi. rewrite (Hp _ _ _ Hi), Nat.eqb_refl. rewrite (Hq _ _ Hi) in H1 by (try apply Nat.eqb_refl; discriminate).
    destruct (a_guard s), old; cbn [negb andb at_pc] in *; unfold aflight in B; cbn [at_pc length] in B; lia.
  - pose proof (H2 _ _ Hi) as ->. apply (Hn _ _ (a_guard s)); [left; reflexivity|]. cbn [at_pc]. destruct (a_guard s), old; cbn [negb andb]; auto.
  - destruct (H2 _ _ Hi) as (-> & Hg). abusy Hi. rewrite (Hp _ _ _ Hi), Nat.eqb_refl. rewrite (Hq _ _ Hi) in H1 by (try apply Nat.eqb_refl; discriminate).
    rewrite Hg in *. cbn [at_pc negb andb] in *. lia.
  - destruct (H2 _ _ Hi) as (-> & Hg). abusy Hi. cbn [andb]. unfold stage2 in H1. rewrite Hi in H1. cbn [at_pc negb] in H1. rewrite andb_false_r in H1. lia.
  - destruct (H2 _ _ Hi) as (-> & Hg). apply Hn; [|reflexivity]. right. intros j t Ht Hne. pose proof (H2 _ _ Ht) as H. destruct (at_pc t); auto; destruct H as (H & _); contradiction.
Qed.
Lemma areach_stopper old owned ops n e l s : areaches old owned ops n l s -> stopper e l ->
  (guarding e s /\ a_work s = Z.of_nat (S (left s))) \/ (~ guarding e s /\ a_work s = Z.of_nat (left s)).
Proof.
  intros H He. destruct (areach_stop_inv _ _ _ _ _ _ _ H He) as (H1 & _). pose proof (held_spec e s) as Hx. destruct (held e s); [left|right]; (split; [|lia]).
  - apply Hx. reflexivity.
  - intros Hy. apply (proj2 Hx) in Hy. discriminate Hy.
Qed.

(** ** Every call ends once *)
Lemma areach_calls old owned ops n l s e : areaches old owned ops n l s -> forall hh,
  run_calls e hh l = run_ends e hh (a_log s) + match nth_error (a_thr s) e with Some t => run_inside hh t | None => 0 end.
Proof.
  apply (areach_ind old _ (fun l s => forall hh, run_calls e hh l = run_ends e hh (a_log s) + match nth_error (a_thr s) e with Some t => run_inside hh t | None => 0 end)).
  { intros hh. cbn [asched_init a_log]. destruct (nth_error _ e) eqn:H; [apply (ainit_thr owned ops) in H as ->|]; reflexivity. }
  clear l s. intros l a s s' _ IH Hs. unfold run_calls, run_ends in *.
  astart Hs; intros hh; specialize (IH hh); aproj; rewrite ?filter_app, ?app_length; cbn [filter length]; rewrite ?andb_false_r; cbn [length]; try lia.
  all: try (destruct (Nat.eq_dec i e) as [->|Hne]; [rewrite (put_same _ _ _ _ Hi); rewrite Hi in IH|rewrite put_other by exact Hne; apply Nat.eqb_neq in Hne]);
    unfold run_inside in *; cbn [at_pc at_frames filter length] in *; rewrite ?Nat.eqb_refl, ?Hne; cbn [andb length]; try lia.
  all: try (match goal with |- context[how_eqb ?a ?b] => destruct (how_eqb a b) end; cbn [length] in *; lia).
  destruct (a_guard s && negb old); lia.
Qed.
