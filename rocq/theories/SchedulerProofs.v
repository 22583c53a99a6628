(** * Proofs about the scheduler *)

From Verif Require Import Base SchedulerModel SchedulerSpec.

Lemma put_split {A} (l : list A) : forall i t, nth_error l i = Some t ->
  exists a b, l = a ++ t :: b /\ length a = i /\ forall x, put i x l = a ++ x :: b.
Proof.
  induction l as [|y l IH]; intros [|i] t H; try discriminate; cbn in H.
  - injection H as ->. exists [], l. repeat split.
  - destruct (IH i t H) as (a & b & -> & <- & Hp). exists (y :: a), b. repeat split. intros x. cbn [put app]. f_equal. apply Hp.
Qed.
Lemma put_same {A} i (x t : A) l : nth_error l i = Some t -> nth_error (put i x l) i = Some x.
Proof. revert i. induction l as [|y l IH]; intros [|i] H; try discriminate; cbn in *; [reflexivity|apply IH, H]. Qed.
Lemma put_other {A} i j (x : A) l : i <> j -> nth_error (put i x l) j = nth_error l j.
Proof. revert i j. induction l as [|y l IH]; intros [|i] [|j] H; try reflexivity; try contradiction; cbn. apply IH. congruence. Qed.
Lemma put_length {A} i (x : A) l : length (put i x l) = length l.
Proof. revert i. induction l as [|y l IH]; intros [|i]; try reflexivity. cbn. f_equal. apply IH. Qed.
Lemma put_nth {A} i (x : A) l j t : nth_error (put i x l) j = Some t -> (i = j /\ t = x) \/ (i <> j /\ nth_error l j = Some t).
Proof.
  intros H. destruct (Nat.eq_dec i j) as [->|Hne].
  - left. split; [reflexivity|]. destruct (nth_error l j) as [y|] eqn:Hy; [rewrite (put_same _ _ _ _ Hy) in H; congruence|].
    apply nth_error_None in Hy. assert (Hl : length (put j x l) <= j) by (rewrite put_length; exact Hy). apply nth_error_None in Hl. congruence.
  - right. rewrite put_other in H by exact Hne. auto.
Qed.

Definition holding (p : pc) : bool :=
  match p with
  | PPost1 _ | PPost2 | PPost3 | PStop1 | PStop2 | PStop3 | PStopped1 | PExec1 _ | PExecF _ | PExec2 _ _ | PPoll1 | PPollF | PPoll2 _ => true
  | _ => false
  end.

(** The cases of a step of a thread. *)
Definition kind (a : act) : nat := match a with ACall i _ | AGo i | ASpurious i | AReturn i | AThrow i => i end.

Definition mutex (s : sched) : Prop :=
  (forall i t, nth_error (s_thr s) i = Some t -> (holding (th_pc t) = true <-> s_mtx s = Some i)) /\
  (forall i, s_mtx s = Some i -> i < length (s_thr s)).

Lemma wake_pc t : holding (th_pc (wake t)) = holding (th_pc t).
Proof. destruct t as [[]]; reflexivity. Qed.

(** A step changes a thread and the lock in step. *)
Lemma mutex_put (s s' : sched) i t p fs m : mutex s -> nth_error (s_thr s) i = Some t ->
  (s_thr s' = put i (mkThr p fs) (s_thr s) \/ s_thr s' = put i (mkThr p fs) (map wake (s_thr s))) -> s_mtx s' = m ->
  (holding p = true -> m = Some i) -> (holding p = false -> m <> Some i) ->
  (m = s_mtx s \/ (s_mtx s = None /\ m = Some i) \/ (s_mtx s = Some i /\ m = None)) -> mutex s'.
Proof.
  intros (H1 & H2) Hi Ht Hm Hp1 Hp2 Hc.
  assert (Hn : forall j t', nth_error (s_thr s') j = Some t' -> (i = j /\ t' = mkThr p fs) \/ (i <> j /\ exists t'', nth_error (s_thr s) j = Some t'' /\ holding (th_pc t') = holding (th_pc t''))).
  { intros j t' Hj. destruct Ht as [Ht|Ht]; rewrite Ht in Hj; apply put_nth in Hj as [(<- & ->)|(Hne & Hj)]; auto; right; split; try exact Hne.
    - exists t'. auto.
    - rewrite nth_error_map in Hj. destruct (nth_error (s_thr s) j) as [t0|]; [|discriminate]. injection Hj as <-. exists t0. split; [reflexivity|apply wake_pc]. }
  assert (Hl : length (s_thr s') = length (s_thr s)) by (destruct Ht as [-> | ->]; rewrite put_length, ?map_length; reflexivity).
  assert (Hil : i < length (s_thr s)) by (apply nth_error_Some; congruence).
  split.
  - intros j t' Hj. rewrite Hm. destruct (Hn _ _ Hj) as [(<- & ->)|(Hne & t'' & Hj' & Hh)].
    + cbn [th_pc]. split; [exact Hp1|]. intros Hs. destruct (holding p); [reflexivity|]. exfalso. exact (Hp2 eq_refl Hs).
    + rewrite Hh, (H1 _ _ Hj'). destruct Hc as [->|[(-> & ->)|(-> & ->)]]; [reflexivity| |]; split; intros Hx; try discriminate; injection Hx; intros; contradiction.
  - intros j Hj. rewrite Hl. rewrite Hm in Hj. destruct Hc as [->|[(_ & ->)|(_ & ->)]]; [apply H2, Hj| |discriminate]. injection Hj as <-. exact Hil.
Qed.

Ltac pick := match goal with H : context[match nth_error ?l ?i with _ => _ end] |- _ => destruct (nth_error l i) as [t|] eqn:Hi; [|discriminate] end.
Lemma step_mutex a s s' : mutex s -> sched_step a s = Some s' -> mutex s'.
Proof.
  intros Hm Hs. assert (Hmi : forall i t, nth_error (s_thr s) i = Some t -> (holding (th_pc t) = true <-> s_mtx s = Some i)) by apply Hm.
  destruct a as [i c|i|i|i|i]; cbn [sched_step] in Hs; pick; specialize (Hmi _ _ Hi); destruct t as [p fs]; cbn [th_pc th_frames] in *.
  - destruct p; try discriminate. injection Hs as <-. eapply (mutex_put s _ i); try eassumption; try (left; reflexivity); try reflexivity; cbn [set_thr s_mtx]; [destruct c; discriminate|].
    intros _ Hx. apply Hmi in Hx. discriminate.
  - unfold go in Hs. cbn [th_pc th_frames] in Hs.
    destruct p; try discriminate;
    repeat match type of Hs with
    | context[match s_mtx s with _ => _ end] => destruct (s_mtx s) as [m|] eqn:Hmx; [discriminate|]
    | context[if s_running s then _ else _] => destruct (s_running s)
    | context[match pop s with _ => _ end] => unfold pop in Hs; destruct (s_tasks s)
    | context[if j_call ?j then _ else _] => destruct (j_call j)
    end; injection Hs as <-;
    (eapply (mutex_put s _ i); [exact Hm|exact Hi|first [left; reflexivity|right; reflexivity]|reflexivity| | |]);
    cbn [set_thr set_mtx add_log notify_all push stop_running ret s_mtx holding] in *; try discriminate; try reflexivity; try congruence;
    try (intros _; apply Hmi; reflexivity); try (left; reflexivity); try (right; left; split; [congruence|reflexivity]); try (right; right; split; [apply Hmi; reflexivity|reflexivity]).
    all: try (intros _ Hx; apply Hmi in Hx; discriminate).
    all: try (destruct c; discriminate).
    all: try (destruct c; cbn; intros _ Hx; apply Hmi in Hx; discriminate).
  - destruct p; try discriminate. injection Hs as <-. eapply (mutex_put s _ i); try eassumption; try (left; reflexivity); try reflexivity; cbn [set_thr s_mtx]; [discriminate|].
    intros _ Hx. apply Hmi in Hx. discriminate.
  - destruct p; try discriminate. destruct fs as [|f fs]; [discriminate|]. injection Hs as <-. unfold ret. eapply (mutex_put s _ i); try eassumption; try (left; reflexivity); try reflexivity; cbn [set_thr add_log s_mtx].
    + destruct f as [[]|]; discriminate.
    + intros _ Hx. apply Hmi in Hx. discriminate.
  - destruct p; try discriminate. destruct fs as [|f fs]; [discriminate|]. injection Hs as <-. eapply (mutex_put s _ i); try eassumption; try (left; reflexivity); try reflexivity; cbn [set_thr s_mtx]; [discriminate|].
    intros _ Hx. apply Hmi in Hx. discriminate.
Qed.

(** ** Every step, seen from its thread *)
Ltac cases_go Hs :=
  repeat match type of Hs with
    | context[match s_mtx ?s with _ => _ end] => let m := fresh "m" in destruct (s_mtx s) as [m|] eqn:Hmx; [discriminate|]
    | context[if s_running ?s then _ else _] => destruct (s_running s) eqn:Hrun
    | context[match pop ?s with _ => _ end] => unfold pop in Hs; destruct (s_tasks s) eqn:Htasks
    | context[if j_call ?j then _ else _] => destruct (j_call j) eqn:Hcall
    end.
Lemma begun_app a b : begun_of (a ++ b) = begun_of a ++ begun_of b.
Proof. apply flat_map_app. Qed.
Lemma wake_flight t : flight (wake t) = flight t.
Proof. destruct t as [[]]; reflexivity. Qed.
Lemma wake_flights l : flat_map flight (map wake l) = flat_map flight l.
Proof. induction l as [|t l IH]; [reflexivity|]. cbn [map flat_map]. rewrite wake_flight, IH. reflexivity. Qed.
Lemma flights_put l i t x : nth_error l i = Some t -> exists a b, flat_map flight l = a ++ flight t ++ b /\ flat_map flight (put i x l) = a ++ flight x ++ b.
Proof.
  intros H. destruct (put_split l i t H) as (a & b & -> & _ & Hp). exists (flat_map flight a), (flat_map flight b). rewrite Hp, !flat_map_app. split; reflexivity.
Qed.

Definition queue_inv (s : sched) : Prop := s_taken s ++ s_tasks s = map snd (s_posted s).
Definition flight_inv (s : sched) : Prop := Permutation (s_taken s) (begun s ++ in_flight s).

Lemma ret_begun i f b fs s : begun (ret i f b fs s) = begun s.
Proof. unfold begun, ret, add_log. cbn [s_log]. rewrite begun_app. destruct f as [[]|], b; cbn; apply app_nil_r. Qed.
Lemma put_flight_same s i t x m : nth_error (s_thr s) i = Some t -> flight x = flight t ->
  (m = s_thr s \/ m = map wake (s_thr s)) -> flat_map flight (put i x m) = in_flight s.
Proof.
  intros Hi Hf Hm. unfold in_flight.
  assert (Hm' : exists t', nth_error m i = Some t' /\ flight t' = flight t /\ flat_map flight m = flat_map flight (s_thr s)).
  { destruct Hm as [->| ->]; [exists t; auto|]. exists (wake t). rewrite nth_error_map, Hi. split; [reflexivity|]. split; [apply wake_flight|apply wake_flights]. }
  destruct Hm' as (t' & Hi' & Hf' & Hm'). destruct (flights_put m i t' x Hi') as (a & b & H1 & H2). rewrite H2, <- Hm', H1, Hf, Hf'. reflexivity.
Qed.

Lemma step_queue a s s' : queue_inv s -> sched_step a s = Some s' -> queue_inv s'.
Proof.
  unfold queue_inv. intros Hq Hs. destruct a as [i c|i|i|i|i]; cbn [sched_step] in Hs; pick; destruct t as [p fs]; cbn [th_pc th_frames] in *.
  1,3,4,5: destruct p; try discriminate; try (destruct fs; [discriminate|]); injection Hs as <-; exact Hq.
  unfold go in Hs. cbn [th_pc th_frames] in Hs. destruct p; try discriminate; cases_go Hs; injection Hs as <-;
    cbn [set_thr set_mtx add_log notify_all push stop_running ret s_taken s_tasks s_posted] in *; try exact Hq; rewrite ?map_app, <- ?Hq, ?Htasks, <- ?app_assoc; reflexivity.
Qed.

Lemma take_perm s s' i t x j : flight_inv s -> nth_error (s_thr s) i = Some t -> s_taken s' = s_taken s ++ [j] -> begun s' = begun s ->
  s_thr s' = put i x (s_thr s) -> flight x = [j] -> flight t = [] -> flight_inv s'.
Proof.
  unfold flight_inv. intros Hq Hi Ht Hb Hth Hx Hf. unfold in_flight in *. destruct (flights_put (s_thr s) i t x Hi) as (a & b & H1 & H2). rewrite Ht, Hb, Hth, H2, Hx. rewrite H1, Hf in Hq.
  rewrite Hq. cbn [app]. rewrite <- app_assoc. apply Permutation_app_head. etransitivity; [|apply Permutation_middle]. symmetry. apply Permutation_cons_append.
Qed.
Lemma start_perm s s' i t x j : flight_inv s -> nth_error (s_thr s) i = Some t -> s_taken s' = s_taken s -> begun s' = begun s ++ [j] ->
  s_thr s' = put i x (s_thr s) -> flight x = [] -> flight t = [j] -> flight_inv s'.
Proof.
  unfold flight_inv. intros Hq Hi Ht Hb Hth Hx Hf. unfold in_flight in *. destruct (flights_put (s_thr s) i t x Hi) as (a & b & H1 & H2). rewrite Ht, Hb, Hth, H2, Hx. rewrite H1, Hf in Hq.
  rewrite Hq. cbn [app]. rewrite <- app_assoc. apply Permutation_app_head. cbn [app]. symmetry. apply Permutation_middle.
Qed.

Lemma step_flight a s s' : flight_inv s -> sched_step a s = Some s' -> flight_inv s'.
Proof.
  intros Hq Hs. destruct a as [i c|i|i|i|i]; cbn [sched_step] in Hs; pick; destruct t as [p fs]; cbn [th_pc th_frames] in *.
  - destruct p; try discriminate. injection Hs as <-. unfold flight_inv, in_flight. cbn [set_thr s_taken s_thr]. rewrite (put_flight_same s i _ _ (s_thr s) Hi); [exact Hq|destruct c; reflexivity|left; reflexivity].
  - unfold go in Hs. cbn [th_pc th_frames] in Hs. destruct p; try discriminate; cases_go Hs; injection Hs as <-.
    all: try (unfold flight_inv; rewrite ?ret_begun; unfold in_flight, begun; cbn [set_thr set_mtx add_log notify_all push stop_running ret s_taken s_thr s_log];
      rewrite (put_flight_same s i _ _ _ Hi); [exact Hq|first [reflexivity|destruct c; reflexivity]|first [left; reflexivity|right; reflexivity]]; fail).
    + eapply take_perm; [exact Hq|exact Hi|reflexivity|reflexivity|reflexivity|reflexivity|reflexivity].
    + eapply start_perm; [exact Hq|exact Hi|reflexivity|unfold begun; cbn [add_log set_thr s_log]; exact (begun_app _ [SBegin i j])|reflexivity|reflexivity|reflexivity].
    + eapply start_perm; [exact Hq|exact Hi|reflexivity|rewrite ret_begun; unfold begun; cbn [add_log set_thr s_log]; exact (begun_app _ [SBegin i j])|reflexivity|destruct c; reflexivity|reflexivity].
    + eapply take_perm; [exact Hq|exact Hi|reflexivity|reflexivity|reflexivity|reflexivity|reflexivity].
    + eapply start_perm; [exact Hq|exact Hi|reflexivity|unfold begun; cbn [add_log set_thr s_log]; exact (begun_app _ [SBegin i j])|reflexivity|reflexivity|reflexivity].
    + eapply start_perm; [exact Hq|exact Hi|reflexivity|rewrite ret_begun; unfold begun; cbn [add_log set_thr s_log]; exact (begun_app _ [SBegin i j])|reflexivity|reflexivity|reflexivity].
  - destruct p; try discriminate. injection Hs as <-. unfold flight_inv, in_flight. cbn [set_thr s_taken s_thr]. rewrite (put_flight_same s i _ _ (s_thr s) Hi); [exact Hq|apply wake_flight|left; reflexivity].
  - destruct p; try discriminate. destruct fs as [|f fs]; [discriminate|]. injection Hs as <-. unfold flight_inv. rewrite ret_begun. unfold in_flight. cbn [ret add_log set_thr s_taken s_thr].
    rewrite (put_flight_same s i _ _ (s_thr s) Hi); [exact Hq|destruct f as [[]|]; reflexivity|left; reflexivity].
  - destruct p; try discriminate. destruct fs as [|f fs]; [discriminate|]. injection Hs as <-. unfold flight_inv, in_flight. cbn [set_thr s_taken s_thr].
    rewrite (put_flight_same s i _ _ (s_thr s) Hi); [exact Hq|reflexivity|left; reflexivity].
Qed.

Lemma run_app l l' s s1 : sched_run l s = Some s1 -> sched_run (l ++ l') s = sched_run l' s1.
Proof.
  revert s. induction l as [|a l IH]; intros s H; cbn [sched_run app] in *; [congruence|]. destruct (sched_step a s); [|discriminate]. apply IH, H.
Qed.
Lemma run_inv (P : sched -> Prop) : (forall a s s', P s -> sched_step a s = Some s' -> P s') -> forall l s s', P s -> sched_run l s = Some s' -> P s'.
Proof.
  intros Hp. induction l as [|a l IH]; intros s s' H Hr; cbn [sched_run] in Hr; [congruence|]. destruct (sched_step a s) as [s1|] eqn:Hs; [|discriminate].
  exact (IH s1 s' (Hp _ _ _ H Hs) Hr).
Qed.
Lemma init_thr n i t : nth_error (s_thr (sched_init n)) i = Some t -> t = mkThr PUser [].
Proof. cbn. intros H. apply nth_error_In, repeat_spec in H. exact H. Qed.
Lemma reach_mutex n l s : reaches n l s -> mutex s.
Proof.
  apply (run_inv mutex step_mutex). split.
  - intros i t H. apply init_thr in H as ->. split; discriminate.
  - discriminate.
Qed.
Lemma reach_queue n l s : reaches n l s -> queue_inv s.
Proof. apply (run_inv queue_inv step_queue). reflexivity. Qed.
Lemma reach_flight n l s : reaches n l s -> flight_inv s.
Proof.
  apply (run_inv flight_inv step_flight). unfold flight_inv, in_flight, begun. cbn. induction n as [|n IH]; [constructor|exact IH].
Qed.

(** ** One executor *)
Definition plain (t : thread) : Prop :=
  th_frames t = [] /\ match th_pc t with
  | PUser | PPost0 _ | PPost1 _ | PPost2 | PPost3 | PStop0 | PStop1 | PStop2 | PStop3 | PStopped0 | PStopped1 => True | _ => False end.
Definition solo (e : nat) (s : sched) : Prop :=
  (forall j t, nth_error (s_thr s) j = Some t -> j <> e -> plain t) /\
  s_taken s = begun s ++ match nth_error (s_thr s) e with Some t => flight t | None => [] end.
Lemma plain_wake t : plain t -> wake t = t.
Proof. destruct t as [[] fs]; intros (_ & H); try reflexivity. destruct H. Qed.
Lemma put_map_wake i x l e : (forall j t, nth_error l j = Some t -> j <> e -> plain t) -> i = e ->
  forall j t, nth_error (put i x (map wake l)) j = Some t -> j <> e -> plain t.
Proof.
  intros H -> j t Hj Hne. apply put_nth in Hj as [(<- & _)|(_ & Hj)]; [contradiction|]. rewrite nth_error_map in Hj. destruct (nth_error l j) as [t0|] eqn:Ht; [|discriminate].
  injection Hj as <-. rewrite plain_wake; exact (H _ _ Ht Hne).
Qed.
Lemma solo_other e s s' i t x : solo e s -> nth_error (s_thr s) i = Some t -> i <> e -> plain x ->
  (s_thr s' = put i x (s_thr s) \/ s_thr s' = put i x (map wake (s_thr s))) -> s_taken s' = s_taken s -> begun s' = begun s -> solo e s'.
Proof.
  intros (H1 & H2) Hi Hne Hx Ht Hta Hb. split.
  - intros j t' Hj Hje. destruct Ht as [Ht|Ht]; rewrite Ht in Hj; apply put_nth in Hj as [(<- & ->)|(Hn & Hj)]; try exact Hx.
    + exact (H1 _ _ Hj Hje).
    + rewrite nth_error_map in Hj. destruct (nth_error (s_thr s) j) as [t0|] eqn:Ht0; [|discriminate]. injection Hj as <-. rewrite plain_wake; exact (H1 _ _ Ht0 Hje).
  - rewrite Hta, Hb, H2. f_equal. destruct Ht as [-> | ->]; rewrite put_other by exact Hne; [reflexivity|]. rewrite nth_error_map. destruct (nth_error (s_thr s) e); [|reflexivity]. cbn. symmetry. apply wake_flight.
Qed.
Lemma solo_self e s s' t x : solo e s -> nth_error (s_thr s) e = Some t ->
  (s_thr s' = put e x (s_thr s) \/ s_thr s' = put e x (map wake (s_thr s))) -> (s_taken s = begun s ++ flight t -> s_taken s' = begun s' ++ flight x) -> solo e s'.
Proof.
  intros (H1 & H2) Hi Ht Hta. rewrite Hi in H2. split.
  - intros j t' Hj Hje. destruct Ht as [Ht|Ht]; rewrite Ht in Hj.
    + apply put_nth in Hj as [(<- & _)|(_ & Hj)]; [contradiction|]. exact (H1 _ _ Hj Hje).
    + exact (put_map_wake e x (s_thr s) e H1 eq_refl j t' Hj Hje).
  - rewrite (Hta H2). f_equal. destruct Ht as [-> | ->]; erewrite put_same; try reflexivity; [exact Hi|]. rewrite nth_error_map, Hi. reflexivity.
Qed.
Lemma step_solo e a s s' : solo e s -> executor e [a] -> sched_step a s = Some s' -> solo e s'.
Proof.
  intros Hso He Hs. destruct a as [i c|i|i|i|i]; cbn [sched_step] in Hs; pick.
  - destruct t as [p fs]; cbn [th_pc th_frames] in *. destruct p; try discriminate. injection Hs as <-. specialize (He i c (or_introl eq_refl)). destruct (Nat.eq_dec i e) as [->|Hne].
    + eapply (solo_self e s _ _ _ Hso Hi); [left; reflexivity|]. intros H. cbn [set_thr s_taken]. rewrite H. destruct c; reflexivity.
    + eapply (solo_other e s _ i _ _ Hso Hi Hne); [|left; reflexivity|reflexivity|reflexivity]. destruct (proj1 Hso _ _ Hi Hne) as (Hf & _). cbn in Hf. subst fs. split; [reflexivity|].
      destruct c; try exact Logic.I; contradiction.
  - destruct (Nat.eq_dec i e) as [->|Hne].
    + destruct t as [p fs]. unfold go in Hs. cbn [th_pc th_frames] in Hs. destruct p; try discriminate; cases_go Hs; injection Hs as <-;
      (eapply (solo_self e s _ _ _ Hso Hi); [first [left; reflexivity|right; reflexivity]|]);
      unfold begun; cbn [set_thr set_mtx add_log notify_all push stop_running ret s_taken s_thr s_log flight th_pc app]; rewrite ?begun_app; cbn [begun_of flat_map app]; intros ->;
      rewrite ?app_nil_r; try reflexivity; try (destruct c; cbn; rewrite ?app_nil_r; reflexivity).
    + pose proof (proj1 Hso _ _ Hi Hne) as Hpl. destruct t as [p fs]. destruct Hpl as (Hf & Hp). cbn [th_pc th_frames] in Hf, Hp. subst fs.
      unfold go in Hs. cbn [th_pc th_frames] in Hs. destruct p; try discriminate; try contradiction; cases_go Hs; injection Hs as <-;
      (eapply (solo_other e s _ i _ _ Hso Hi Hne); [|first [left; reflexivity|right; reflexivity]|reflexivity|reflexivity]; split; [reflexivity|exact Logic.I]).
  - destruct t as [p fs]; cbn [th_pc th_frames] in *. destruct p; try discriminate. injection Hs as <-. destruct (Nat.eq_dec i e) as [->|Hne].
    + eapply (solo_self e s _ _ _ Hso Hi); [left; reflexivity|]. exact (fun H => H).
    + destruct (proj1 Hso _ _ Hi Hne) as (_ & []).
  - destruct t as [p fs]; cbn [th_pc th_frames] in *. destruct p; try discriminate. destruct fs as [|f fs]; [discriminate|]. injection Hs as <-. destruct (Nat.eq_dec i e) as [->|Hne].
    + eapply (solo_self e s _ _ _ Hso Hi); [left; reflexivity|]. rewrite ret_begun. cbn [ret add_log set_thr s_taken]. intros ->. destruct f as [[]|]; reflexivity.
    + destruct (proj1 Hso _ _ Hi Hne) as (H & _). discriminate.
  - destruct t as [p fs]; cbn [th_pc th_frames] in *. destruct p; try discriminate. destruct fs as [|f fs]; [discriminate|]. injection Hs as <-. destruct (Nat.eq_dec i e) as [->|Hne].
    + eapply (solo_self e s _ _ _ Hso Hi); [left; reflexivity|]. exact (fun H => H).
    + destruct (proj1 Hso _ _ Hi Hne) as (H & _). discriminate.
Qed.
Lemma run_solo e l : forall s s', solo e s -> executor e l -> sched_run l s = Some s' -> solo e s'.
Proof.
  induction l as [|a l IH]; intros s s' H He Hr; cbn [sched_run] in Hr; [congruence|]. destruct (sched_step a s) as [s1|] eqn:Hs; [|discriminate].
  refine (IH s1 s' _ _ Hr).
  - refine (step_solo e a s s1 H _ Hs). intros j c [->|[]]. apply (He j c). left. reflexivity.
  - intros j c Hin. apply (He j c). right. exact Hin.
Qed.
Lemma reach_solo n e l s : reaches n l s -> executor e l -> solo e s.
Proof.
  intros Hr He. refine (run_solo e l _ _ _ He Hr). split.
  - intros j t H _. apply init_thr in H as ->. split; [reflexivity|exact Logic.I].
  - cbn [sched_init s_taken]. unfold begun. cbn. destruct (nth_error _ e) as [t|] eqn:H; [|reflexivity]. apply nth_error_In, repeat_spec in H as ->. reflexivity.
Qed.

(** ** Wake-ups *)
Definition woken (s : sched) : Prop := forall i t, nth_error (s_thr s) i = Some t -> sleeping t ->
  (s_running s = true /\ s_tasks s = []) \/ exists j t', s_mtx s = Some j /\ nth_error (s_thr s) j = Some t' /\ notifying t'.
Lemma wake_awake t : ~ sleeping (wake t).
Proof. intros (c & H). destruct t as [[] fs]; discriminate. Qed.
(** A step that does not touch the queue, the flag, or only by the holder of the lock. *)
Lemma woken_keep s s' i t x : woken s -> mutex s -> nth_error (s_thr s) i = Some t -> s_thr s' = put i x (s_thr s) ->
  s_running s' = s_running s -> s_tasks s' = s_tasks s -> (s_mtx s' = s_mtx s \/ s_mtx s = None \/ s_mtx s = Some i) -> ~ notifying t ->
  (sleeping x -> sleeping t \/ (s_running s = true /\ s_tasks s = [])) -> woken s'.
Proof.
  intros Hw Hmx Hi Ht Hr Hta Hm Hn Hsx j t' Hj Hsl. rewrite Hr, Hta.
  assert (H : (s_running s = true /\ s_tasks s = []) \/ exists j t', s_mtx s = Some j /\ nth_error (s_thr s) j = Some t' /\ notifying t').
  { rewrite Ht in Hj. apply put_nth in Hj as [(<- & ->)|(_ & Hj)]; [|exact (Hw _ _ Hj Hsl)]. destruct (Hsx Hsl) as [Hs|Hs]; [exact (Hw _ _ Hi Hs)|left; exact Hs]. }
  destruct H as [H|(k & tk & Hk & Htk & Hnk)]; [left; exact H|]. right. exists k, tk.
  destruct (Nat.eq_dec k i) as [->|Hne]; [rewrite Hi in Htk; injection Htk as <-; contradiction|].
  split; [destruct Hm as [-> |[Hm|Hm]]; congruence|]. split; [|exact Hnk]. rewrite Ht, put_other by congruence. exact Htk.
Qed.
Lemma woken_none s' i x l : s_thr s' = put i x (map wake l) -> ~ sleeping x -> woken s'.
Proof.
  intros Ht Hx j t' Hj Hsl. exfalso. rewrite Ht in Hj. apply put_nth in Hj as [(_ & ->)|(_ & Hj)]; [exact (Hx Hsl)|]. rewrite nth_error_map in Hj.
  destruct (nth_error l j); [|discriminate]. injection Hj as <-. exact (wake_awake _ Hsl).
Qed.
Lemma woken_notify s' i x t l : s_thr s' = put i x l -> nth_error l i = Some t -> s_mtx s' = Some i -> notifying x -> woken s'.
Proof. intros Ht Hi Hm Hx j t' Hj Hsl. right. exists i, x. split; [exact Hm|]. split; [rewrite Ht; eapply put_same; exact Hi|exact Hx]. Qed.
(** The thread with the lock empties the queue a bit: nobody sleeps. *)
Lemma woken_pop s s' i t x : woken s -> mutex s -> nth_error (s_thr s) i = Some t -> holding (th_pc t) = true -> ~ notifying t -> s_tasks s <> [] -> s_thr s' = put i x (s_thr s) -> ~ sleeping x -> woken s'.
Proof.
  intros Hw (Hmx & _) Hi Hh Hn Hne Ht Hx j t' Hj Hsl. exfalso. rewrite Ht in Hj. apply put_nth in Hj as [(_ & ->)|(_ & Hj)]; [exact (Hx Hsl)|].
  destruct (Hw _ _ Hj Hsl) as [(_ & H)|(k & tk & Hk & Htk & Hnk)]; [contradiction|]. apply (Hmx _ _ Hi) in Hh. rewrite Hk in Hh. injection Hh as ->. rewrite Hi in Htk. injection Htk as <-. contradiction.
Qed.
Ltac nonot := let H := fresh in intros [H|H]; discriminate H.
Lemma step_woken a s s' : woken s -> mutex s -> sched_step a s = Some s' -> woken s'.
Proof.
  intros Hw Hm Hs. assert (Hmi : forall i t, nth_error (s_thr s) i = Some t -> (holding (th_pc t) = true <-> s_mtx s = Some i)) by apply Hm.
  destruct a as [i c|i|i|i|i]; cbn [sched_step] in Hs; pick; specialize (Hmi _ _ Hi); destruct t as [p fs]; cbn [th_pc th_frames] in *.
  - destruct p; try discriminate. injection Hs as <-. eapply (woken_keep s _ i _ _ Hw Hm Hi); [reflexivity|reflexivity|reflexivity|left; reflexivity|nonot|]. intros (c' & H). destruct c; discriminate.
  - unfold go in Hs. cbn [th_pc th_frames] in Hs. destruct p; try discriminate; cases_go Hs; injection Hs as <-;
    try (eapply (woken_keep s _ i _ _ Hw Hm Hi);
      [reflexivity|reflexivity|first [reflexivity|symmetry; assumption]|first [left; reflexivity|right; left; exact Hmx|right; right; apply Hmi; reflexivity]|nonot|first [intros (c' & H); discriminate H|intros (c' & H); destruct c; discriminate H|intros _; right; split; assumption]]; fail);
    try (eapply (woken_none _ i); [reflexivity|intros (c' & H); discriminate H]; fail);
    try (eapply (woken_notify _ i); [reflexivity|exact Hi|apply Hmi; reflexivity|first [left; reflexivity|right; reflexivity]]; fail);
    try (eapply (woken_pop s _ i _ _ Hw Hm Hi); [reflexivity|nonot|congruence|reflexivity|intros (c' & H); discriminate H]; fail).
  - destruct p; try discriminate. injection Hs as <-. eapply (woken_keep s _ i _ _ Hw Hm Hi); [reflexivity|reflexivity|reflexivity|left; reflexivity|nonot|]. intros (c' & H). discriminate.
  - destruct p; try discriminate. destruct fs as [|f fs]; [discriminate|]. injection Hs as <-. eapply (woken_keep s _ i _ _ Hw Hm Hi); [reflexivity|reflexivity|reflexivity|left; reflexivity|nonot|]. intros (c' & H). destruct f as [[]|]; discriminate.
  - destruct p; try discriminate. destruct fs as [|f fs]; [discriminate|]. injection Hs as <-. eapply (woken_keep s _ i _ _ Hw Hm Hi); [reflexivity|reflexivity|reflexivity|left; reflexivity|nonot|]. intros (c' & H). discriminate.
Qed.
Lemma reach_woken n l s : reaches n l s -> woken s.
Proof.
  intros Hr. assert (H : woken s /\ mutex s); [|apply H]. refine (run_inv (fun s => woken s /\ mutex s) _ l _ s _ Hr).
  - intros a s1 s2 (H1 & H2) Hs. split; [exact (step_woken a s1 s2 H1 H2 Hs)|exact (step_mutex a s1 s2 H2 Hs)].
  - split; [|exact (reach_mutex n [] _ eq_refl)]. intros i t H (c & Hc). apply init_thr in H as ->. discriminate.
Qed.

(** The holder of the lock can move. *)
Lemma holder_moves s i t : nth_error (s_thr s) i = Some t -> holding (th_pc t) = true -> exists s', sched_step (AGo i) s = Some s'.
Proof.
  intros Hi Hh. cbn [sched_step]. rewrite Hi. destruct t as [p fs]. unfold go, pop. cbn [th_pc th_frames] in *. destruct p; try discriminate; eauto; destruct (s_running s); eauto; destruct (s_tasks s); eauto.
Qed.
Lemma quiet_threads s : mutex s -> (forall i, sched_step (AGo i) s = None) -> forall i t, nth_error (s_thr s) i = Some t -> in_user t \/ sleeping t.
Proof.
  intros Hm Hq i t Hi.
  assert (Hfree : s_mtx s = None).
  { destruct (s_mtx s) as [j|] eqn:Hj; [|reflexivity]. exfalso. destruct Hm as (H1 & H2). specialize (H2 _ Hj). apply nth_error_Some in H2. destruct (nth_error (s_thr s) j) as [tj|] eqn:Htj; [|congruence].
    destruct (holder_moves s j tj Htj) as (s' & Hs); [apply (H1 _ _ Htj), Hj|]. rewrite Hq in Hs. discriminate. }
  specialize (Hq i). cbn [sched_step] in Hq. rewrite Hi in Hq. destruct t as [p fs]. unfold in_user, sleeping. unfold go in Hq. cbn [th_pc th_frames] in *. rewrite Hfree in Hq. destruct p; try discriminate; eauto.
  all: exfalso; unfold pop in Hq; destruct (s_running s), (s_tasks s); try discriminate.
  all: destruct (j_call j); discriminate.
Qed.

(** ** Steps inside the scheduler come to an end *)
Definition weight (p : pc) : nat :=
  match p with
  | PUser => 0
  | PPost0 _ => 4 | PPost1 _ => 3 | PPost2 => 2 | PPost3 => 1
  | PStop0 => 4 | PStop1 => 3 | PStop2 => 2 | PStop3 => 1
  | PStopped0 => 2 | PStopped1 => 1
  | PExec0 _ => 4 | PWoke _ => 4 | PExec1 _ => 3 | PSleep _ => 0 | PExecF _ => 1 | PExec2 _ _ => 6 | PExec3 _ _ => 5
  | PPoll0 => 4 | PPoll1 => 3 | PPollF => 1 | PPoll2 _ => 2 | PPoll3 _ => 1
  end.
Definition bell (p : pc) : nat := match p with PPost0 _ | PPost1 _ | PPost2 | PStop0 | PStop1 | PStop2 => 1 | _ => 0 end.
Definition load (p : pc) : nat := match p with PPost0 _ | PPost1 _ => 1 | _ => 0 end.
Definition cost (n : nat) (t : thread) : nat := bell (th_pc t) * (5 * n + 1) + 4 * load (th_pc t) + weight (th_pc t).
Definition total (n : nat) (l : list thread) : nat := list_sum (map (cost n) l).
Definition measure (s : sched) : nat := 4 * length (s_tasks s) + total (length (s_thr s)) (s_thr s).
Lemma total_put n l i t x : nth_error l i = Some t -> total n (put i x l) + cost n t = total n l + cost n x.
Proof.
  intros H. destruct (put_split l i t H) as (a & b & -> & _ & ->). unfold total. rewrite !map_app. cbn [map]. rewrite !list_sum_app. cbn [list_sum fold_right]. change (fold_right Nat.add 0 ?x) with (list_sum x). lia.
Qed.
Lemma total_wake n l : total n (map wake l) <= total n l + 4 * length l.
Proof.
  unfold total. induction l as [|t l IH]; [reflexivity|]. cbn [map list_sum fold_right length]. change (fold_right Nat.add 0 ?x) with (list_sum x).
  assert (cost n (wake t) <= cost n t + 4) by (destruct t as [[] fs]; unfold cost; cbn; lia). lia.
Qed.
Lemma go_decreases i s s' : sched_step (AGo i) s = Some s' -> measure s' < measure s.
Proof.
  intros Hs. cbn [sched_step] in Hs. pick. destruct t as [p fs]. unfold go in Hs. cbn [th_pc th_frames] in Hs. unfold measure.
  destruct p; try discriminate; cases_go Hs; injection Hs as <-;
    cbn [set_thr set_mtx add_log notify_all push stop_running ret s_taken s_thr s_log s_tasks]; rewrite ?put_length, ?map_length, ?app_length, ?Htasks; cbn [length];
    try (match goal with |- context[total ?n (put ?k ?x (s_thr s))] => pose proof (total_put n (s_thr s) k _ x Hi) as Hp end; unfold cost in Hp; cbn [th_pc bell load weight] in Hp; try (destruct c; cbn in Hp); lia).
  all: assert (Hiw : nth_error (map wake (s_thr s)) i = Some (mkThr _ fs)) by (rewrite nth_error_map, Hi; reflexivity).
  all: match goal with |- context[total ?n (put ?k ?x ?l)] => pose proof (total_put n l k _ x Hiw) as Hp; pose proof (total_wake n (s_thr s)) as Hw end.
  all: unfold cost in Hp; cbn [th_pc bell load weight] in Hp; lia.
Qed.
Lemma goes_bounded is : forall s s', sched_run (goes is) s = Some s' -> length is + measure s' <= measure s.
Proof.
  induction is as [|i is IH]; intros s s' H; cbn [goes map sched_run length] in *; [injection H as ->; lia|].
  destruct (sched_step (AGo i) s) as [s1|] eqn:Hs; [|discriminate]. pose proof (go_decreases _ _ _ Hs). specialize (IH _ _ H). lia.
Qed.

(** ** After [Stop] *)
Lemma step_stopped a s s' : s_running s = false -> sched_step a s = Some s' -> s_running s' = false /\ s_taken s' = s_taken s.
Proof.
  intros Hr Hs. destruct a as [i c|i|i|i|i]; cbn [sched_step] in Hs; pick; destruct t as [p fs]; cbn [th_pc th_frames] in *.
  1,3,4,5: destruct p; try discriminate; try (destruct fs; [discriminate|]); injection Hs as <-; split; [exact Hr|reflexivity].
  unfold go in Hs. cbn [th_pc th_frames] in Hs. rewrite ?Hr in Hs. destruct p; try discriminate; rewrite ?Hr in Hs; cases_go Hs; try discriminate; injection Hs as <-; split; first [exact Hr|reflexivity].
Qed.
Lemma run_stopped l : forall s s', s_running s = false -> sched_run l s = Some s' -> s_running s' = false /\ s_taken s' = s_taken s.
Proof.
  induction l as [|a l IH]; intros s s' Hr H; cbn [sched_run] in H; [injection H as <-; auto|]. destruct (sched_step a s) as [s1|] eqn:Hs; [|discriminate].
  destruct (step_stopped a s s1 Hr Hs) as (H1 & H2). destruct (IH s1 s' H1 H) as (H3 & H4). split; [exact H3|congruence].
Qed.
Lemma step_log a s s' : sched_step a s = Some s' -> exists new, s_log s' = s_log s ++ new.
Proof.
  intros Hs. destruct a as [i c|i|i|i|i]; cbn [sched_step] in Hs; pick; destruct t as [p fs]; cbn [th_pc th_frames] in *.
  1,3,4,5: destruct p; try discriminate; try (destruct fs; [discriminate|]); injection Hs as <-; unfold ret; cbn [set_thr add_log s_log]; eexists; first [reflexivity|symmetry; apply app_nil_r].
  unfold go in Hs. cbn [th_pc th_frames] in Hs. destruct p; try discriminate; cases_go Hs; injection Hs as <-; unfold ret; cbn [set_thr set_mtx add_log notify_all push stop_running s_log]; rewrite <- ?app_assoc; eexists; first [reflexivity|symmetry; apply app_nil_r].
Qed.
Lemma run_log l : forall s s', sched_run l s = Some s' -> exists new, s_log s' = s_log s ++ new.
Proof.
  induction l as [|a l IH]; intros s s' H; cbn [sched_run] in H; [injection H as <-; exists []; symmetry; apply app_nil_r|]. destruct (sched_step a s) as [s1|] eqn:Hs; [|discriminate].
  destruct (step_log a s s1 Hs) as (n1 & H1). destruct (IH s1 s' H) as (n2 & H2). exists (n1 ++ n2). rewrite H2, H1, app_assoc. reflexivity.
Qed.

(** The number of calls of a thread that may still return true. *)
Definition due (i : nat) (s : sched) : nat :=
  match nth_error (s_thr s) i with Some t => length (th_frames t) + length (flight t) | None => 0 end.
Lemma ret_true_app i a b : ret_true i (a ++ b) = ret_true i a + ret_true i b.
Proof. unfold ret_true. rewrite filter_app, app_length. reflexivity. Qed.
Lemma run_rets_app i a b : run_rets i (a ++ b) = run_rets i a + run_rets i b.
Proof. unfold run_rets. rewrite filter_app, app_length. reflexivity. Qed.
Lemma ret_log i f b fs s : s_log (ret i f b fs s) = s_log s ++ SRet i b :: match f, b with FExec ByRun, false => [SRunRet i] | _, _ => [] end.
Proof. reflexivity. Qed.
Lemma due_other s s' i k x : k <> i -> (s_thr s' = put k x (s_thr s) \/ s_thr s' = put k x (map wake (s_thr s))) -> due i s' = due i s.
Proof.
  intros Hne Ht. unfold due. destruct Ht as [-> | ->]; rewrite put_other by exact Hne; [reflexivity|]. rewrite nth_error_map. destruct (nth_error (s_thr s) i) as [t|]; [|reflexivity].
  cbn [option_map]. rewrite wake_flight. destruct t as [[] fs]; reflexivity.
Qed.
Lemma due_self s s' i t x : nth_error (s_thr s) i = Some t -> (s_thr s' = put i x (s_thr s) \/ s_thr s' = put i x (map wake (s_thr s))) ->
  due i s = length (th_frames t) + length (flight t) /\ due i s' = length (th_frames x) + length (flight x).
Proof.
  intros Hi Ht. unfold due. rewrite Hi. split; [reflexivity|]. destruct Ht as [-> | ->]; erewrite put_same; try reflexivity; [exact Hi|]. rewrite nth_error_map, Hi. reflexivity.
Qed.
Lemma step_due i a s s' : s_running s = false -> sched_step a s = Some s' -> ret_true i (s_log s') + due i s' <= ret_true i (s_log s) + due i s.
Proof.
  intros Hr Hs. destruct a as [k c|k|k|k|k]; cbn [sched_step] in Hs; pick; destruct t as [p fs]; cbn [th_pc th_frames] in *.
  - destruct p; try discriminate. injection Hs as <-. destruct (Nat.eq_dec k i) as [->|Hne].
    + match goal with |- context[set_thr _ ?x _] => destruct (due_self s (set_thr i x s) i _ x Hi (or_introl eq_refl)) as (-> & ->) end. destruct c; unfold ret_true; cbn [set_thr s_log flight th_pc th_frames length enter]; lia.
    + match goal with |- context[set_thr _ ?x _] => rewrite (due_other s (set_thr k x s) i k x Hne (or_introl eq_refl)) end. reflexivity.
  - assert (Hs' : exists x, (s_thr s' = put k x (s_thr s) \/ s_thr s' = put k x (map wake (s_thr s))) /\
      ret_true k (s_log s') + length (th_frames x) + length (flight x) <= ret_true k (s_log s) + length fs + length (flight (mkThr p fs)) /\ forall j, j <> k -> ret_true j (s_log s') = ret_true j (s_log s)).
    { assert (Hso : forall b l j, j <> k -> ret_true j (SRet k b :: l) = ret_true j l).
      { intros b l j Hj. cbn. destruct b; [destruct (Nat.eqb_spec k j); [congruence|]|]; reflexivity. }
      unfold go in Hs. cbn [th_pc th_frames] in Hs. destruct p; try discriminate; rewrite ?Hr in Hs; cases_go Hs; try discriminate; injection Hs as <-; eexists;
        (split; [first [left; reflexivity|right; reflexivity]|]); rewrite ?ret_log; cbn [set_thr set_mtx add_log notify_all push stop_running s_log]; rewrite ?ret_true_app;
        (split; [try (destruct c); cbn; rewrite ?Nat.eqb_refl; cbn; lia|]);
        intros j' Hj; rewrite ?ret_true_app; try reflexivity; cbn [ret_true filter length]; fold (ret_true j'); rewrite ?Hso by exact Hj; try (destruct c); cbn; try (destruct (Nat.eqb_spec k j'); [congruence|]); cbn; lia. }
    destruct Hs' as (x & Hx & Hle & Ho). destruct (Nat.eq_dec k i) as [->|Hne].
    + destruct (due_self s s' i _ x Hi Hx) as (-> & ->). cbn [th_frames] in *. lia.
    + rewrite (due_other s s' i k x Hne Hx), Ho by congruence. reflexivity.
  - destruct p; try discriminate. injection Hs as <-. destruct (Nat.eq_dec k i) as [->|Hne].
    + match goal with |- context[set_thr _ ?x _] => destruct (due_self s (set_thr i x s) i _ x Hi (or_introl eq_refl)) as (-> & ->) end. unfold ret_true, run_rets, open_runs; cbn [set_thr s_log flight wake open_pc th_pc th_frames length enter]; lia.
    + match goal with |- context[set_thr _ ?x _] => rewrite (due_other s (set_thr k x s) i k x Hne (or_introl eq_refl)) end. reflexivity.
  - destruct p; try discriminate. destruct fs as [|f fs]; [discriminate|]. injection Hs as <-. rewrite ret_log, ret_true_app. destruct (Nat.eq_dec k i) as [->|Hne].
    + destruct (due_self s (ret i f true fs s) i _ (mkThr (match f, true with FExec ByRun, true => PExec0 ByRun | _, _ => PUser end) fs) Hi (or_introl eq_refl)) as (H1 & H2). rewrite H1, H2. destruct f as [[]|]; cbn; rewrite Nat.eqb_refl; cbn; lia.
    + rewrite (due_other s (ret k f true fs s) i k (mkThr (match f, true with FExec ByRun, true => PExec0 ByRun | _, _ => PUser end) fs) Hne (or_introl eq_refl)). destruct f as [[]|]; cbn; destruct (Nat.eqb_spec k i); try congruence; cbn; lia.
  - destruct p; try discriminate. destruct fs as [|f fs]; [discriminate|]. injection Hs as <-. destruct (Nat.eq_dec k i) as [->|Hne].
    + match goal with |- context[set_thr _ ?x _] => destruct (due_self s (set_thr i x s) i _ x Hi (or_introl eq_refl)) as (-> & ->) end. unfold ret_true, run_rets, open_runs; cbn [set_thr s_log flight wake open_pc th_pc th_frames length enter]; lia.
    + match goal with |- context[set_thr _ ?x _] => rewrite (due_other s (set_thr k x s) i k x Hne (or_introl eq_refl)) end. reflexivity.
Qed.
Lemma run_due i l : forall s s', s_running s = false -> sched_run l s = Some s' -> ret_true i (s_log s') + due i s' <= ret_true i (s_log s) + due i s.
Proof.
  induction l as [|a l IH]; intros s s' Hr H; cbn [sched_run] in H; [injection H as <-; reflexivity|]. destruct (sched_step a s) as [s1|] eqn:Hs; [|discriminate].
  pose proof (step_due i a s s1 Hr Hs). specialize (IH s1 s' (proj1 (step_stopped a s s1 Hr Hs)) H). lia.
Qed.

(** ** Calls of [Run] *)
Definition opened (i : nat) (s : sched) : nat := match nth_error (s_thr s) i with Some t => open_runs t | None => 0 end.
Lemma opened_other s s' i k x : k <> i -> (s_thr s' = put k x (s_thr s) \/ s_thr s' = put k x (map wake (s_thr s))) -> opened i s' = opened i s.
Proof.
  intros Hne Ht. unfold opened. destruct Ht as [-> | ->]; rewrite put_other by exact Hne; [reflexivity|]. rewrite nth_error_map. destruct (nth_error (s_thr s) i) as [t|]; [|reflexivity].
  destruct t as [[] fs]; reflexivity.
Qed.
Lemma opened_self s s' i t x : nth_error (s_thr s) i = Some t -> (s_thr s' = put i x (s_thr s) \/ s_thr s' = put i x (map wake (s_thr s))) ->
  opened i s = open_runs t /\ opened i s' = open_runs x.
Proof.
  intros Hi Ht. unfold opened. rewrite Hi. split; [reflexivity|]. destruct Ht as [-> | ->]; erewrite put_same; try reflexivity; [exact Hi|]. rewrite nth_error_map, Hi. reflexivity.
Qed.
Lemma step_opened i a s s' : (forall k, a <> AThrow k) -> sched_step a s = Some s' -> run_rets i (s_log s') + opened i s' = run_rets i (s_log s) + opened i s + run_calls i [a].
Proof.
  intros Hr Hs. destruct a as [k c|k|k|k|k]; cbn [sched_step] in Hs; pick; destruct t as [p fs]; cbn [th_pc th_frames] in *.
  - destruct p; try discriminate. injection Hs as <-. destruct (Nat.eq_dec k i) as [->|Hne].
    + match goal with |- context[set_thr _ ?x _] => destruct (opened_self s (set_thr i x s) i _ x Hi (or_introl eq_refl)) as (-> & ->) end. unfold open_runs, run_calls. destruct c; cbn [set_thr s_log enter open_pc th_pc th_frames filter]; rewrite ?Nat.eqb_refl; cbn [length]; lia.
    + match goal with |- context[set_thr _ ?x _] => rewrite (opened_other s (set_thr k x s) i k x Hne (or_introl eq_refl)) end. unfold run_calls. destruct c; cbn [set_thr s_log filter]; try (destruct (Nat.eqb_spec k i); [congruence|]); cbn [length]; lia.
  - assert (Hs' : exists x, (s_thr s' = put k x (s_thr s) \/ s_thr s' = put k x (map wake (s_thr s))) /\
      run_rets k (s_log s') + open_runs x = run_rets k (s_log s) + open_runs (mkThr p fs) /\ forall j, j <> k -> run_rets j (s_log s') = run_rets j (s_log s)).
    { unfold open_runs.
      unfold go in Hs. cbn [th_pc th_frames] in Hs. destruct p; try discriminate; cases_go Hs; try discriminate; injection Hs as <-; eexists;
        (split; [first [left; reflexivity|right; reflexivity]|]); rewrite ?ret_log; cbn [set_thr set_mtx add_log notify_all push stop_running s_log]; rewrite ?run_rets_app;
        (split; [try (destruct c); cbn; rewrite ?Nat.eqb_refl; cbn; lia|]);
        intros j' Hj; rewrite ?run_rets_app; try reflexivity; try (destruct c); cbn; try (destruct (Nat.eqb_spec k j'); [congruence|]); cbn; lia. }
    destruct Hs' as (x & Hx & Hle & Ho). change (run_calls i [AGo k]) with 0. destruct (Nat.eq_dec k i) as [->|Hne].
    + destruct (opened_self s s' i _ x Hi Hx) as (-> & ->). lia.
    + rewrite (opened_other s s' i k x Hne Hx), Ho by congruence. lia.
  - destruct p; try discriminate. injection Hs as <-. change (run_calls i [ASpurious k]) with 0. destruct (Nat.eq_dec k i) as [->|Hne].
    + match goal with |- context[set_thr _ ?x _] => destruct (opened_self s (set_thr i x s) i _ x Hi (or_introl eq_refl)) as (-> & ->) end. unfold ret_true, run_rets, open_runs; cbn [set_thr s_log flight wake open_pc th_pc th_frames length enter]; lia.
    + match goal with |- context[set_thr _ ?x _] => rewrite (opened_other s (set_thr k x s) i k x Hne (or_introl eq_refl)) end. cbn [set_thr s_log]; lia.
  - destruct p; try discriminate. destruct fs as [|f fs]; [discriminate|]. injection Hs as <-. change (run_calls i [AReturn k]) with 0. rewrite ret_log, run_rets_app. destruct (Nat.eq_dec k i) as [->|Hne].
    + destruct (opened_self s (ret i f true fs s) i _ (mkThr (match f, true with FExec ByRun, true => PExec0 ByRun | _, _ => PUser end) fs) Hi (or_introl eq_refl)) as (H1 & H2). rewrite H1, H2. unfold open_runs. destruct f as [[]|]; cbn; lia.
    + rewrite (opened_other s (ret k f true fs s) i k (mkThr (match f, true with FExec ByRun, true => PExec0 ByRun | _, _ => PUser end) fs) Hne (or_introl eq_refl)). destruct f as [[]|]; cbn; lia.
  - exfalso. exact (Hr k eq_refl).
Qed.
Lemma run_opened i l : forall s s', (forall k, ~ In (AThrow k) l) -> sched_run l s = Some s' -> run_rets i (s_log s') + opened i s' = run_rets i (s_log s) + opened i s + run_calls i l.
Proof.
  induction l as [|a l IH]; intros s s' Hr H; cbn [sched_run] in H; [injection H as <-; change (run_calls i []) with 0; lia|]. destruct (sched_step a s) as [s1|] eqn:Hs; [|discriminate].
  pose proof (step_opened i a s s1 ltac:(intros k ->; exact (Hr k (or_introl eq_refl))) Hs) as H1. specialize (IH s1 s' ltac:(intros k Hin; exact (Hr k (or_intror Hin))) H).
  change (a :: l) with ([a] ++ l). unfold run_calls in *. rewrite filter_app, app_length. lia.
Qed.

(** ** Every call of [Post] is pushed once, in program order *)
Definition pending (t : thread) : list job := match th_pc t with PPost0 j | PPost1 j => [j] | _ => [] end.
Definition posts_inv (i : nat) (calls : list job) (s : sched) : Prop :=
  calls = posted_by i s ++ match nth_error (s_thr s) i with Some t => pending t | None => [] end.
Lemma posts_step i calls a s s' : posts_inv i calls s -> sched_step a s = Some s' -> posts_inv i (calls ++ post_calls i [a]) s'.
Proof.
  unfold posts_inv. intros Hp Hs.
  assert (Ho : forall k x m, k <> i -> (m = s_thr s \/ m = map wake (s_thr s)) ->
     match nth_error (put k x m) i with Some t => pending t | None => [] end = match nth_error (s_thr s) i with Some t => pending t | None => [] end).
  { intros k x m Hne [->| ->]; rewrite put_other by exact Hne; [reflexivity|]. rewrite nth_error_map. destruct (nth_error (s_thr s) i) as [[[] fs]|]; reflexivity. }
  assert (Hw : forall t x m, nth_error (s_thr s) i = Some t -> (m = s_thr s \/ m = map wake (s_thr s)) -> nth_error (put i x m) i = Some x).
  { intros t x m Hi [->| ->]; eapply put_same; [exact Hi|]. rewrite nth_error_map, Hi. reflexivity. }
  destruct a as [k c|k|k|k|k]; cbn [sched_step] in Hs; pick; destruct t as [p fs]; cbn [th_pc th_frames] in *.
  - destruct p; try discriminate. injection Hs as <-. unfold posted_by. cbn [set_thr s_thr s_posted]. destruct (Nat.eq_dec k i) as [->|Hne].
    + rewrite Hi in Hp. rewrite (Hw _ _ (s_thr s) Hi (or_introl eq_refl)), Hp. unfold pending, post_calls. cbn [th_pc flat_map]. rewrite !app_nil_r. destruct c; cbn; rewrite ?Nat.eqb_refl, ?app_nil_r; reflexivity.
    + rewrite (Ho k _ (s_thr s) Hne (or_introl eq_refl)), Hp. unfold post_calls. destruct c; cbn; destruct (Nat.eqb_spec k i); try congruence; apply app_nil_r.
  - change (post_calls i [AGo k]) with (@nil job). rewrite app_nil_r. unfold go in Hs. cbn [th_pc th_frames] in Hs. destruct (Nat.eq_dec k i) as [->|Hne].
    + rewrite Hi in Hp. destruct p; try discriminate; cases_go Hs; injection Hs as <-; unfold posted_by in *; cbn [set_thr set_mtx add_log notify_all push stop_running ret s_thr s_posted]; rewrite ?filter_app, ?map_app;
      (erewrite Hw; [|exact Hi|first [left; reflexivity|right; reflexivity]]); rewrite Hp; unfold pending; cbn [th_pc filter fst map]; rewrite ?Nat.eqb_refl, ?app_nil_r; try reflexivity; try (destruct c; rewrite ?app_nil_r; reflexivity).
    + destruct p; try discriminate; cases_go Hs; injection Hs as <-; unfold posted_by in *; cbn [set_thr set_mtx add_log notify_all push stop_running ret s_thr s_posted]; rewrite ?filter_app, ?map_app;
      (rewrite Ho; [|exact Hne|first [left; reflexivity|right; reflexivity]]); rewrite Hp; cbn [filter fst]; try (destruct (Nat.eqb_spec k i); [congruence|]); rewrite ?app_nil_r; reflexivity.
  - change (post_calls i [ASpurious k]) with (@nil job). rewrite app_nil_r. destruct p; try discriminate. injection Hs as <-. unfold posted_by. cbn [set_thr s_thr s_posted]. destruct (Nat.eq_dec k i) as [->|Hne].
    + rewrite Hi in Hp. rewrite (Hw _ _ (s_thr s) Hi (or_introl eq_refl)). exact Hp.
    + rewrite (Ho k _ (s_thr s) Hne (or_introl eq_refl)). exact Hp.
  - change (post_calls i [AReturn k]) with (@nil job). rewrite app_nil_r. destruct p; try discriminate. destruct fs as [|f fs]; [discriminate|]. injection Hs as <-. unfold posted_by. cbn [ret add_log set_thr s_thr s_posted]. destruct (Nat.eq_dec k i) as [->|Hne].
    + rewrite Hi in Hp. rewrite (Hw _ _ (s_thr s) Hi (or_introl eq_refl)), Hp. destruct f as [[]|]; reflexivity.
    + rewrite (Ho k _ (s_thr s) Hne (or_introl eq_refl)). exact Hp.
  - change (post_calls i [AThrow k]) with (@nil job). rewrite app_nil_r. destruct p; try discriminate. destruct fs as [|f fs]; [discriminate|]. injection Hs as <-. unfold posted_by. cbn [set_thr s_thr s_posted]. destruct (Nat.eq_dec k i) as [->|Hne].
    + rewrite Hi in Hp. rewrite (Hw _ _ (s_thr s) Hi (or_introl eq_refl)), Hp. reflexivity.
    + rewrite (Ho k _ (s_thr s) Hne (or_introl eq_refl)). exact Hp.
Qed.
Lemma posts_run i l : forall calls s s', posts_inv i calls s -> sched_run l s = Some s' -> posts_inv i (calls ++ post_calls i l) s'.
Proof.
  induction l as [|a l IH]; intros calls s s' Hp H; cbn [sched_run] in H; [injection H as <-; rewrite app_nil_r; exact Hp|]. destruct (sched_step a s) as [s1|] eqn:Hs; [|discriminate].
  change (a :: l) with ([a] ++ l). unfold post_calls in *. rewrite flat_map_app, app_assoc. exact (IH _ _ _ (posts_step i calls a s s1 Hp Hs) H).
Qed.
Lemma reach_posts n i l s : reaches n l s -> posts_inv i (post_calls i l) s.
Proof.
  intros Hr. apply (posts_run i l [] (sched_init n) s); [|exact Hr]. unfold posts_inv. cbn. destruct (nth_error _ i) as [t|] eqn:H; [|reflexivity]. apply nth_error_In, repeat_spec in H as ->. reflexivity.
Qed.

(** ** Returning false *)
Definition refuses (s : sched) (p : pc) : Prop :=
  match p with PExecF _ => s_running s = false | PPollF => s_running s = false \/ s_tasks s = [] | _ => True end.
Definition refusing (s : sched) : Prop :=
  (forall i t, nth_error (s_thr s) i = Some t -> refuses s (th_pc t)) /\ (forall i, In (SRunRet i) (s_log s) -> s_running s = false).
Lemma refusing_keep s s' i t x : mutex s -> refusing s -> nth_error (s_thr s) i = Some t ->
  (s_thr s' = put i x (s_thr s) \/ s_thr s' = put i x (map wake (s_thr s))) -> refuses s' (th_pc x) ->
  (s_running s = false -> s_running s' = false) -> (s_tasks s' = s_tasks s \/ s_mtx s = Some i) ->
  (forall j, In (SRunRet j) (s_log s') -> In (SRunRet j) (s_log s) \/ s_running s' = false) -> refusing s'.
Proof.
  intros Hm (H1 & H2) Hi Ht Hx Hr Hq Hl. split.
  2:{ intros j Hj. destruct (Hl j Hj) as [H|H]; [exact (Hr (H2 j H))|exact H]. }
  intros j t' Hj.
  assert (Hn : (i = j /\ t' = x) \/ (i <> j /\ exists t'', nth_error (s_thr s) j = Some t'' /\ (t' = t'' \/ t' = wake t''))).
  { destruct Ht as [Ht|Ht]; rewrite Ht in Hj; apply put_nth in Hj as [(<- & ->)|(Hne & Hj)]; auto; right; (split; [exact Hne|]); [eauto|].
    rewrite nth_error_map in Hj. destruct (nth_error (s_thr s) j) as [t0|]; [|discriminate]. injection Hj as <-. eauto. }
  destruct Hn as [(<- & ->)|(Hne & t'' & Hj' & Hw)]; [exact Hx|]. specialize (H1 _ _ Hj').
  assert (Hp : refuses s (th_pc t') /\ (th_pc t' = PPollF -> holding (th_pc t'') = true)).
  { destruct Hw as [->| ->]; destruct t'' as [[] fs]; cbn in *; (split; [first [exact H1|exact Logic.I]|]); first [discriminate|reflexivity]. }
  destruct Hp as (Hp & Hh). destruct (th_pc t'); try exact Logic.I; cbn in *; [exact (Hr Hp)|]. destruct Hp as [Hp|Hp]; [left; exact (Hr Hp)|].
  destruct Hq as [-> |Hq]; [right; exact Hp|]. apply (proj1 Hm _ _ Hj') in Hh; [congruence|reflexivity].
Qed.
Lemma step_refusing a s s' : mutex s -> refusing s -> sched_step a s = Some s' -> refusing s'.
Proof.
  intros Hm Hq Hs. destruct a as [i c|i|i|i|i]; cbn [sched_step] in Hs; pick; destruct t as [p fs]; cbn [th_pc th_frames] in *.
  2:{ assert (Hmi : holding p = true -> s_mtx s = Some i) by (apply (proj1 Hm _ _ Hi)). pose proof (proj1 Hq _ _ Hi) as Hp. cbn [th_pc] in Hp.
      unfold go in Hs. cbn [th_pc th_frames] in Hs. destruct p; try discriminate; cases_go Hs; injection Hs as <-;
      (eapply (refusing_keep s _ i); [exact Hm|exact Hq|exact Hi|first [left; reflexivity|right; reflexivity]| | | |]);
      cbn [set_thr set_mtx add_log notify_all push stop_running ret s_running s_tasks s_log th_pc refuses] in *;
      try exact Logic.I; try reflexivity; try (intros H; exact H); try (left; reflexivity); try (right; apply Hmi; reflexivity); try (intros ? H; left; exact H); auto.
      all: try (destruct c; exact Logic.I).
      all: intros k Hk; rewrite ?in_app_iff in Hk; repeat destruct Hk as [Hk|Hk]; try discriminate; auto.
      all: try (destruct c; cbn in Hk; repeat destruct Hk as [Hk|Hk]; try discriminate; try contradiction; auto).
      all: try (destruct Hk; fail).
      all: cbn in Hk; repeat destruct Hk as [Hk|Hk]; try discriminate; contradiction. }
  all: destruct p; try discriminate; try (destruct fs as [|f fs]; [discriminate|]); injection Hs as <-;
    (eapply (refusing_keep s _ i); [exact Hm|exact Hq|exact Hi|first [left; reflexivity|right; reflexivity]| | | |]);
    cbn [set_thr add_log ret s_running s_tasks s_log th_pc refuses wake] in *; try exact Logic.I; try (intros H; exact H); try (left; reflexivity); try (intros ? H; left; exact H).
  - destruct c; exact Logic.I.
  - destruct f as [[]|]; exact Logic.I.
  - intros k Hk. rewrite in_app_iff in Hk. destruct Hk as [Hk|Hk]; [auto|]. destruct f as [[]|]; cbn in Hk; repeat destruct Hk as [Hk|Hk]; try discriminate; contradiction.
Qed.
Lemma reach_refusing n l s : reaches n l s -> refusing s.
Proof.
  intros H. assert (Hb : mutex s /\ refusing s); [|apply Hb].
  refine (run_inv (fun s => mutex s /\ refusing s) _ l (sched_init n) s _ H).
  - intros a s1 s2 (H1 & H2) Hs. split; [exact (step_mutex a s1 s2 H1 Hs)|exact (step_refusing a s1 s2 H1 H2 Hs)].
  - split; [exact (reach_mutex n [] _ eq_refl)|]. split; [|intros i []]. intros i t Hi. apply init_thr in Hi as ->. exact Logic.I.
Qed.
(** A thread that returns false was stopped, or polled an empty queue. *)
Lemma returns_false n l s i s' : reaches n l s -> sched_step (AGo i) s = Some s' -> In (SRet i false) (skipn (length (s_log s)) (s_log s')) ->
  s_running s = false \/ (s_tasks s = [] /\ exists t, nth_error (s_thr s) i = Some t /\ th_pc t = PPollF).
Proof.
  intros Hr Hs Hin. pose proof (proj1 (reach_refusing n l s Hr)) as Hq. cbn [sched_step] in Hs. pick. specialize (Hq _ _ Hi). destruct t as [p fs]. cbn [th_pc] in Hq.
  unfold go in Hs. cbn [th_pc th_frames] in Hs. 
  assert (Hno : s_log s' = s_log s -> False). { intros He. rewrite He, skipn_all in Hin. exact Hin. }
  assert (Hadd : forall new, s_log s' = s_log s ++ new -> In (SRet i false) new).
  { intros new He. rewrite He, skipn_app, skipn_all, Nat.sub_diag in Hin. exact Hin. }
  destruct p; try discriminate; cases_go Hs; injection Hs as <-;
    try (exfalso; apply Hno; reflexivity); try (left; exact Hq); try (left; assumption).
  - specialize (Hadd [SBegin i j] eq_refl). destruct Hadd as [H|[]]. discriminate.
  - exfalso. unfold ret, add_log in Hadd. cbn [s_log set_thr] in Hadd. rewrite <- app_assoc in Hadd. specialize (Hadd _ eq_refl). destruct c; cbn in Hadd;
      repeat destruct Hadd as [Hadd|Hadd]; try discriminate; contradiction.
  - destruct Hq as [Hq|Hq]; [left; exact Hq|right]. split; [exact Hq|]. eexists. split; reflexivity.
  - specialize (Hadd [SBegin i j] eq_refl). destruct Hadd as [H|[]]. discriminate.
  - exfalso. unfold ret, add_log in Hadd. cbn [s_log set_thr] in Hadd. rewrite <- app_assoc in Hadd. specialize (Hadd _ eq_refl). cbn in Hadd;
      repeat destruct Hadd as [Hadd|Hadd]; try discriminate; contradiction.
Qed.

(** ** Only [Stop] stops *)
Definition stopping (t : thread) : Prop := th_pc t = PStop0 \/ th_pc t = PStop1.
Definition asked (s : sched) : Prop := s_running s = false \/ exists i t, nth_error (s_thr s) i = Some t /\ stopping t.
Lemma asked_step a s s' : sched_step a s = Some s' -> asked s' -> asked s \/ exists i, a = ACall i CStop.
Proof.
  assert (W : forall l i t, nth_error (map wake l) i = Some t -> stopping t -> exists t', nth_error l i = Some t' /\ stopping t').
  { intros l i t H Hs. rewrite nth_error_map in H. destruct (nth_error l i) as [t'|]; [|discriminate]. injection H as <-. exists t'. split; [reflexivity|].
    unfold stopping, wake in *. destruct (th_pc t') eqn:E; rewrite ?E; cbn in Hs; rewrite ?E in Hs; try exact Hs; destruct Hs; discriminate. }
  assert (P : forall s1 i x, s_thr s' = put i x (s_thr s1) -> s_running s' = s_running s -> ~ stopping x ->
              (forall j t, nth_error (s_thr s1) j = Some t -> stopping t -> asked s) -> asked s' -> asked s).
  { intros s1 i x E R Nx H [Q|(j & t & Hj & Ht)]; [left; congruence|]. rewrite E in Hj. apply put_nth in Hj as [(_ & ->)|(_ & Hj)]; [contradiction|eauto]. }
  assert (K : forall j t, nth_error (s_thr s) j = Some t -> stopping t -> asked s) by (intros j t Hj Ht; right; eauto).
  assert (KW : forall j t, nth_error (map wake (s_thr s)) j = Some t -> stopping t -> asked s).
  { intros j t Hj Ht. destruct (W _ _ _ Hj Ht) as (t' & Hj' & Ht'). right. eauto. }
  destruct a as [i c|i|i|i|i]; cbn [sched_step]; destruct (nth_error (s_thr s) i) as [t|] eqn:E; try discriminate.
  - destruct (th_pc t); try discriminate. intro H. injection H as <-. intro A. destruct c; try (right; exists i; reflexivity); left;
      (refine (P s i _ eq_refl eq_refl _ K A); unfold stopping; cbn; intros [Q|Q]; discriminate).
  - unfold go. intros H A. left. destruct (th_pc t) eqn:Ep;
      repeat match type of H with
      | (match ?x with _ => _ end) = _ => destruct x eqn:?; try discriminate
      | (let (_, _) := ?x in _) = _ => destruct x eqn:?
      end; try discriminate;
      try (right; exists i, t; split; [exact E|unfold stopping; auto]; fail); injection H as <-;
      try (unfold pop in *; destruct (s_tasks s) eqn:?; try discriminate; match goal with X : Some _ = Some _ |- _ => injection X as <- <- end);
      try (refine (P s i _ eq_refl eq_refl _ K A); unfold stopping; cbn; intros [Q|Q]; discriminate);
      try (refine (P (notify_all s) i _ eq_refl eq_refl _ KW A); unfold stopping; cbn; intros [Q|Q]; discriminate).
    all: refine (P s i _ eq_refl _ _ K A); [cbn; congruence|]; unfold stopping; cbn; repeat match goal with |- context [match ?x with _ => _ end] => destruct x end; cbn; intros [Q|Q]; discriminate.
  - destruct (th_pc t) eqn:Ep; try discriminate. intro H. injection H as <-. intro A. left. refine (P s i _ eq_refl eq_refl _ K A). unfold stopping, wake. rewrite Ep. cbn. intros [Q|Q]; discriminate.
  - destruct (th_pc t) eqn:Ep; try discriminate. destruct (th_frames t); try discriminate. intro H. injection H as <-. intro A. left.
    refine (P s i _ eq_refl eq_refl _ K A). unfold stopping. cbn. repeat match goal with |- context [match ?x with _ => _ end] => destruct x end; cbn; intros [Q|Q]; discriminate.
  - destruct (th_pc t) eqn:Ep; try discriminate. destruct (th_frames t); try discriminate. intro H. injection H as <-. intro A. left.
    refine (P s i _ eq_refl eq_refl _ K A). unfold stopping. cbn. intros [Q|Q]; discriminate.
Qed.
Lemma asked_run l : forall s s', sched_run l s = Some s' -> asked s' -> asked s \/ exists i, In (ACall i CStop) l.
Proof.
  induction l as [|a l IH]; intros s s' H A; cbn [sched_run] in H; [injection H as <-; auto|].
  destruct (sched_step a s) as [s1|] eqn:E; [|discriminate]. destruct (IH _ _ H A) as [Q|(i & Q)]; [|right; exists i; right; exact Q].
  destruct (asked_step _ _ _ E Q) as [R|(i & ->)]; [left; exact R|right; exists i; left; reflexivity].
Qed.
Lemma stopped_by_stop n l s : reaches n l s -> s_running s = false -> exists i, In (ACall i CStop) l.
Proof.
  intros H R. destruct (asked_run l _ _ H (or_introl R)) as [[Q|(i & t & Hi & Ht)]|Q]; [discriminate| |exact Q].
  apply init_thr in Hi. subst t. destruct Ht; discriminate.
Qed.
