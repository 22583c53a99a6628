(** * Proofs about data races *)

From Verif Require Import Base FromStringModel HistoryModel StorageModel TerminalModel MenuModel SessionModel ProcessorModel KeyboardModel SchedulerModel LocalModel
  SchedulerSpec SchedulerProofs KeyboardSpec KeyboardProofs RaceSpec RaceModel.
Open Scope nat_scope.
Open Scope list_scope.

(** ** Happens-before in longer executions *)
Lemma hb_lt t i j : hb t i j -> i < j.
Proof. induction 1; lia. Qed.
Lemma nth_snoc {A} (t : list A) e i a : nth_error (t ++ [e]) i = Some a -> (i = length t /\ a = e) \/ (i < length t /\ nth_error t i = Some a).
Proof.
  intros H. destruct (Nat.lt_ge_cases i (length t)) as [L|L].
  - right. rewrite nth_error_app1 in H by exact L. auto.
  - left. rewrite nth_error_app2 in H by exact L. destruct (i - length t) as [|n] eqn:En; cbn in H; [|destruct n; discriminate]. split; [lia|congruence].
Qed.
Lemma nth_keep {A} (t u : list A) i a : nth_error t i = Some a -> nth_error (t ++ u) i = Some a.
Proof. intros H. rewrite nth_error_app1; [exact H|]. apply nth_error_Some. congruence. Qed.
Lemma nth_last {A} (t : list A) e : nth_error (t ++ [e]) (length t) = Some e.
Proof. rewrite nth_error_app2, Nat.sub_diag by lia. reflexivity. Qed.
Lemma nth_lt {A} (t : list A) i a : nth_error t i = Some a -> i < length t.
Proof. intros H. apply nth_error_Some. congruence. Qed.
Lemma hb_app t u i j : hb t i j -> hb (t ++ u) i j.
Proof.
  induction 1 as [i j a b L Ha Hb He|i j k _ IH1 _ IH2].
  - exact (hb_edge _ i j a b L (nth_keep _ u _ _ Ha) (nth_keep _ u _ _ Hb) He).
  - exact (hb_trans _ _ _ _ IH1 IH2).
Qed.
Lemma hb_shift p t i j : hb t i j -> hb (p ++ t) (length p + i) (length p + j).
Proof.
  assert (N : forall n, nth_error (p ++ t) (length p + n) = nth_error t n).
  { intros n. rewrite nth_error_app2 by lia. f_equal. lia. }
  induction 1 as [i j a b L Ha Hb He|i j k _ IH1 _ IH2].
  - apply (hb_edge _ _ _ a b); [lia|rewrite N; exact Ha|rewrite N; exact Hb|exact He].
  - exact (hb_trans _ _ _ _ IH1 IH2).
Qed.

(** ** Events under a mutex are ordered *)
Definition mut_eqb (a b : mut) : bool := match a, b with SchedM, SchedM | KbdM, KbdM => true | _, _ => false end.
Lemma mut_eqb_eq a b : mut_eqb a b = true -> a = b.
Proof. destruct a, b; try discriminate; reflexivity. Qed.
(** The holder of the mutex after the events, if it is used well and covered events are under it. *)
Section Walk.
Context (m : mut) (cov : op -> bool).
Definition walk1 (h : option nat) (e : ev) : option (option nat) :=
  match e_op e with
  | OAcq m' => if mut_eqb m m' then match h with None => Some (Some (e_thr e)) | Some _ => None end else Some h
  | ORel m' => if mut_eqb m m' then match h with Some b => if Nat.eqb b (e_thr e) then Some None else None | None => None end else Some h
  | o => if cov o then match h with Some b => if Nat.eqb b (e_thr e) then Some h else None | None => None end else Some h
  end.
Fixpoint walk (h : option nat) (t : list ev) : option (option nat) :=
  match t with
  | [] => Some h
  | e :: t' => match walk1 h e with Some h' => walk h' t' | None => None end
  end.
Lemma walk_app h t u : walk h (t ++ u) = match walk h t with Some h' => walk h' u | None => None end.
Proof. revert h. induction t as [|e t IH]; intros h; [reflexivity|]. cbn [app walk]. destruct (walk1 h e); [apply IH|reflexivity]. Qed.

Definition covered (e : ev) : Prop := match e_op e with OAcq _ | ORel _ => False | o => cov o = true end.
(** What thread [b], or the mutex, knows of the [i]th event. *)
Definition known (t : list ev) (i b : nat) : Prop := exists p e, nth_error t p = Some e /\ e_thr e = b /\ (i = p \/ hb t i p).
Definition kept (t : list ev) (i : nat) : Prop := exists p e, nth_error t p = Some e /\ e_op e = ORel m /\ (i = p \/ hb t i p).
Definition knows (t : list ev) (h : option nat) (i : nat) : Prop := match h with Some b => known t i b | None => kept t i end.

Lemma known_snoc t e i b : known t i b -> known (t ++ [e]) i b.
Proof. intros (p & a & Hp & Hb & H). exists p, a. split; [apply nth_keep, Hp|]. split; [exact Hb|]. destruct H as [H|H]; [left; exact H|right; apply hb_app, H]. Qed.
Lemma kept_snoc t e i : kept t i -> kept (t ++ [e]) i.
Proof. intros (p & a & Hp & Hb & H). exists p, a. split; [apply nth_keep, Hp|]. split; [exact Hb|]. destruct H as [H|H]; [left; exact H|right; apply hb_app, H]. Qed.
Lemma knows_snoc t e h i : knows t h i -> knows (t ++ [e]) h i.
Proof. destruct h; [apply known_snoc|apply kept_snoc]. Qed.
(** The next event of the thread, or an acquisition, comes after. *)
Lemma known_next t e i : known t i (e_thr e) -> hb (t ++ [e]) i (length t).
Proof.
  intros (p & a & Hp & Hb & H). assert (Hl : hb (t ++ [e]) p (length t)).
  { apply (hb_edge _ p (length t) a e); [apply (nth_lt _ _ _ Hp)|apply nth_keep, Hp|apply nth_last|left; exact Hb]. }
  destruct H as [->|H]; [exact Hl|]. exact (hb_trans _ _ _ _ (hb_app _ [e] _ _ H) Hl).
Qed.
Lemma kept_next t e i : kept t i -> e_op e = OAcq m -> hb (t ++ [e]) i (length t).
Proof.
  intros (p & a & Hp & Hb & H) He. assert (Hl : hb (t ++ [e]) p (length t)).
  { apply (hb_edge _ p (length t) a e); [apply (nth_lt _ _ _ Hp)|apply nth_keep, Hp|apply nth_last|right; left; exists m; auto]. }
  destruct H as [->|H]; [exact Hl|]. exact (hb_trans _ _ _ _ (hb_app _ [e] _ _ H) Hl).
Qed.

Lemma walk_snoc t e h h' : walk None t = Some h -> walk1 h e = Some h' ->
  (forall i a, nth_error t i = Some a -> covered a -> knows t h i) ->
  (forall i a, nth_error t i = Some a -> covered a -> knows (t ++ [e]) h' i) /\
  (covered e -> (forall i a, nth_error t i = Some a -> covered a -> hb (t ++ [e]) i (length t)) /\ knows (t ++ [e]) h' (length t)).
Proof.
  intros _ Hw Hk. unfold walk1 in Hw. unfold covered at 2.
  assert (Hsame : forall o, e_op e = o -> h' = h -> (forall i a, nth_error t i = Some a -> covered a -> knows (t ++ [e]) h' i)).
  { intros o _ -> i a Hi Hc. apply knows_snoc, (Hk i a Hi Hc). }
  assert (Hcov : forall o, e_op e = o -> (if cov o then match h with Some b => if Nat.eqb b (e_thr e) then Some h else None | None => None end else Some h) = Some h' ->
     (forall i a, nth_error t i = Some a -> covered a -> knows (t ++ [e]) h' i) /\
     (cov o = true -> (forall i a, nth_error t i = Some a -> covered a -> hb (t ++ [e]) i (length t)) /\ knows (t ++ [e]) h' (length t))).
  { intros o Ho Hw'. split.
    - apply (Hsame o Ho). destruct (cov o); [destruct h as [b|]; [destruct (Nat.eqb b (e_thr e))|]|]; congruence.
    - intros Hc. rewrite Hc in Hw'. destruct h as [b|]; [|discriminate]. destruct (Nat.eqb_spec b (e_thr e)) as [->|]; [|discriminate]. injection Hw' as <-. split.
      + intros i a Hi Ha. apply known_next. exact (Hk i a Hi Ha).
      + exists (length t), e. split; [apply nth_last|]. split; [reflexivity|left; reflexivity]. }
  destruct (e_op e) as [m'|m'|x|x|x|k|k|k j|k j|j] eqn:Ho; try exact (Hcov _ eq_refl Hw).
  - split; [|contradiction]. destruct (mut_eqb m m') eqn:Em; [|injection Hw as <-; exact (Hsame _ eq_refl eq_refl)].
    apply mut_eqb_eq in Em as <-. destruct h as [b|]; [discriminate|]. injection Hw as <-. intros i a Hi Hc. exists (length t), e. split; [apply nth_last|]. split; [reflexivity|].
    right. apply kept_next; [exact (Hk i a Hi Hc)|exact Ho].
  - split; [|contradiction]. destruct (mut_eqb m m') eqn:Em; [|injection Hw as <-; exact (Hsame _ eq_refl eq_refl)].
    apply mut_eqb_eq in Em as <-. destruct h as [b|]; [|discriminate]. destruct (Nat.eqb_spec b (e_thr e)) as [->|]; [|discriminate]. injection Hw as <-. intros i a Hi Hc. exists (length t), e. split; [apply nth_last|]. split; [exact Ho|].
    right. apply known_next. exact (Hk i a Hi Hc).
Qed.
Lemma walk_ordered t : forall h, walk None t = Some h ->
  (forall i a, nth_error t i = Some a -> covered a -> knows t h i) /\
  (forall i j a b, i < j -> nth_error t i = Some a -> nth_error t j = Some b -> covered a -> covered b -> hb t i j).
Proof.
  induction t as [|e t IH] using rev_ind; intros h Hw.
  - split; intros [|i]; discriminate.
  - rewrite walk_app in Hw. destruct (walk None t) as [h0|] eqn:Hw0; [|discriminate]. cbn [walk] in Hw. destruct (walk1 h0 e) as [h1|] eqn:Hw1; [|discriminate]. injection Hw as <-.
    destruct (IH h0 eq_refl) as (Hk & Ho). destruct (walk_snoc t e h0 h1 Hw0 Hw1 Hk) as (H1 & H2). split.
    + intros i a Hi Hc. apply nth_snoc in Hi as [(-> & ->)|(_ & Hi)]; [apply (H2 Hc)|exact (H1 i a Hi Hc)].
    + intros i j a b L Hi Hj Ha Hb. apply nth_snoc in Hi. apply nth_snoc in Hj. destruct Hi as [(-> & ->)|(Li & Hi)]; [destruct Hj as [(-> & ->)|(Lj & _)]; lia|].
      destruct Hj as [(-> & ->)|(Lj & Hj)]; [exact (proj1 (H2 Hb) i a Hi Ha)|]. apply hb_app. exact (Ho i j a b L Hi Hj Ha Hb).
Qed.
End Walk.

Lemma covered_race m cov t h x : walk m cov None t = Some h -> (forall o, o = ORead x \/ o = OWrite x \/ o = OFree x -> cov o = true) -> ~ race_on t x.
Proof.
  intros Hw Hc (i & j & a & b & Hi & Hj & Hne & Ha & Hb & _ & N1 & N2). destruct (walk_ordered m cov t h Hw) as (_ & Ho).
  assert (Hu : forall e, uses x e -> covered cov e) by (intros [k o] [E|[E|E]]; cbn in E; subst o; apply Hc; auto).
  destruct (Nat.lt_trichotomy i j) as [L|[->|L]].
  - apply N1. exact (Ho i j a b L Hi Hj (Hu a Ha) (Hu b Hb)).
  - congruence.
  - apply N2. exact (Ho j i b a L Hj Hi (Hu b Hb) (Hu a Ha)).
Qed.

(** ** The scheduler *)
Definition scov (o : op) : bool :=
  match o with ORead XTasks | ORead XRunning | OWrite XTasks | OWrite XRunning | OFree XTasks | OFree XRunning | OSend _ _ | OTake _ _ => true | _ => false end.


Lemma race_run_inv (P : sched * list ev -> Prop) : (forall a c c', P c -> race_step a c = Some c' -> P c') ->
  forall l c c', P c -> race_run l c = Some c' -> P c'.
Proof.
  intros Hs. induction l as [|a l IH]; intros c c' Hp H; cbn [race_run] in H; [congruence|].
  destruct (race_step a c) as [c1|] eqn:E; [|discriminate]. exact (IH c1 c' (Hs a c c1 Hp E) H).
Qed.
Definition guarded (c : sched * list ev) : Prop := mutex (fst c) /\ walk SchedM scov None (snd c) = Some (s_mtx (fst c)).
Lemma nat_refl i : Nat.eqb i i = true.
Proof. apply Nat.eqb_refl. Qed.
Lemma race_step_cases a s t c' : race_step a (s, t) = Some c' ->
  (exists b s', a = RSched b /\ sched_step b s = Some s' /\ c' = (s', t ++ sched_events b s)) \/
  (exists i x w, a = RUser i x w /\ c' = (s, t ++ [mkEv i (if w then OWrite (XUser x) else ORead (XUser x))])).
Proof.
  destruct a as [b|i x w]; cbn [race_step]; intros H.
  - destruct (sched_step b s) as [s'|] eqn:E; [|discriminate]. injection H as <-. left. eauto.
  - destruct (nth_error (s_thr s) i) as [th|]; [|discriminate]. destruct (th_pc th); try discriminate. injection H as <-. right. exists i, x, w. auto.
Qed.
Lemma walk_sched b s s' : mutex s -> sched_step b s = Some s' -> walk SchedM scov (s_mtx s) (sched_events b s) = Some (s_mtx s').
Proof.
  intros (Hm & _) Hs. destruct b as [i c|i|i|i|i]; cbn [sched_step] in Hs; pick; specialize (Hm _ _ Hi); destruct t as [p fs]; cbn [th_pc th_frames] in *; cbn [sched_events].
  1,3,4,5: destruct p; try discriminate; try (destruct fs; [discriminate|]); injection Hs as <-; reflexivity.
  rewrite Hi. cbn [th_pc]. unfold go in Hs. cbn [th_pc th_frames] in Hs.
  assert (Hh : holding p = true -> s_mtx s = Some i) by (intros Hp; apply Hm, Hp).
  destruct p; try discriminate; cbn [go_ops by_ map]; cases_go Hs; injection Hs as <-;
    try (rewrite (Hh eq_refl)); try rewrite Hmx;
    cbn [walk walk1 e_op e_thr mut_eqb scov map set_thr set_mtx add_log notify_all push stop_running ret s_mtx]; rewrite ?nat_refl;
    cbn [walk walk1 e_op e_thr mut_eqb scov map]; rewrite ?nat_refl; try reflexivity; try (symmetry; apply f_equal; first [exact (Hh eq_refl) | exact Hmx]).
Qed.
Lemma guarded_step a c c' : guarded c -> race_step a c = Some c' -> guarded c'.
Proof.
  destruct c as [s t]. intros (Hm & Hw) H. apply race_step_cases in H as [(b & s' & _ & Hs & ->)|(i & x & w & _ & ->)]; cbn [fst snd] in *.
  - split; cbn [fst snd]; [exact (step_mutex b s s' Hm Hs)|]. rewrite walk_app, Hw. exact (walk_sched b s s' Hm Hs).
  - split; cbn [fst snd]; [exact Hm|]. rewrite walk_app, Hw. destruct w; reflexivity.
Qed.
Lemma init_mutex n : mutex (sched_init n).
Proof.
  split; [|discriminate]. intros i t H. cbn [sched_init s_thr s_mtx] in *. apply nth_error_In, repeat_spec in H. subst t. split; discriminate.
Qed.
Lemma reach_guarded n l s t : race_run l (sched_init n, []) = Some (s, t) -> guarded (s, t).
Proof. apply (race_run_inv guarded guarded_step). split; [apply init_mutex|reflexivity]. Qed.
Lemma sched_race_free n l s t x : race_run l (sched_init n, []) = Some (s, t) -> x = XTasks \/ x = XRunning -> ~ race_on t x.
Proof.
  intros H Hx. destruct (reach_guarded n l s t H) as (_ & Hw). apply (covered_race SchedM scov t (s_mtx s) x Hw).
  intros o Ho. destruct Hx as [-> | ->]; destruct Ho as [->|[->| ->]]; reflexivity.
Qed.

(** *** Tasks *)
Definition special (e : ev) : bool := match e_op e with OSend _ _ | OTake _ _ | OBegin _ => true | _ => false end.
(** What thread [i] takes or starts after the [q]th event. *)
Definition idle_after (t : list ev) (q i : nat) : Prop :=
  forall r e, q < r -> nth_error t r = Some e -> e_thr e = i -> match e_op e with OTake _ _ | OBegin _ => False | _ => True end.
Record tasks_ok (s : sched) (t : list ev) : Prop := mkTasks {
  k_send : forall p i k j, nth_error t p = Some (mkEv i (OSend k j)) -> nth_error (s_posted s) k = Some (i, j);
  k_sent : forall k i j, nth_error (s_posted s) k = Some (i, j) -> exists p, nth_error t p = Some (mkEv i (OSend k j));
  k_once : forall p p' i i' k j j', nth_error t p = Some (mkEv i (OSend k j)) -> nth_error t p' = Some (mkEv i' (OSend k j')) -> p = p';
  k_take : forall q i k j, nth_error t q = Some (mkEv i (OTake k j)) -> nth_error (s_taken s) k = Some j /\ exists p a, p < q /\ nth_error t p = Some (mkEv a (OSend k j));
  k_twice : forall p p' i i' k j j', nth_error t p = Some (mkEv i (OTake k j)) -> nth_error t p' = Some (mkEv i' (OTake k j')) -> p = p';
  k_flight : forall i th j, nth_error (s_thr s) i = Some th -> flight th = [j] -> exists q k, nth_error t q = Some (mkEv i (OTake k j)) /\ idle_after t q i;
  k_begin : forall b i j, nth_error t b = Some (mkEv i (OBegin j)) -> exists q k, q < b /\ nth_error t q = Some (mkEv i (OTake k j)) /\ idle_after (firstn b t) q i }.

Lemma nth_app_quiet t u p e : (forall x, In x u -> special x = false) -> nth_error (t ++ u) p = Some e -> special e = true -> nth_error t p = Some e.
Proof.
  intros Hq Hp He. destruct (Nat.lt_ge_cases p (length t)) as [L|L].
  - rewrite nth_error_app1 in Hp by exact L. exact Hp.
  - rewrite nth_error_app2 in Hp by exact L. apply nth_error_In, Hq in Hp. congruence.
Qed.
Lemma idle_quiet t u q i : (forall x, In x u -> special x = false) -> idle_after t q i -> idle_after (t ++ u) q i.
Proof.
  intros Hq Hi r e L Hr Ht. destruct (special e) eqn:Es.
  - apply (nth_app_quiet t u r e Hq Hr) in Es. exact (Hi r e L Es Ht).
  - unfold special in Es. destruct (e_op e); try discriminate; exact Logic.I.
Qed.
Lemma firstn_keep {A} (t u : list A) b e : nth_error t b = Some e -> firstn b (t ++ u) = firstn b t.
Proof. intros H. apply nth_lt in H. rewrite firstn_app. replace (b - length t) with 0 by lia. cbn. apply app_nil_r. Qed.

Lemma quiet_ok s s' t u : tasks_ok s t -> (forall x, In x u -> special x = false) -> s_posted s' = s_posted s -> s_taken s' = s_taken s ->
  (forall i th j, nth_error (s_thr s') i = Some th -> flight th = [j] -> exists th', nth_error (s_thr s) i = Some th' /\ flight th' = [j]) -> tasks_ok s' (t ++ u).
Proof.
  intros [K1 K2 K3 K4 K5 K6 K7] Hq Hp Ht Hf. split; rewrite ?Hp, ?Ht.
  - intros p i k j H. apply (nth_app_quiet _ _ _ _ Hq) in H; [|reflexivity]. exact (K1 p i k j H).
  - intros k i j H. destruct (K2 k i j H) as (p & E). exists p. apply nth_keep, E.
  - intros p p' i i' k j j' H1 H2. apply (nth_app_quiet _ _ _ _ Hq) in H1; [|reflexivity]. apply (nth_app_quiet _ _ _ _ Hq) in H2; [|reflexivity]. exact (K3 p p' i i' k j j' H1 H2).
  - intros q i k j H. apply (nth_app_quiet _ _ _ _ Hq) in H; [|reflexivity]. destruct (K4 q i k j H) as (E1 & p & a & L & E2). split; [exact E1|]. exists p, a. split; [exact L|apply nth_keep, E2].
  - intros p p' i i' k j j' H1 H2. apply (nth_app_quiet _ _ _ _ Hq) in H1; [|reflexivity]. apply (nth_app_quiet _ _ _ _ Hq) in H2; [|reflexivity]. exact (K5 p p' i i' k j j' H1 H2).
  - intros i th j Hi Hfl. destruct (Hf i th j Hi Hfl) as (th' & Hi' & Hfl'). destruct (K6 i th' j Hi' Hfl') as (q & k & Hk & Hid). exists q, k. split; [apply nth_keep, Hk|]. apply idle_quiet; assumption.
  - intros b i j H. apply (nth_app_quiet _ _ _ _ Hq) in H; [|reflexivity]. destruct (K7 b i j H) as (q & k & L & Hk & Hid). exists q, k. split; [exact L|]. split; [apply nth_keep, Hk|]. rewrite (firstn_keep _ _ _ _ H). exact Hid.
Qed.
(** The three steps that matter. *)
Lemma send_ok s s' t i j : tasks_ok s t -> s_posted s' = s_posted s ++ [(i, j)] -> s_taken s' = s_taken s ->
  (forall i0 th j0, nth_error (s_thr s') i0 = Some th -> flight th = [j0] -> exists th', nth_error (s_thr s) i0 = Some th' /\ flight th' = [j0]) ->
  tasks_ok s' (t ++ [mkEv i (OSend (length (s_posted s)) j)]).
Proof.
  intros [K1 K2 K3 K4 K5 K6 K7] Hp Ht Hf. split; rewrite ?Hp, ?Ht.
  - intros p i0 k j0 H. apply nth_snoc in H as [(_ & E)|(_ & H)].
    + injection E as -> -> ->. apply nth_last.
    + apply nth_keep. exact (K1 p i0 k j0 H).
  - intros k i0 j0 H. apply nth_snoc in H as [(-> & E)|(_ & H)].
    + injection E as -> ->. exists (length t). apply nth_last.
    + destruct (K2 k i0 j0 H) as (p & E). exists p. apply nth_keep, E.
  - intros p p' i0 i' k j0 j' H1 H2. apply nth_snoc in H1 as [(-> & E1)|(L1 & H1)]; apply nth_snoc in H2 as [(-> & E2)|(L2 & H2)].
    + reflexivity.
    + injection E1 as -> -> ->. apply K1, nth_lt in H2. lia.
    + injection E2 as -> -> ->. apply K1, nth_lt in H1. lia.
    + exact (K3 p p' i0 i' k j0 j' H1 H2).
  - intros q i0 k j0 H. apply nth_snoc in H as [(_ & E)|(_ & H)]; [discriminate|]. destruct (K4 q i0 k j0 H) as (E1 & p & a & L & E2). split; [exact E1|]. exists p, a. split; [exact L|apply nth_keep, E2].
  - intros p p' i0 i' k j0 j' H1 H2. apply nth_snoc in H1 as [(_ & E1)|(L1 & H1)]; [discriminate|]. apply nth_snoc in H2 as [(_ & E2)|(L2 & H2)]; [discriminate|]. exact (K5 p p' i0 i' k j0 j' H1 H2).
  - intros i0 th j0 Hi Hfl. destruct (Hf i0 th j0 Hi Hfl) as (th' & Hi' & Hfl'). destruct (K6 i0 th' j0 Hi' Hfl') as (q & k & Hk & Hid). exists q, k. split; [apply nth_keep, Hk|].
    intros r e L Hr Het. apply nth_snoc in Hr as [(_ & ->)|(_ & Hr)]; [exact Logic.I|exact (Hid r e L Hr Het)].
  - intros b i0 j0 H. apply nth_snoc in H as [(_ & E)|(_ & H)]; [discriminate|]. destruct (K7 b i0 j0 H) as (q & k & L & Hk & Hid). exists q, k. split; [exact L|]. split; [apply nth_keep, Hk|]. rewrite (firstn_keep _ _ _ _ H). exact Hid.
Qed.
Lemma take_ok s s' t i j : tasks_ok s t -> s_posted s' = s_posted s -> s_taken s' = s_taken s ++ [j] -> (exists a, nth_error (s_posted s) (length (s_taken s)) = Some (a, j)) ->
  (forall i0 th j0, nth_error (s_thr s') i0 = Some th -> flight th = [j0] -> (i0 = i /\ j0 = j) \/ (i0 <> i /\ exists th', nth_error (s_thr s) i0 = Some th' /\ flight th' = [j0])) ->
  tasks_ok s' (t ++ [mkEv i (OTake (length (s_taken s)) j)]).
Proof.
  intros [K1 K2 K3 K4 K5 K6 K7] Hp Ht (a & Ha) Hf. split; rewrite ?Hp, ?Ht.
  - intros p i0 k j0 H. apply nth_snoc in H as [(_ & E)|(_ & H)]; [discriminate|]. exact (K1 p i0 k j0 H).
  - intros k i0 j0 H. destruct (K2 k i0 j0 H) as (p & E). exists p. apply nth_keep, E.
  - intros p p' i0 i' k j0 j' H1 H2. apply nth_snoc in H1 as [(_ & E1)|(L1 & H1)]; [discriminate|]. apply nth_snoc in H2 as [(_ & E2)|(L2 & H2)]; [discriminate|]. exact (K3 p p' i0 i' k j0 j' H1 H2).
  - intros q i0 k j0 H. apply nth_snoc in H as [(-> & E)|(_ & H)].
    + injection E as -> -> ->. split; [apply nth_last|]. destruct (K2 _ _ _ Ha) as (p & E). exists p, a. split; [exact (nth_lt _ _ _ E)|apply nth_keep, E].
    + destruct (K4 q i0 k j0 H) as (E1 & p & b & L & E2). split; [apply nth_keep, E1|]. exists p, b. split; [exact L|apply nth_keep, E2].
  - intros p p' i0 i' k j0 j' H1 H2. apply nth_snoc in H1 as [(-> & E1)|(L1 & H1)]; apply nth_snoc in H2 as [(-> & E2)|(L2 & H2)].
    + reflexivity.
    + injection E1 as -> -> ->. apply K4 in H2 as (H2 & _). apply nth_lt in H2. lia.
    + injection E2 as -> -> ->. apply K4 in H1 as (H1 & _). apply nth_lt in H1. lia.
    + exact (K5 p p' i0 i' k j0 j' H1 H2).
  - intros i0 th j0 Hi Hfl. destruct (Hf i0 th j0 Hi Hfl) as [(-> & ->)|(Hne & th' & Hi' & Hfl')].
    + exists (length t), (length (s_taken s)). split; [apply nth_last|]. intros r e L Hr _. apply nth_lt in Hr. rewrite app_length in Hr. cbn in Hr. lia.
    + destruct (K6 i0 th' j0 Hi' Hfl') as (q & k & Hk & Hid). exists q, k. split; [apply nth_keep, Hk|].
      intros r e L Hr Het. apply nth_snoc in Hr as [(_ & ->)|(_ & Hr)]; [cbn in Het; congruence|exact (Hid r e L Hr Het)].
  - intros b i0 j0 H. apply nth_snoc in H as [(_ & E)|(_ & H)]; [discriminate|]. destruct (K7 b i0 j0 H) as (q & k & L & Hk & Hid). exists q, k. split; [exact L|]. split; [apply nth_keep, Hk|]. rewrite (firstn_keep _ _ _ _ H). exact Hid.
Qed.
Lemma begin_ok s s' t i th j : tasks_ok s t -> s_posted s' = s_posted s -> s_taken s' = s_taken s -> nth_error (s_thr s) i = Some th -> flight th = [j] ->
  (forall i0 th0 j0, nth_error (s_thr s') i0 = Some th0 -> flight th0 = [j0] -> i0 <> i /\ exists th', nth_error (s_thr s) i0 = Some th' /\ flight th' = [j0]) ->
  tasks_ok s' (t ++ [mkEv i (OBegin j)]).
Proof.
  intros [K1 K2 K3 K4 K5 K6 K7] Hp Ht Hi Hfl Hf. split; rewrite ?Hp, ?Ht.
  - intros p i0 k j0 H. apply nth_snoc in H as [(_ & E)|(_ & H)]; [discriminate|]. exact (K1 p i0 k j0 H).
  - intros k i0 j0 H. destruct (K2 k i0 j0 H) as (p & E). exists p. apply nth_keep, E.
  - intros p p' i0 i' k j0 j' H1 H2. apply nth_snoc in H1 as [(_ & E1)|(L1 & H1)]; [discriminate|]. apply nth_snoc in H2 as [(_ & E2)|(L2 & H2)]; [discriminate|]. exact (K3 p p' i0 i' k j0 j' H1 H2).
  - intros q i0 k j0 H. apply nth_snoc in H as [(_ & E)|(_ & H)]; [discriminate|]. destruct (K4 q i0 k j0 H) as (E1 & p & a & L & E2). split; [exact E1|]. exists p, a. split; [exact L|apply nth_keep, E2].
  - intros p p' i0 i' k j0 j' H1 H2. apply nth_snoc in H1 as [(_ & E1)|(L1 & H1)]; [discriminate|]. apply nth_snoc in H2 as [(_ & E2)|(L2 & H2)]; [discriminate|]. exact (K5 p p' i0 i' k j0 j' H1 H2).
  - intros i0 th0 j0 Hi0 Hfl0. destruct (Hf i0 th0 j0 Hi0 Hfl0) as (Hne & th' & Hi' & Hfl'). destruct (K6 i0 th' j0 Hi' Hfl') as (q & k & Hk & Hid). exists q, k. split; [apply nth_keep, Hk|].
    intros r e L Hr Het. apply nth_snoc in Hr as [(_ & ->)|(_ & Hr)]; [cbn in Het; congruence|exact (Hid r e L Hr Het)].
  - intros b i0 j0 H. apply nth_snoc in H as [(-> & E)|(_ & H)].
    + injection E as -> ->. destruct (K6 i th j Hi Hfl) as (q & k & Hk & Hid). exists q, k. split; [exact (nth_lt _ _ _ Hk)|]. split; [apply nth_keep, Hk|].
      rewrite firstn_app, Nat.sub_diag, firstn_all, app_nil_r. exact Hid.
    + destruct (K7 b i0 j0 H) as (q & k & L & Hk & Hid). exists q, k. split; [exact L|]. split; [apply nth_keep, Hk|]. rewrite (firstn_keep _ _ _ _ H). exact Hid.
Qed.
Lemma flight_put (s s' : sched) i x : (s_thr s' = put i x (s_thr s) \/ s_thr s' = put i x (map wake (s_thr s))) ->
  forall i0 th j0, nth_error (s_thr s') i0 = Some th -> flight th = [j0] -> (i0 = i /\ th = x) \/ (i0 <> i /\ exists th', nth_error (s_thr s) i0 = Some th' /\ flight th' = [j0]).
Proof.
  intros H i0 th j0 Hi Hf. destruct H as [H|H]; rewrite H in Hi; apply put_nth in Hi as [(<- & ->)|(Hne & Hi)]; auto; right; split; try congruence.
  - eauto.
  - rewrite nth_error_map in Hi. destruct (nth_error (s_thr s) i0) as [t0|] eqn:E; [|discriminate]. injection Hi as <-. exists t0. split; [reflexivity|]. rewrite <- wake_flight. exact Hf.
Qed.
Lemma flight_same (s s' : sched) i t x : nth_error (s_thr s) i = Some t -> (flight x = [] \/ flight x = flight t) ->
  (s_thr s' = put i x (s_thr s) \/ s_thr s' = put i x (map wake (s_thr s))) ->
  forall i0 th j0, nth_error (s_thr s') i0 = Some th -> flight th = [j0] -> exists th', nth_error (s_thr s) i0 = Some th' /\ flight th' = [j0].
Proof.
  intros Hi Hx H i0 th j0 Hth Hf. destruct (flight_put s s' i x H i0 th j0 Hth Hf) as [(-> & ->)|(_ & E)]; [|exact E].
  exists t. split; [exact Hi|]. destruct Hx as [E|E]; rewrite E in Hf; [discriminate|exact Hf].
Qed.
Definition all_ok (c : sched * list ev) : Prop := queue_inv (fst c) /\ tasks_ok (fst c) (snd c).
Lemma app_by t i a b : t ++ by_ i (a ++ b) = (t ++ by_ i a) ++ by_ i b.
Proof. unfold by_. rewrite map_app. apply app_assoc. Qed.
Lemma mid_ok s t i l : tasks_ok s t -> forallb (fun o => negb (special (mkEv i o))) l = true -> tasks_ok s (t ++ by_ i l).
Proof.
  intros H Hl. apply (quiet_ok s s t); [exact H| |reflexivity|reflexivity|eauto].
  intros e He. apply in_map_iff in He as (o & <- & Ho). rewrite forallb_forall in Hl. specialize (Hl o Ho). destruct (special (mkEv i o)); [discriminate|reflexivity].
Qed.
Lemma next_posted s j q : queue_inv s -> s_tasks s = j :: q -> exists a, nth_error (s_posted s) (length (s_taken s)) = Some (a, j).
Proof.
  unfold queue_inv. intros Hq Ht. assert (E : nth_error (map snd (s_posted s)) (length (s_taken s)) = Some j).
  { rewrite <- Hq, Ht, nth_error_app2, Nat.sub_diag by lia. reflexivity. }
  rewrite nth_error_map in E. destruct (nth_error (s_posted s) (length (s_taken s))) as [[a b]|]; [|discriminate]. injection E as ->. eauto.
Qed.
Lemma quiet_step s s' t i th x l : tasks_ok s t -> nth_error (s_thr s) i = Some th -> flight x = [] \/ flight x = flight th ->
  (s_thr s' = put i x (s_thr s) \/ s_thr s' = put i x (map wake (s_thr s))) -> s_posted s' = s_posted s -> s_taken s' = s_taken s ->
  forallb (fun o => negb (special (mkEv i o))) l = true -> tasks_ok s' (t ++ by_ i l).
Proof.
  intros H Hi Hx Hth Hp Ht Hl. apply (quiet_ok s s' t); [exact H| |exact Hp|exact Ht|exact (flight_same s s' i th x Hi Hx Hth)].
  intros e He. apply in_map_iff in He as (o & <- & Ho). rewrite forallb_forall in Hl. specialize (Hl o Ho). destruct (special (mkEv i o)); [discriminate|reflexivity].
Qed.
Lemma take_step s s' t i th x j q l : tasks_ok s t -> queue_inv s -> s_tasks s = j :: q -> nth_error (s_thr s) i = Some th -> flight x = [j] ->
  s_thr s' = put i x (s_thr s) -> s_posted s' = s_posted s -> s_taken s' = s_taken s ++ [j] ->
  forallb (fun o => negb (special (mkEv i o))) l = true -> tasks_ok s' (t ++ by_ i (l ++ [OTake (length (s_taken s)) j])).
Proof.
  intros H Hq Ht Hi Hx Hth Hp Htk Hl. rewrite app_by. apply (take_ok s s'); [apply mid_ok; assumption|exact Hp|exact Htk|exact (next_posted s j q Hq Ht)|].
  intros i0 th0 j0 H1 H2. destruct (flight_put s s' i x (or_introl Hth) i0 th0 j0 H1 H2) as [(-> & ->)|E]; [left; split; [reflexivity|congruence]|right; exact E].
Qed.
Lemma begin_step s s' t i th x j : tasks_ok s t -> nth_error (s_thr s) i = Some th -> flight th = [j] -> flight x = [] ->
  s_thr s' = put i x (s_thr s) -> s_posted s' = s_posted s -> s_taken s' = s_taken s -> tasks_ok s' (t ++ by_ i [OBegin j]).
Proof.
  intros H Hi Hf Hx Hth Hp Ht. apply (begin_ok s s' t i th j); try assumption.
  intros i0 th0 j0 H1 H2. destruct (flight_put s s' i x (or_introl Hth) i0 th0 j0 H1 H2) as [(-> & ->)|E]; [congruence|exact E].
Qed.
Ltac pick_thr := match goal with H : context[match nth_error ?l ?i with _ => _ end] |- _ => destruct (nth_error l i) as [th|] eqn:Hi; [|discriminate] end.
Lemma tasks_sched b s s' t : queue_inv s -> tasks_ok s t -> sched_step b s = Some s' -> tasks_ok s' (t ++ sched_events b s).
Proof.
  intros Hq Hk Hs. destruct b as [i c|i|i|i|i]; cbn [sched_step] in Hs; pick_thr; destruct th as [p fs]; cbn [th_pc th_frames] in *; cbn [sched_events].
  - destruct p; try discriminate. injection Hs as <-. apply (quiet_step s _ t i _ (mkThr (enter c) fs) [] Hk Hi); try reflexivity; [left; destruct c; reflexivity|left; reflexivity].
  - rewrite Hi. cbn [th_pc]. unfold go in Hs. cbn [th_pc th_frames] in Hs.
    destruct p; try discriminate; cbn [go_ops]; cases_go Hs; injection Hs as <-;
      try (eapply quiet_step; [exact Hk|exact Hi| |first [left; reflexivity|right; reflexivity]|reflexivity|reflexivity|reflexivity]; first [left; reflexivity|right; reflexivity]).
    + change [OWrite XTasks; OSend (length (s_posted s)) j] with ([OWrite XTasks] ++ [OSend (length (s_posted s)) j]). rewrite app_by.
      apply (send_ok s); [apply mid_ok; [exact Hk|reflexivity]|reflexivity|reflexivity|]. eapply flight_same; [exact Hi| |left; reflexivity]; left; reflexivity.
    + apply (take_step s _ t i _ (mkThr (PExec2 c j) fs) _ l [ORead XRunning; ORead XTasks; ORead XRunning; ORead XTasks; OWrite XTasks] Hk Hq Htasks Hi); reflexivity.
    + destruct c; (eapply quiet_step; [exact Hk|exact Hi| |left; reflexivity|reflexivity|reflexivity|reflexivity]; left; reflexivity).
    + eapply begin_step; [exact Hk|exact Hi|reflexivity| |reflexivity|reflexivity|reflexivity]; reflexivity.
    + destruct c; (eapply begin_step; [exact Hk|exact Hi|reflexivity| |reflexivity|reflexivity|reflexivity]; reflexivity).
    + apply (take_step s _ t i _ (mkThr (PPoll2 j) fs) _ l [ORead XRunning; ORead XTasks; ORead XTasks; OWrite XTasks] Hk Hq Htasks Hi); reflexivity.
    + eapply begin_step; [exact Hk|exact Hi|reflexivity| |reflexivity|reflexivity|reflexivity]; reflexivity.
    + eapply begin_step; [exact Hk|exact Hi|reflexivity| |reflexivity|reflexivity|reflexivity]; reflexivity.
  - destruct p; try discriminate. injection Hs as <-. apply (quiet_step s _ t i _ (mkThr (PWoke c) fs) [] Hk Hi); try reflexivity; left; reflexivity.
  - destruct p; try discriminate. destruct fs as [|f fs]; [discriminate|]. injection Hs as <-. unfold ret.
    eapply (quiet_step s _ t i _ _ [] Hk Hi); [ |left; reflexivity|reflexivity|reflexivity|reflexivity]. left. destruct f as [[]|]; reflexivity.
  - destruct p; try discriminate. destruct fs as [|f fs]; [discriminate|]. injection Hs as <-. apply (quiet_step s _ t i _ (mkThr PUser fs) [] Hk Hi); try reflexivity; left; reflexivity.
Qed.
Lemma all_ok_step a c c' : all_ok c -> race_step a c = Some c' -> all_ok c'.
Proof.
  destruct c as [s t]. intros (Hq & Hk) H. apply race_step_cases in H as [(b & s' & _ & Hs & ->)|(i & x & w & _ & ->)]; cbn [fst snd] in *; split; cbn [fst snd].
  - exact (step_queue b s s' Hq Hs).
  - exact (tasks_sched b s s' t Hq Hk Hs).
  - exact Hq.
  - apply (mid_ok s t i [if w then OWrite (XUser x) else ORead (XUser x)] Hk). destruct w; reflexivity.
Qed.
Lemma reach_all_ok n l s t : race_run l (sched_init n, []) = Some (s, t) -> queue_inv s /\ tasks_ok s t.
Proof.
  apply (race_run_inv all_ok all_ok_step). split; [reflexivity|]. cbn [fst snd].
  split; try (intros [|p]; discriminate).
  intros i th j H. cbn [sched_init s_thr] in H. apply nth_error_In, repeat_spec in H. subst th. discriminate.
Qed.
Lemma send_take n l s t p q a i k j j' : race_run l (sched_init n, []) = Some (s, t) ->
  nth_error t p = Some (mkEv a (OSend k j)) -> nth_error t q = Some (mkEv i (OTake k j')) -> hb t p q /\ j' = j.
Proof.
  intros H Hp Hq. destruct (reach_all_ok n l s t H) as (_ & K). destruct (k_take s t K q i k j' Hq) as (_ & p' & a' & L & Hp').
  pose proof (k_once s t K _ _ _ _ _ _ _ Hp Hp') as <-. rewrite Hp in Hp'. injection Hp' as <- <-. split; [|reflexivity].
  destruct (reach_guarded n l s t H) as (_ & Hw). destruct (walk_ordered _ _ _ _ Hw) as (_ & Ho). exact (Ho p q _ _ L Hp Hq eq_refl eq_refl).
Qed.
Lemma po t i j a b : i < j -> nth_error t i = Some a -> nth_error t j = Some b -> e_thr a = e_thr b -> hb t i j.
Proof. intros L Hi Hj E. exact (hb_edge t i j a b L Hi Hj (or_introl E)). Qed.
Lemma publish n l s t b i j : race_run l (sched_init n, []) = Some (s, t) -> nth_error t b = Some (mkEv i (OBegin j)) ->
  exists k a p q, nth_error t p = Some (mkEv a (OSend k j)) /\ nth_error t q = Some (mkEv i (OTake k j)) /\ p < q /\ q < b /\
    (forall r e, q < r -> r < b -> nth_error t r = Some e -> e_thr e = i -> match e_op e with OTake _ _ | OBegin _ => False | _ => True end) /\
    forall u x v y, nth_error t u = Some x -> e_thr x = a -> u <= p -> nth_error t v = Some y -> e_thr y = i -> q <= v -> hb t u v.
Proof.
  intros H Hb. destruct (reach_all_ok n l s t H) as (_ & K). destruct (k_begin s t K b i j Hb) as (q & k & L & Hq & Hid). destruct (k_take s t K q i k j Hq) as (_ & p & a & Lp & Hp).
  exists k, a, p, q. split; [exact Hp|]. split; [exact Hq|]. split; [exact Lp|]. split; [exact L|]. split.
  - intros r e L1 L2 Hr. apply (Hid r e L1). rewrite <- (firstn_skipn b t) in Hr. rewrite nth_error_app1 in Hr; [exact Hr|]. rewrite firstn_length. pose proof (nth_lt _ _ _ Hb). lia.
  - intros u x v y Hu Ex Lu Hv Ey Lv. destruct (send_take n l s t p q a i k j j H Hp Hq) as (Hh & _).
    assert (H1 : hb t u q). { destruct (Nat.eq_dec u p) as [->|]; [exact Hh|]. exact (hb_trans t u p q (po t u p x _ ltac:(lia) Hu Hp Ex) Hh). }
    destruct (Nat.eq_dec v q) as [->|]; [exact H1|]. exact (hb_trans t u q v H1 (po t q v _ y ltac:(lia) Hq Hv (eq_sym Ey))).
Qed.

(** ** The keyboard and the session *)
Definition ecov (o : op) : bool := match o with ORead XEnabled | OWrite XEnabled => true | _ => false end.
Definition hold (o : option who) : option nat := match o with Some Worker => Some 1 | Some Main => Some 0 | None => None end.
(** What the threads do after the constructors of the members: thread 1, thread 0, others. *)
Definition allowed (e : ev) : bool :=
  match e_thr e with
  | 1 => match e_op e with OAcq _ | ORel _ | ORead XEnabled | ORead XReadPipe | OWrite XTasks => true | _ => false end
  | 0 => match e_op e with OWrite XReadPipe => false | _ => true end
  | _ => match e_op e with OAcq _ | ORel _ | OWrite XRunning => true | _ => false end
  end.
Definition ends (e : ev) : bool := match e_op e with OFree XEnabled | OFree XReadPipe => true | _ => false end.
Record kinv (k : kbd) (t : list ev) : Prop := mkKinv {
  v_safe : mutex_ok k /\ sleep_ok k /\ pipe_ok k;
  v_sched : walk SchedM scov None t = Some None;
  v_kbd : exists r, t = ctor_events ++ r /\ walk KbdM ecov None r = Some (hold (k_mtx k)) /\ forallb allowed r = true;
  v_join : forall p a, nth_error t p = Some (mkEv a (OJoin 1)) -> k_w k = WDone /\ forall i e, nth_error t i = Some e -> e_thr e = 1 -> i < p;
  v_end : forall j e, nth_error t j = Some e -> ends e = true -> e_thr e = 0 /\ exists p, p < j /\ nth_error t p = Some (mkEv 0 (OJoin 1)) }.

Definition plain (o : op) : bool :=
  match o with
  | OAcq KbdM | ORel KbdM | ORead XEnabled | OWrite XEnabled | OFree XEnabled | OWrite XReadPipe | OFree XReadPipe | OJoin _ => false
  | _ => true
  end.
Lemma kinv_app k k' t i u : kinv k t -> (mutex_ok k' /\ sleep_ok k' /\ pipe_ok k') -> walk SchedM scov None (by_ i u) = Some None ->
  walk KbdM ecov (hold (k_mtx k)) (by_ i u) = Some (hold (k_mtx k')) -> forallb allowed (by_ i u) = true ->
  (k_w k = WDone -> k_w k' = WDone /\ i <> 1) -> forallb (fun o => match o with OJoin _ | OFree XEnabled | OFree XReadPipe => false | _ => true end) u = true -> kinv k' (t ++ by_ i u).
Proof.
  intros [V1 V2 (r & Er & V3 & V4) V5 V6] Hs H1 H2 H3 H4 H5.
  assert (Hn : forall p e, nth_error (t ++ by_ i u) p = Some e -> nth_error t p = Some e \/ (length t <= p /\ exists o, e = mkEv i o /\ In o u)).
  { intros p e H. destruct (Nat.lt_ge_cases p (length t)) as [L|L].
    - left. rewrite nth_error_app1 in H by exact L. exact H.
    - right. rewrite nth_error_app2 in H by exact L. apply nth_error_In, in_map_iff in H as (o & <- & Ho). split; [exact L|]. exists o. auto. }
  rewrite forallb_forall in H5.
  split.
  - exact Hs.
  - rewrite walk_app, V2. exact H1.
  - exists (r ++ by_ i u). split; [rewrite Er, app_assoc; reflexivity|]. split; [rewrite walk_app, V3; exact H2|]. rewrite forallb_app, V4, H3. reflexivity.
  - intros p a Hp. destruct (Hn _ _ Hp) as [Hp'|(_ & o & E & Ho)]; [|injection E as -> <-; specialize (H5 _ Ho); discriminate]. destruct (V5 p a Hp') as (Hw & Hj). destruct (H4 Hw) as (Hw' & Hi). split; [exact Hw'|].
    intros q e Hq E1. destruct (Hn _ _ Hq) as [Hq'|(_ & o & -> & Ho)]; [exact (Hj q e Hq' E1)|]. cbn in E1. contradiction.
  - intros j e Hj He. destruct (Hn _ _ Hj) as [Hj'|(_ & o & -> & Ho)].
    + destruct (V6 j e Hj' He) as (E0 & p & L & Hp). split; [exact E0|]. exists p. split; [exact L|apply nth_keep, Hp].
    + specialize (H5 _ Ho). cbn in He. destruct o as [| | | |[]| | | | |]; discriminate.
Qed.
Lemma kinv_plain k t i u : kinv k t -> i <> 1 -> walk SchedM scov None (by_ i u) = Some None -> forallb plain u = true -> forallb allowed (by_ i u) = true -> kinv k (t ++ by_ i u).
Proof.
  intros V Hi H1 H2 H3. apply (kinv_app k k t i u V (v_safe k t V) H1); [|exact H3|auto|].
  - clear - H2. induction u as [|o u IH]; [reflexivity|]. cbn [forallb] in H2. apply andb_prop in H2 as (Ho & Hu). cbn [by_ map walk]. replace (walk1 KbdM ecov (hold (k_mtx k)) (mkEv i o)) with (Some (hold (k_mtx k))); [exact (IH Hu)|].
    unfold walk1. cbn [e_op]. destruct o as [[]|[]|[]|[]|[]| | | | |]; try discriminate Ho; reflexivity.
  - rewrite forallb_forall in *. intros o Ho. specialize (H2 o Ho). destruct o as [[]|[]|[]|[]|[]| | | | |]; try discriminate H2; reflexivity.
Qed.
Lemma step_done sgn a s s' : k_w s = WDone -> k_step sgn a s = Some s' -> k_w s' = WDone.
Proof. intros Hw H. apply (done_forever sgn [a] s s' Hw). cbn [k_run]. rewrite H. reflexivity. Qed.

Lemma getchar_mtx s c s' : getchar s = Some (c, s') -> k_mtx s' = k_mtx s.
Proof. intros H. apply getchar_inv in H as (r & e & cs & -> & _). reflexivity. Qed.
Lemma walk_kbd sgn a k k' : mutex_ok k -> k_step sgn a k = Some k' -> walk KbdM ecov (hold (k_mtx k)) (k_events a k) = Some (hold (k_mtx k')).
Proof.
  intros S1 Hs. unfold mutex_ok in S1. destruct a as [| | | |c|x| | |md]; cbn [k_events]; unfold k_step in Hs.
  - assert (Hw : w_step sgn k = Some k') by (destruct (k_m k); congruence). clear Hs. unfold w_ops; unfold w_step in Hw; destruct (k_w k) eqn:Ew; try discriminate.
    + apply opt_map_inv in Hw as (x & Hl & ->). apply lock_inv in Hl as (Hl & ->). rewrite Hl. reflexivity.
    + destruct (k_mtx k) as [[]|] eqn:Emx; destruct S1 as (S1 & S1'); try discriminate. destruct (k_enabled k); injection Hw as <-; [|reflexivity]. cbn [to_w k_mtx]. rewrite Emx. reflexivity.
    + apply opt_map_inv in Hw as (x & Hl & ->). apply lock_inv in Hl as (Hl & ->). rewrite Hl. reflexivity.
    + destruct (k_mtx k) as [[]|]; destruct S1 as (S1 & S1'); try discriminate. injection Hw as <-. reflexivity.
    + destruct (k_stop k); [injection Hw as <-; reflexivity|]. destruct (k_ready k); [destruct (k_eof k); [|discriminate]|]; injection Hw as <-; reflexivity.
    + unfold read_then in Hw. apply opt_map_inv in Hw as ((x & s1) & Hl & ->). cbn [k_mtx to_w]. rewrite (getchar_mtx _ _ _ Hl). reflexivity.
    + unfold read_then in Hw. apply opt_map_inv in Hw as ((x & s1) & Hl & ->). cbn [k_mtx to_w]. rewrite (getchar_mtx _ _ _ Hl). reflexivity.
    + unfold read_then in Hw. apply opt_map_inv in Hw as ((x & s1) & Hl & ->). cbn [k_mtx to_w]. rewrite (getchar_mtx _ _ _ Hl). reflexivity.
    + unfold read_then in Hw. apply opt_map_inv in Hw as ((x & s1) & Hl & ->). cbn [k_mtx to_w]. rewrite (getchar_mtx _ _ _ Hl). reflexivity.
    + injection Hw as <-. reflexivity.
  - assert (Hw : m_step k = Some k') by (destruct (k_m k); congruence). clear Hs. unfold m_ops; unfold m_step in Hw; destruct (k_m k) eqn:Em; try discriminate;
      try (injection Hw as <-; reflexivity);
      try (apply opt_map_inv in Hw as (x & Hl & ->); apply lock_inv in Hl as (Hl & ->); rewrite Hl; reflexivity);
      try (destruct (k_mtx k) as [[]|] eqn:Emx; destruct S1 as (S1 & S1'); try discriminate; injection Hw as <-; cbn [to_m with_enabled k_mtx]; rewrite ?Emx; reflexivity).
    + injection Hw as <-. destruct (k_w k); reflexivity.
    + destruct (k_reader k); injection Hw as <-; reflexivity.
    + destruct (k_w k); try discriminate. injection Hw as <-. reflexivity.
  - destruct (k_m k), (k_w k); try discriminate; injection Hs as <-; reflexivity.
  - destruct (k_m k), (k_w k); try discriminate; injection Hs as <-; reflexivity.
  - destruct (k_m k), c; try discriminate; injection Hs as <-; reflexivity.
  - destruct (k_m k); try discriminate; injection Hs as <-; reflexivity.
  - destruct (k_m k); try discriminate; injection Hs as <-; reflexivity.
  - destruct (k_ready k); [destruct (k_m k); discriminate|]. destruct (k_m k); try discriminate; injection Hs as <-; reflexivity.
  - destruct (k_m k); try discriminate; injection Hs as <-; reflexivity.
Qed.
Lemma kinv_join k k' t : kinv k t -> m_step k = Some k' -> k_m k = MDt3 -> (mutex_ok k' /\ sleep_ok k' /\ pipe_ok k') ->
  walk KbdM ecov (hold (k_mtx k)) (by_ 0 (OJoin 1 :: kbd_over)) = Some (hold (k_mtx k')) -> kinv k' (t ++ by_ 0 (OJoin 1 :: kbd_over)).
Proof.
  intros [V1 V2 (r & Er & V3 & V4) V5 V6] Hs Hm Hs' Hw.
  assert (Hd : k_w k = WDone /\ k_w k' = WDone).
  { unfold m_step in Hs. rewrite Hm in Hs. destruct (k_w k) eqn:Ew; try discriminate. injection Hs as <-. auto. }
  destruct Hd as (D1 & D2).
  assert (Hn : forall p e, nth_error (t ++ by_ 0 (OJoin 1 :: kbd_over)) p = Some e -> nth_error t p = Some e \/
     (p = length t /\ e = mkEv 0 (OJoin 1)) \/ (length t < p /\ exists o, e = mkEv 0 o /\ In o kbd_over)).
  { intros p e H. destruct (Nat.lt_ge_cases p (length t)) as [L|L].
    - left. rewrite nth_error_app1 in H by exact L. exact H.
    - right. rewrite nth_error_app2 in H by exact L. unfold by_ in H. cbn [map] in H. destruct (p - length t) as [|n] eqn:En.
      + cbn [nth_error] in H. left. split; [lia|congruence].
      + right. split; [lia|]. cbn [nth_error] in H. apply nth_error_In in H. change (In e (by_ 0 kbd_over)) in H. apply in_map_iff in H as (o & <- & Ho). eauto. }
  assert (Hj0 : nth_error (t ++ by_ 0 (OJoin 1 :: kbd_over)) (length t) = Some (mkEv 0 (OJoin 1))).
  { rewrite nth_error_app2, Nat.sub_diag by lia. reflexivity. }
  split.
  - exact Hs'.
  - rewrite walk_app, V2. reflexivity.
  - exists (r ++ by_ 0 (OJoin 1 :: kbd_over)). split; [rewrite Er, app_assoc; reflexivity|]. split; [rewrite walk_app, V3; exact Hw|]. rewrite forallb_app, V4. reflexivity.
  - intros p a Hp. split; [exact D2|]. intros i e Hi E1.
    assert (Li : i < length t).
    { destruct (Hn _ _ Hi) as [H|[(_ & ->)|(_ & o & -> & _)]]; [exact (nth_lt _ _ _ H)|discriminate|discriminate]. }
    rewrite nth_error_app1 in Hi by exact Li. destruct (Hn _ _ Hp) as [H|[(-> & _)|(L & _)]]; [exact (proj2 (V5 p a H) i e Hi E1)|exact Li|lia].
  - intros j e Hj He. destruct (Hn _ _ Hj) as [H|[(_ & ->)|(L & o & -> & _)]]; [|discriminate|].
    + destruct (V6 j e H He) as (E0 & p & L & Hp). split; [exact E0|]. exists p. split; [exact L|apply nth_keep, Hp].
    + split; [reflexivity|]. exists (length t). split; [exact L|exact Hj0].
Qed.
Lemma kinv_step sgn a k k' t : kinv k t -> k_step sgn a k = Some k' -> kinv k' (t ++ k_events a k).
Proof.
  intros V Hs. pose proof (v_safe k t V) as (S1 & S2 & S3). pose proof (safe_step sgn a k k' S1 S2 S3 Hs) as Hs'. pose proof (fun H => step_done sgn a k k' H Hs) as Hd.
  pose proof (walk_kbd sgn a k k' S1 Hs) as Hw.
  assert (Hq : k_events a k = [] -> kinv k' (t ++ k_events a k)).
  { intros E. rewrite E in *. apply (kinv_app k k' t 0 [] V Hs'); try reflexivity; [exact Hw|]. intros E'. split; [exact (Hd E')|discriminate]. }
  destruct a as [| | | |c|x| | |md]; try exact (Hq eq_refl); clear Hq.
  - cbn [k_events] in *. apply (kinv_app k k' t 1 (w_ops k) V Hs'); try exact Hw.
    + unfold w_ops. destruct (k_w k); try reflexivity. destruct (k_enabled k); reflexivity.
    + unfold w_ops. destruct (k_w k); try reflexivity. destruct (k_enabled k); reflexivity.
    + intros E. exfalso. unfold k_step, w_step in Hs. rewrite E in Hs. destruct (k_m k); discriminate.
    + unfold w_ops. destruct (k_w k); try reflexivity. destruct (k_enabled k); reflexivity.
  - cbn [k_events] in *. assert (Hm : m_step k = Some k') by (unfold k_step in Hs; destruct (k_m k); congruence).
    destruct (k_m k) eqn:Em; try (apply (kinv_app k k' t 0 (m_ops k) V Hs'); [ |exact Hw| |intros E; split; [exact (Hd E)|discriminate]| ]; unfold m_ops; rewrite Em; reflexivity).
    unfold m_ops in *. rewrite Em in *. exact (kinv_join k k' t V Hm Em Hs' Hw).
  - cbn [k_events] in *. apply (kinv_app k k' t 1 [ORead XReadPipe] V Hs'); try exact Hw; try reflexivity.
    intros E. exfalso. unfold k_step in Hs. rewrite E in Hs. destruct (k_m k); discriminate.
Qed.
Section Session.
Context (E : env) (sgn : bool) (fuel : nat) (tty : bool) (color : list event -> bool * bool).
Lemma racel_run_inv (P : local * list ev -> Prop) : (forall a c c', P c -> racel_step E sgn fuel tty color a c = Some c' -> P c') ->
  forall l c c', P c -> racel_run E sgn fuel tty color l c = Some c' -> P c'.
Proof.
  intros Hs. induction l as [|a l IH]; intros c c' Hp H; cbn [racel_run] in H; [congruence|].
  destruct (racel_step E sgn fuel tty color a c) as [c1|] eqn:Ea; [|discriminate]. exact (IH c1 c' (Hs a c c1 Hp Ea) H).
Qed.
Lemma call_kbd_inv c p s s' : call_kbd sgn c p s = LcOk s' -> k_step sgn (MCall c) (lc_kbd s) = Some (lc_kbd s').
Proof. unfold call_kbd. destruct (k_step sgn (MCall c) (lc_kbd s)) as [k|]; [|discriminate]. intros [= <-]. reflexivity. Qed.
Lemma in_kbd_inv s next s' : in_kbd sgn s next = LcOk s' ->
  (k_m (lc_kbd s) = MUser /\ next = LcOk s') \/ (k_m (lc_kbd s) <> MUser /\ k_step sgn MGo (lc_kbd s) = Some (lc_kbd s')).
Proof.
  unfold in_kbd. intros H. destruct (k_m (lc_kbd s)) eqn:Em; try (left; split; [reflexivity|exact H]); right; (split; [discriminate|]);
    (destruct (k_step sgn MGo (lc_kbd s)) as [k|]; [|discriminate]); injection H as <-; reflexivity.
Qed.
(** A step of the main thread: one of the keyboard's, or one that starts a call of it or leaves it alone. *)
Lemma main_events s s' : l_main E sgn fuel tty color s = LcOk s' ->
  (k_step sgn MGo (lc_kbd s) = Some (lc_kbd s') /\ main_ops s = m_ops (lc_kbd s)) \/
  ((lc_kbd s' = lc_kbd s \/ exists c, k_step sgn (MCall c) (lc_kbd s) = Some (lc_kbd s')) /\
    walk SchedM scov None (by_ 0 (main_ops s)) = Some None /\ forallb plain (main_ops s) = true /\ forallb allowed (by_ 0 (main_ops s)) = true).
Proof.
  unfold l_main, main_ops. destruct (lc_main s) eqn:El; intros H.
  - apply in_kbd_inv in H as [(Em & H)|(Em & H)].
    + right. rewrite Em. split; [|auto]. destruct (open_local _ _ _ _); try discriminate; [injection H as <-; left; reflexivity|]. apply call_kbd_inv in H. right. eauto.
    + left. split; [exact H|]. destruct (k_m (lc_kbd s)); congruence.
  - right. split; [|auto]. destruct (lc_stopped s); [discriminate|]. destruct (lc_queue s) as [|k q]; [discriminate|]. destruct (is_command tty color k (lc_proc s)).
    + apply call_kbd_inv in H. right. eauto.
    + destruct (l_press _ _ _ _ _ _); try discriminate; injection H as <-; left; reflexivity.
  - apply in_kbd_inv in H as [(Em & H)|(Em & H)].
    + right. rewrite Em. split; [|auto]. destruct (l_press _ _ _ _ _ _); try discriminate; [apply call_kbd_inv in H; right; eauto|injection H as <-; left; reflexivity].
    + left. split; [exact H|]. destruct (k_m (lc_kbd s)); congruence.
  - apply in_kbd_inv in H as [(Em & H)|(Em & H)].
    + right. rewrite Em. split; [|auto]. injection H as <-. left. reflexivity.
    + left. split; [exact H|]. destruct (k_m (lc_kbd s)); congruence.
  - destruct (k_m (lc_kbd s)) eqn:Em; try (apply in_kbd_inv in H as [(_ & H)|(_ & H)]; [discriminate H|left; split; [exact H|reflexivity]]).
    right. split; [|auto]. injection H as <-. left. reflexivity.
  - destruct (lc_stopped s); [discriminate|]. destruct (lc_queue s); discriminate.
Qed.
Definition linv (c : local * list ev) : Prop := kinv (lc_kbd (fst c)) (snd c).
Lemma kinv_call k k' t c : kinv k t -> k_step sgn (MCall c) k = Some k' -> kinv k' t.
Proof. intros V H. apply (kinv_step sgn _ _ _ _ V) in H. cbn [k_events] in H. rewrite app_nil_r in H. exact H. Qed.
Lemma linv_step a c c' : linv c -> racel_step E sgn fuel tty color a c = Some c' -> linv c'.
Proof.
  destruct c as [s t]. unfold linv. cbn [fst snd]. intros V H. destruct a as [a|i|]; cbn [racel_step] in H.
  - destruct a as [|ka| |].
    + destruct (l_step E sgn fuel tty color LMain s) as [s'| | | |] eqn:El; try discriminate. injection H as <-. cbn [fst snd l_events]. cbn [l_step] in El.
      apply main_events in El as [(Hk & ->)|(Hk & H1 & H2 & H3)].
      * exact (kinv_step sgn MGo _ _ t V Hk).
      * destruct Hk as [->|(c & Hk)]; [|apply (kinv_call _ _ _ _ V) in Hk; clear V; rename Hk into V]; apply kinv_plain; auto.
    + destruct (l_step E sgn fuel tty color (LKbd ka) s) as [s'| | | |] eqn:El; try discriminate. injection H as <-. cbn [fst snd l_events]. cbn [l_step] in El.
      assert (Hk : k_step sgn ka (lc_kbd s) = Some (lc_kbd s')).
      { destruct ka; try discriminate; (destruct (k_step sgn _ (lc_kbd s)) as [k|]; [|discriminate]); injection El as <-; reflexivity. }
      exact (kinv_step sgn ka _ _ t V Hk).
    + discriminate.
    + destruct (l_step E sgn fuel tty color LDestroy s) as [s'| | | |] eqn:El; try discriminate. injection H as <-. cbn [fst snd l_events]. cbn [l_step] in El. rewrite app_nil_r.
      destruct (lc_main s); try discriminate. apply call_kbd_inv in El. exact (kinv_call _ _ _ _ V El).
  - assert (Hi : i <> 1) by (intros ->; discriminate). assert (Hc : c' = (set_stopped s, t ++ by_ i [OAcq SchedM; OWrite XRunning; ORel SchedM])) by (destruct i as [|[|i]]; congruence).
    subst c'. cbn [fst snd]. apply (kinv_plain (lc_kbd s)); [exact V|exact Hi| |reflexivity|].
    + cbn [by_ map walk walk1 e_op e_thr mut_eqb scov]. rewrite Nat.eqb_refl. cbn [walk1 e_op e_thr mut_eqb]. rewrite Nat.eqb_refl. reflexivity.
    + destruct i as [|[|i]]; [reflexivity|contradiction|reflexivity].
  - destruct (lc_main s); try discriminate. injection H as <-. apply (kinv_plain (lc_kbd s) t 0 [OAcq SchedM; ORead XRunning; ORead XTasks; ORel SchedM] V); auto.
Qed.
Lemma linv_init m junk w : linv (racel_init m junk w).
Proof.
  unfold linv. cbn [racel_init fst snd local_init lc_kbd]. split.
  - unfold mutex_ok, sleep_ok, pipe_ok. cbn. repeat split; discriminate.
  - reflexivity.
  - exists []. repeat split.
  - intros p a H. do 6 (destruct p as [|p]; [discriminate|]). destruct p; discriminate.
  - intros j e H He. do 6 (destruct j as [|j]; [injection H as <-; discriminate|]). destruct j; discriminate.
Qed.
Lemma reach_linv m junk w l s t : racel_run E sgn fuel tty color l (racel_init m junk w) = Some (s, t) -> kinv (lc_kbd s) t.
Proof. exact (racel_run_inv linv linv_step l _ (s, t) (linv_init m junk w)). Qed.
End Session.

(** Two uses of a variable by different threads, one of them a change, are ordered. *)
Lemma kinv_order k t x i j a b : kinv k t -> i < j -> nth_error t i = Some a -> nth_error t j = Some b -> e_thr a <> e_thr b ->
  uses x a -> uses x b -> writes x a \/ writes x b -> hb t i j.
Proof.
  intros [V1 V2 (r & Er & V3 & V4) V5 V6] L Hi Hj Hne Ua Ub Hwr.
  assert (Hsch : x = XTasks \/ x = XRunning -> hb t i j).
  { intros Hx. destruct (walk_ordered _ _ _ _ V2) as (_ & Ho). apply (Ho i j a b L Hi Hj).
    - destruct a as [ta oa]. destruct Hx as [-> | ->]; destruct Ua as [Ea|[Ea|Ea]]; cbn in Ea; subst oa; reflexivity.
    - destruct b as [tb ob]. destruct Hx as [-> | ->]; destruct Ub as [Ea|[Ea|Ea]]; cbn in Ea; subst ob; reflexivity. }
  assert (Hloc : forall n e, nth_error t n = Some e -> (n < 6 /\ e_thr e = 0) \/ (6 <= n /\ nth_error r (n - 6) = Some e /\ allowed e = true)).
  { intros n e Hn. rewrite Er in Hn. destruct (Nat.lt_ge_cases n 6) as [Ln|Ln].
    - left. split; [exact Ln|]. rewrite nth_error_app1 in Hn by exact Ln. apply nth_error_In, in_map_iff in Hn as (o & <- & _). reflexivity.
    - right. split; [exact Ln|]. rewrite nth_error_app2 in Hn by exact Ln. change (length ctor_events) with 6 in Hn. split; [exact Hn|]. rewrite forallb_forall in V4. apply V4. exact (nth_error_In _ _ Hn). }
  assert (Hfork : nth_error t 5 = Some (mkEv 0 (OFork 1))) by (rewrite Er; reflexivity).
  (* threads other than 0 and 1 *)
  assert (Hbig : forall n e, nth_error t n = Some e -> uses x e -> e_thr e <> 0 -> e_thr e <> 1 -> x = XRunning).
  { intros n [te oe] Hn U N0 N1. destruct (Hloc n _ Hn) as [(_ & E0)|(_ & _ & A)]; [contradiction|]. cbn [e_thr] in *. unfold allowed in A. cbn [e_thr e_op] in A.
    destruct te as [|[|te]]; try contradiction. destruct U as [Eo|[Eo|Eo]]; cbn in Eo; subst oe; destruct x; try discriminate; reflexivity. }
  assert (Hone : forall n e, nth_error t n = Some e -> uses x e -> e_thr e = 1 -> 6 <= n /\ (x = XTasks \/ (e_op e = ORead x /\ (x = XEnabled \/ x = XReadPipe)))).
  { intros n [te oe] Hn U N1. destruct (Hloc n _ Hn) as [(_ & E0)|(L6 & _ & A)]; [congruence|]. split; [exact L6|]. cbn [e_thr e_op] in *. subst te. unfold allowed in A. cbn [e_thr e_op] in A.
    destruct U as [Eo|[Eo|Eo]]; cbn in Eo; subst oe; destruct x; try discriminate; auto. }
  assert (Hcov : x = XEnabled -> 6 <= i -> e_op a = ORead x \/ e_op a = OWrite x -> e_op b = ORead x \/ e_op b = OWrite x -> hb t i j).
  { intros -> L6 Oa Ob. destruct (Hloc i a Hi) as [(Lx & _)|(_ & Ri & _)]; [lia|]. destruct (Hloc j b Hj) as [(Lx & _)|(Lj & Rj & _)]; [lia|].
    destruct (walk_ordered _ _ _ _ V3) as (_ & Ho).
    assert (Hc : forall e, e_op e = ORead XEnabled \/ e_op e = OWrite XEnabled -> covered ecov e) by (intros e [O|O]; unfold covered; rewrite O; reflexivity).
    pose proof (hb_shift ctor_events r _ _ (Ho (i - 6) (j - 6) a b ltac:(lia) Ri Rj (Hc a Oa) (Hc b Ob))) as H. change (length ctor_events) with 6 in H.
    replace (6 + (i - 6)) with i in H by lia. replace (6 + (j - 6)) with j in H by lia. rewrite Er. exact H. }
  destruct (Nat.eq_dec (e_thr a) 1) as [A1|A1].
  - destruct (Hone i a Hi Ua A1) as (L6 & [->|(Oa & Hx)]); [auto|].
    destruct (Nat.eq_dec (e_thr b) 0) as [B0|B0]; [|rewrite (Hbig j b Hj Ub B0 ltac:(congruence)) in *; auto].
    assert (Hfree : e_op b = OFree x -> hb t i j).
    { intros Ob. assert (He : ends b = true) by (unfold ends; rewrite Ob; destruct Hx as [-> | ->]; reflexivity). destruct (V6 j b Hj He) as (_ & p & Lp & Hp).
      pose proof (proj2 (V5 p 0 Hp) i a Hi A1) as Lip. apply (hb_trans t i p j).
      - apply (hb_edge t i p a (mkEv 0 (OJoin 1)) Lip Hi Hp). right. right. right. cbn [e_op]. rewrite A1. reflexivity.
      - apply (po t p j _ _ Lp Hp Hj). cbn [e_thr]. congruence. }
    destruct Ub as [Ob|[Ob|Ob]]; [| |exact (Hfree Ob)].
    + exfalso. destruct Hwr as [[W|W]|[W|W]]; congruence.
    + destruct Hx as [-> | ->]; [apply Hcov; auto|].
      destruct (Hloc j b Hj) as [(Lx & _)|(_ & _ & A)]; [lia|]. unfold allowed in A. rewrite B0, Ob in A. discriminate.
  - destruct (Nat.eq_dec (e_thr b) 1) as [B1|B1].
    + destruct (Hone j b Hj Ub B1) as (L6 & [->|(Ob & Hx)]); [auto|].
      destruct (Nat.eq_dec (e_thr a) 0) as [A0|A0]; [|rewrite (Hbig i a Hi Ua A0 A1) in *; auto].
      destruct (Nat.lt_ge_cases i 6) as [Li|Li].
      * assert (Hf : hb t 5 j). { apply (hb_edge t 5 j _ b ltac:(lia) Hfork Hj). right. right. left. cbn [e_op]. rewrite B1. reflexivity. }
        destruct (Nat.eq_dec i 5) as [->|]; [exact Hf|]. apply (hb_trans t i 5 j); [|exact Hf]. apply (po t i 5 a _ ltac:(lia) Hi Hfork). exact A0.
      * assert (Hfree : e_op a = OFree x -> hb t i j).
        { intros Oa. assert (He : ends a = true) by (unfold ends; rewrite Oa; destruct Hx as [-> | ->]; reflexivity). destruct (V6 i a Hi He) as (_ & p & Lp & Hp).
          pose proof (proj2 (V5 p 0 Hp) j b Hj B1). lia. }
        destruct Ua as [Oa|[Oa|Oa]]; [| |exact (Hfree Oa)].
        -- exfalso. destruct Hwr as [[W|W]|[W|W]]; congruence.
        -- destruct Hx as [-> | ->]; [apply Hcov; auto|].
           destruct (Hloc i a Hi) as [(Lx & _)|(_ & _ & A)]; [lia|]. unfold allowed in A. rewrite A0, Oa in A. discriminate.
    + destruct (Nat.eq_dec (e_thr a) 0) as [A0|A0]; [|rewrite (Hbig i a Hi Ua A0 A1) in *; auto].
      rewrite (Hbig j b Hj Ub ltac:(congruence) B1) in *; auto.
Qed.
Lemma session_race_free E sgn fuel tty color m junk w l s t x :
  racel_run E sgn fuel tty color l (racel_init m junk w) = Some (s, t) -> ~ race_on t x.
Proof.
  intros H (i & j & a & b & Hi & Hj & Hne & Ua & Ub & Hw & N1 & N2). pose proof (reach_linv E sgn fuel tty color m junk w l s t H) as V.
  destruct (Nat.lt_trichotomy i j) as [L|[->|L]].
  - exact (N1 (kinv_order _ t x i j a b V L Hi Hj Hne Ua Ub Hw)).
  - congruence.
  - apply N2. apply (kinv_order _ t x j i b a V L Hj Hi); auto. destruct Hw; auto.
Qed.

(** ** Every execution has its events *)
Lemma sched_traced l : forall s s' t, sched_run l s = Some s' -> exists t', race_run (map RSched l) (s, t) = Some (s', t').
Proof.
  induction l as [|a l IH]; intros s s' t H; cbn [sched_run] in H; cbn [map race_run].
  - injection H as <-. eauto.
  - cbn [race_step]. destruct (sched_step a s) as [s1|]; [|discriminate]. exact (IH s1 s' _ H).
Qed.
Lemma local_traced E sgn fuel tty color l : forall s s' t, l_run E sgn fuel tty color l s = LcOk s' ->
  exists t', racel_run E sgn fuel tty color (map (fun a => match a with LStop => RStop 2 | _ => RStep a end) l) (s, t) = Some (s', t').
Proof.
  induction l as [|a l IH]; intros s s' t H; cbn [l_run] in H; cbn [map racel_run].
  - injection H as <-. eauto.
  - destruct (l_step E sgn fuel tty color a s) as [s1| | | |] eqn:Ea; try discriminate.
    destruct a; cbn [racel_step]; rewrite ?Ea; try exact (IH s1 s' _ H). cbn [l_step] in Ea. injection Ea as <-. exact (IH _ s' _ H).
Qed.

(** ** Races in given executions *)
Definition edgeb (a b : ev) : bool :=
  Nat.eqb (e_thr a) (e_thr b) || match e_op a, e_op b with ORel m, OAcq m' => mut_eqb m m' | _, _ => false end ||
  match e_op a with OFork k => Nat.eqb k (e_thr b) | _ => false end || match e_op b with OJoin k => Nat.eqb k (e_thr a) | _ => false end.
Lemma edge_edgeb a b : edge a b -> edgeb a b = true.
Proof.
  intros [H|[(m & H1 & H2)|[H|H]]]; unfold edgeb.
  - rewrite H, Nat.eqb_refl. reflexivity.
  - rewrite H1, H2. destruct m; cbn [mut_eqb]; rewrite !Bool.orb_true_r; reflexivity.
  - rewrite H, Nat.eqb_refl. rewrite !Bool.orb_true_r. reflexivity.
  - rewrite H, Nat.eqb_refl. apply Bool.orb_true_r.
Qed.
Definition mem (n : nat) (l : list nat) : bool := existsb (Nat.eqb n) l.
Definition reach1 (t : list ev) (l : list nat) (j : nat) : list nat :=
  if existsb (fun i => Nat.ltb i j && match nth_error t i, nth_error t j with Some a, Some b => edgeb a b | _, _ => false end) l then l ++ [j] else l.
Definition reach (t : list ev) (i : nat) : list nat := fold_left (reach1 t) (seq (S i) (length t - S i)) [i].
Definition closed (t : list ev) (l : list nat) : bool :=
  forallb (fun i => negb (mem i l) || forallb (fun j => negb (Nat.ltb i j && match nth_error t i, nth_error t j with Some a, Some b => edgeb a b | _, _ => false end) || mem j l)
    (seq 0 (length t))) (seq 0 (length t)).
Lemma closed_hb t l i j : closed t l = true -> hb t i j -> mem i l = true -> mem j l = true.
Proof.
  intros Hc H. induction H as [i j a b L Hi Hj He|i j k _ IH1 _ IH2]; [|auto]. intros Hm.
  unfold closed in Hc. rewrite forallb_forall in Hc. specialize (Hc i). rewrite Hm in Hc. cbn [negb orb] in Hc.
  rewrite forallb_forall in Hc. assert (Si : In i (seq 0 (length t))) by (apply in_seq; pose proof (nth_lt _ _ _ Hi); lia).
  specialize (Hc Si j). rewrite Hi, Hj, (edge_edgeb a b He) in Hc.
  replace (Nat.ltb i j) with true in Hc by (symmetry; apply Nat.ltb_lt, L). apply Hc. apply in_seq. pose proof (nth_lt _ _ _ Hj). lia.
Qed.
Lemma no_hb t i j : closed t (reach t i) = true -> mem i (reach t i) = true -> mem j (reach t i) = false -> ~ hb t i j.
Proof. intros H1 H2 H3 H. rewrite (closed_hb t _ i j H1 H H2) in H3. discriminate. Qed.
