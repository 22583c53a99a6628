(** * Proofs about several keyboards on one terminal *)

From Verif Require Import Base TerminalModel TelnetSpec KeyboardModel KeyboardSpec KeyboardProofs KeyboardsModel KeyboardsSpec.
Open Scope nat_scope.
Open Scope list_scope.

(** ** One of them: a keyboard whose environment are the others *)
Lemma alike_step sgn a k t k' : alike k t -> k_step sgn a k = Some k' -> exists t', k_step sgn a t = Some t' /\ alike k' t'.
Proof.
  destruct k as [w mm en mtx st rd ty od ry ef re co ks], t as [w0 mm0 en0 mtx0 st0 rd0 ty0 od0 ry0 ef0 re0 co0 ks0].
  unfold alike. cbn [k_w k_m k_enabled k_mtx k_stop k_reader k_tty k_old k_ready k_eof k_read k_keys].
  intros (<- & <- & <- & <- & <- & <- & <- & <- & <- & <- & <- & <- & Hb). unfold bytes_by in Hb. cbn [k_cons] in Hb.
  assert (Hc : forall x, map snd (filter (fun p => Bool.eqb (fst p) true) (co ++ [x])) = map snd (filter (fun p : bool * ascii => Bool.eqb (fst p) true) (co0 ++ [x])))
    by (intros x; rewrite !filter_app, !map_app, Hb; reflexivity).
  intros H. destruct a; unfold k_step in *; cbn [k_m] in *;
    [destruct w; unfold w_step, read_then, getchar, lock in *|destruct mm; unfold m_step, lock in *|..];
    cbn [k_w k_m k_enabled k_mtx k_stop k_reader k_tty k_old k_ready k_eof k_read k_keys opt_map] in *;
    repeat match goal with
    | H : match ?x with _ => _ end = Some _ |- _ => is_var x; destruct x; try discriminate H
    | H : opt_map _ (match ?x with _ => _ end) = Some _ |- _ => is_var x; destruct x; try discriminate H
    end; cbn [opt_map] in *; try discriminate H; (injection H as <-; eexists; split; [reflexivity|]); unfold bytes_by; solve [cbn; repeat split; auto | destruct w; cbn; repeat split; auto].
Qed.
Lemma load_same s k : ks_tty s = k_tty k -> ks_ready s = k_ready k -> ks_eof s = k_eof k -> load s k = k.
Proof. destruct k. unfold load, with_modes, with_input. cbn. intros -> -> ->. reflexivity. Qed.
Definition moved_on (k k' : kbd) : Prop :=
  (k_ready k' = k_ready k /\ k_cons k' = k_cons k) \/ exists c, k_ready k = c :: k_ready k' /\ k_cons k' = k_cons k ++ [(true, c)].
Lemma own_step sgn a k k' s i : allowed i a s = true -> k_step sgn a k = Some k' ->
  k_eof k' = k_eof k /\ match a with MGo | MCall _ => k_ready k' = k_ready k /\ k_cons k' = k_cons k | _ => k_m k' = k_m k /\ k_tty k' = k_tty k /\ k_old k' = k_old k end /\
  (a = MGo \/ k_tty k' = k_tty k) /\ moved_on k k'.
Proof.
  intros Ha H. unfold moved_on. destruct a; try discriminate Ha; clear Ha; unfold k_step in H.
  - destruct k as [w mm en mtx st rd ty od ry ef re co ks].
    destruct w; unfold w_step, read_then, getchar, lock in *;
    cbn [k_w k_m k_enabled k_mtx k_stop k_reader k_tty k_old k_ready k_eof k_read k_keys k_cons opt_map] in *;
    repeat match goal with
    | H : match ?x with _ => _ end = Some _ |- _ => is_var x; destruct x; try discriminate H
    | H : opt_map _ (match ?x with _ => _ end) = Some _ |- _ => is_var x; destruct x; try discriminate H
    end; cbn [opt_map] in *; try discriminate H; injection H as <-; cbn; repeat split; eauto.
  - destruct k as [w mm en mtx st rd ty od ry ef re co ks].
    destruct mm; unfold m_step, lock in *;
    cbn [k_w k_m k_enabled k_mtx k_stop k_reader k_tty k_old k_ready k_eof k_read k_keys k_cons opt_map] in *;
    repeat match goal with
    | H : match ?x with _ => _ end = Some _ |- _ => is_var x; destruct x; try discriminate H
    | H : opt_map _ (match ?x with _ => _ end) = Some _ |- _ => is_var x; destruct x; try discriminate H
    end; cbn [opt_map] in *; try discriminate H; injection H as <-; try (cbn; repeat split; eauto; fail); destruct w; cbn; repeat split; eauto.
  - destruct (k_m k) eqn:Em; try discriminate H; destruct (k_w k); try discriminate H; injection H as <-; cbn; repeat split; eauto.
  - destruct (k_m k) eqn:Em; try discriminate H; destruct (k_w k); try discriminate H; injection H as <-; cbn; repeat split; eauto.
  - destruct (k_m k) eqn:Em; try discriminate H; injection H as <-; cbn; repeat split; eauto.
Qed.

(** Only the keyboard the main thread is in is not at rest. *)
Definition resting (s : keyboards) : Prop := forall i k, ks_all s i = Some k -> ks_busy s <> Some i -> at_rest k = true.
Lemma set_same i k f : ks_set i k f i = Some k.
Proof. unfold ks_set. rewrite Nat.eqb_refl. reflexivity. Qed.
Lemma set_other i j k f : j <> i -> ks_set i k f j = f j.
Proof. intros H. unfold ks_set. destruct (Nat.eqb_spec j i); [contradiction|reflexivity]. Qed.
Lemma rest_load s k : at_rest (load s k) = at_rest k.
Proof. reflexivity. Qed.

Lemma resting_step sgn a s s' : resting s -> ks_step sgn a s = Some s' -> resting s'.
Proof.
  intros Hr H. unfold ks_step in H. destruct (died s); [discriminate|]. destruct a as [i junk|i b|t| | |m].
  - destruct (ks_busy s) eqn:Hb; [discriminate|]. destruct (ks_all s i) eqn:Hi; [discriminate|]. injection H as <-.
    intros j k. cbn [ks_all ks_busy]. destruct (Nat.eq_dec j i) as [->|Hn]; [congruence|]. rewrite set_other by exact Hn. intros Hj _. apply (Hr j k Hj). congruence.
  - destruct (ks_all s i) as [k|] eqn:Hi; [|discriminate]. destruct (allowed i b s) eqn:Ha; [|discriminate]. destruct (k_step sgn b (load s k)) as [k'|] eqn:Hk; [|discriminate].
    injection H as <-. intros j kj. cbn [ks_all ks_busy]. destruct (own_step _ _ _ _ _ _ Ha Hk) as (_ & Hs & _).
    destruct (Nat.eq_dec j i) as [->|Hn].
    + rewrite set_same. intros [= <-] Hb. destruct b; try discriminate Ha; try (destruct (at_rest k'); [reflexivity|congruence]);
        destruct Hs as (Hm & _); unfold at_rest; rewrite Hm; exact (Hr i k Hi Hb).
    + rewrite set_other by exact Hn. intros Hj Hb. destruct b; try discriminate Ha; try exact (Hr j kj Hj Hb).
      * cbn [allowed] in Ha. destruct (ks_busy s) as [x|] eqn:Eb; [|discriminate]. apply Nat.eqb_eq in Ha. subst x. apply (Hr j kj Hj). congruence.
      * cbn [allowed] in Ha. destruct (ks_busy s) as [x|] eqn:Eb; [discriminate|]. apply (Hr j kj Hj). congruence.
  - injection H as <-. exact Hr.
  - injection H as <-. exact Hr.
  - destruct (ks_ready s); [discriminate|]. injection H as <-. exact Hr.
  - destruct (ks_busy s) eqn:Hb; [discriminate|]. injection H as <-. intros j k Hj _. apply (Hr j k Hj). rewrite Hb. discriminate.
Qed.
Lemma not_killed s i k : died s = false -> resting s -> ks_all s i = Some k -> k_m k <> MKilled.
Proof.
  intros Hd Hr Hi Hk. destruct (ks_busy s) as [j|] eqn:Hb.
  - destruct (Nat.eq_dec j i) as [->|Hn]; [unfold died in Hd; rewrite Hb, Hi, Hk in Hd; discriminate|].
    assert (E : at_rest k = true) by (apply (Hr i k Hi); congruence). unfold at_rest in E. rewrite Hk in E. discriminate.
  - assert (E : at_rest k = true) by (apply (Hr i k Hi); congruence). unfold at_rest in E. rewrite Hk in E. discriminate.
Qed.

(** What the others do, seen from one. *)
Lemma step_type sgn t (k : kbd) : k_m k <> MKilled -> k_step sgn (Type_ t) k = Some (with_input (k_ready k ++ t) (k_eof k) k).
Proof. unfold k_step. destruct (k_m k); congruence. Qed.
Lemma step_hangup sgn (k : kbd) : k_m k <> MKilled -> k_step sgn Hangup k = Some (with_input (k_ready k) true k).
Proof. unfold k_step. destruct (k_m k); congruence. Qed.
Lemma step_take sgn c r (k : kbd) : k_m k <> MKilled -> k_ready k = c :: r -> exists k', k_step sgn Take k = Some k' /\ alike (with_input r (k_eof k) k) k'.
Proof.
  intros Hm Hr. unfold k_step. rewrite Hr. destruct (k_m k) eqn:Em; try congruence;
    (eexists; split; [reflexivity|]); unfold alike, bytes_by; cbn; rewrite ?Em; repeat split; rewrite filter_app, map_app; cbn; rewrite app_nil_r; reflexivity.
Qed.
Lemma step_mode sgn m (k : kbd) : at_rest k = true -> k_step sgn (SetMode m) k = Some (with_modes m (k_old k) k).
Proof. unfold k_step, at_rest. destruct (k_m k); congruence. Qed.
Lemma alike_refl k : alike k k.
Proof. repeat split. Qed.
Lemma alike_trans a b c : alike a b -> alike b c -> alike a c.
Proof. unfold alike. intuition congruence. Qed.

(** [one s i t]: [t] is keyboard [i] seen alone. *)
Lemma view_step sgn a s s' i k t : resting s -> ks_step sgn a s = Some s' -> ks_all s i = Some k -> alike (load s k) t ->
  exists k' l t', ks_all s' i = Some k' /\ k_run sgn l t = Some t' /\ alike (load s' k') t' /\ calls l = calls_of i [a].
Proof.
  intros Hr H Hi Ht. unfold ks_step in H. destruct (died s) eqn:Hd; [discriminate|].
  assert (Hm : k_m (load s k) <> MKilled) by exact (not_killed s i k Hd Hr Hi).
  assert (One : forall b k', k_step sgn b (load s k) = Some k' -> calls [b] = calls_of i [a] -> forall k2, alike (load s' k2) k' -> ks_all s' i = Some k2 ->
    exists k' l t', ks_all s' i = Some k' /\ k_run sgn l t = Some t' /\ alike (load s' k') t' /\ calls l = calls_of i [a]).
  { intros b k' Hs Hc k2 Hl Hk. destruct (alike_step _ _ _ _ _ Ht Hs) as (t' & Hs' & Ht'). exists k2, [b], t'. split; [exact Hk|]. split; [cbn; rewrite Hs'; reflexivity|]. split; [exact (alike_trans _ _ _ Hl Ht')|exact Hc]. }
  destruct a as [j junk|j b|x| | |m].
  - destruct (ks_busy s); [discriminate|]. destruct (ks_all s j) eqn:Hj; [discriminate|]. injection H as <-.
    exists k, [], t. cbn [ks_all]. rewrite set_other by congruence. repeat split; auto; apply Ht.
  - destruct (ks_all s j) as [kj|] eqn:Hj; [|discriminate]. destruct (allowed j b s) eqn:Ha; [|discriminate]. destruct (k_step sgn b (load s kj)) as [k'|] eqn:Hk; [|discriminate].
    destruct (Nat.eq_dec j i) as [->|Hn].
    + rewrite Hi in Hj. injection Hj as <-. injection H as <-. apply (One b k' Hk) with (k2 := k').
      * unfold calls, calls_of. cbn. rewrite Nat.eqb_refl. destruct b; reflexivity.
      * rewrite load_same by reflexivity. apply alike_refl.
      * apply set_same.
    + destruct (own_step _ _ _ _ _ _ Ha Hk) as (He & Hs & Hty & Hmv). injection H as <-.
      assert (Hc : calls_of i [KsDo j b] = []) by (unfold calls_of; cbn; apply Nat.eqb_neq in Hn; rewrite Hn; destruct b; reflexivity).
      assert (Hall : ks_set j k' (ks_all s) i = Some k) by (rewrite set_other by congruence; exact Hi).
      destruct b; try discriminate Ha.
      1, 3, 4: destruct Hs as (_ & Hty' & _); destruct Hmv as [(Hy & _)|(c & Hy & _)];
        [exists k, [], t; cbn [ks_all]; split; [exact Hall|]; split; [reflexivity|]; split; [|rewrite Hc; reflexivity];
         unfold load; cbn [ks_tty ks_ready ks_eof]; rewrite Hty', Hy, He; exact Ht
        |destruct (step_take sgn c (k_ready k') (load s k) Hm Hy) as (k2 & Hk2 & Hl2); apply (One Take k2 Hk2) with (k2 := k);
         [rewrite Hc; reflexivity
         |unfold load at 1; cbn [ks_tty ks_ready ks_eof]; rewrite Hty', He; exact Hl2
         |cbn [ks_all]; exact Hall]].
      * destruct Hs as (Hy & _). cbn [allowed] in Ha. destruct (ks_busy s) as [x|] eqn:Eb; [|discriminate]. apply Nat.eqb_eq in Ha. subst x.
        assert (Hre : at_rest (load s k) = true) by (rewrite rest_load; apply (Hr i k Hi); congruence).
        apply (One (SetMode (k_tty k')) _ (step_mode sgn _ _ Hre)) with (k2 := k); [rewrite Hc; reflexivity| |exact Hall].
        unfold load at 1. cbn [ks_tty ks_ready ks_eof]. rewrite Hy, He. apply alike_refl.
      * destruct Hs as (Hy & _). destruct Hty as [Hty|Hty]; [discriminate|].
        exists k, [], t. cbn [ks_all]. split; [exact Hall|]. split; [reflexivity|]. split; [|rewrite Hc; reflexivity].
        unfold load. cbn [ks_tty ks_ready ks_eof]. rewrite Hty, Hy, He. exact Ht.
  - injection H as <-. apply (One _ _ (step_type sgn x _ Hm)) with (k2 := k); [reflexivity|apply alike_refl|exact Hi].
  - injection H as <-. apply (One _ _ (step_hangup sgn _ Hm)) with (k2 := k); [reflexivity|apply alike_refl|exact Hi].
  - destruct (ks_ready s) as [|c r] eqn:Hy; [discriminate|]. injection H as <-. destruct (step_take sgn c r (load s k) Hm Hy) as (k2 & Hk2 & Hl2).
    apply (One _ _ Hk2) with (k2 := k); [reflexivity|exact Hl2|exact Hi].
  - destruct (ks_busy s) eqn:Hb; [discriminate|]. injection H as <-. assert (Hre : at_rest (load s k) = true) by (rewrite rest_load; apply (Hr i k Hi); congruence).
    apply (One _ _ (step_mode sgn m _ Hre)) with (k2 := k); [reflexivity|apply alike_refl|exact Hi].
Qed.
Lemma calls_app a b : calls (a ++ b) = calls a ++ calls b.
Proof. apply flat_map_app. Qed.
Lemma calls_of_cons i a l : calls_of i (a :: l) = calls_of i [a] ++ calls_of i l.
Proof. unfold calls_of. cbn. rewrite app_nil_r. reflexivity. Qed.
Lemma view_run sgn l : forall s s' i k t, resting s -> ks_run sgn l s = Some s' -> ks_all s i = Some k -> alike (load s k) t ->
  exists k' l' t', ks_all s' i = Some k' /\ k_run sgn l' t = Some t' /\ alike (load s' k') t' /\ calls l' = calls_of i l.
Proof.
  induction l as [|a l IH]; intros s s' i k t Hr H Hi Ht; cbn [ks_run] in H; [injection H as <-; exists k, [], t; repeat split; auto; apply Ht|].
  destruct (ks_step sgn a s) as [s1|] eqn:E; [|discriminate]. destruct (view_step _ _ _ _ _ _ _ Hr E Hi Ht) as (k1 & l1 & t1 & Hi1 & Hl1 & Ht1 & Hc1).
  destruct (IH s1 s' i k1 t1 (resting_step _ _ _ _ Hr E) H Hi1 Ht1) as (k2 & l2 & t2 & Hi2 & Hl2 & Ht2 & Hc2).
  exists k2, (l1 ++ l2), t2. split; [exact Hi2|]. split; [rewrite k_run_app, Hl1; exact Hl2|]. split; [exact Ht2|]. rewrite calls_app, Hc1, Hc2, <- (calls_of_cons i a l). reflexivity.
Qed.
Lemma init_resting m : resting (ks_init m).
Proof. intros i k H. discriminate. Qed.
Lemma ks_run_app sgn l1 l2 s : ks_run sgn (l1 ++ l2) s = match ks_run sgn l1 s with Some s' => ks_run sgn l2 s' | None => None end.
Proof. revert s. induction l1 as [|a l IH]; intros s; [reflexivity|]. cbn. destruct (ks_step sgn a s); [apply IH|reflexivity]. Qed.
Lemma reach_resting sgn m l s : ks_reaches sgn m l s -> resting s.
Proof.
  unfold ks_reaches. generalize (init_resting m). generalize (ks_init m). induction l as [|a l IH]; intros s0 H0 H; cbn [ks_run] in H; [injection H as <-; exact H0|].
  destruct (ks_step sgn a s0) as [s1|] eqn:E; [|discriminate]. exact (IH s1 (resting_step _ _ _ _ H0 E) H).
Qed.
(** The history up to the construction *)
Lemma born sgn l : forall s s' i k, resting s -> ks_run sgn l s = Some s' -> ks_all s i = None -> ks_all s' i = Some k ->
  exists m' junk l' t, kb_reaches sgn m' junk l' t /\ alike (load s' k) t /\ calls l' = calls_of i l.
Proof.
  induction l as [|a l IH]; intros s s' i k Hr H Hn Hi; cbn [ks_run] in H; [congruence|].
  destruct (ks_step sgn a s) as [s1|] eqn:E; [|discriminate]. pose proof (resting_step _ _ _ _ Hr E) as Hr1. destruct (ks_all s1 i) as [k1|] eqn:Hi1.
  - assert (Hk1 : exists junk, k1 = kbd_init (ks_tty s1) junk /\ calls_of i [a] = []).
    { unfold ks_step in E. destruct (died s); [discriminate|]. destruct a as [j junk|j b|t| | |m]; try (injection E as <-; cbn [ks_all] in Hi1; congruence).
      - destruct (ks_busy s); [discriminate|]. destruct (ks_all s j) eqn:Hj; [discriminate|]. injection E as <-. cbn [ks_all ks_tty] in *.
        destruct (Nat.eq_dec i j) as [->|Hx]; [rewrite set_same in Hi1; injection Hi1 as <-; exists junk; split; reflexivity|rewrite set_other in Hi1 by exact Hx; congruence].
      - destruct (ks_all s j) as [kj|] eqn:Hj; [|discriminate]. destruct (allowed j b s); [|discriminate]. destruct (k_step sgn b (load s kj)); [|discriminate]. injection E as <-.
        cbn [ks_all] in Hi1. rewrite set_other in Hi1 by congruence. congruence.
      - destruct (ks_ready s); [discriminate|]. injection E as <-. cbn [ks_all] in Hi1. congruence.
      - destruct (ks_busy s); [discriminate|]. injection E as <-. cbn [ks_all] in Hi1. congruence. }
    destruct Hk1 as (junk & -> & Hc). set (l0 := Type_ (ks_ready s1) :: if ks_eof s1 then [Hangup] else []).
    assert (H0 : k_run sgn l0 (kbd_init (ks_tty s1) junk) = Some (load s1 (kbd_init (ks_tty s1) junk))).
    { unfold l0, load. destruct (ks_eof s1); reflexivity. }
    destruct (view_run sgn l s1 s' i _ _ Hr1 H Hi1 (alike_refl _)) as (k2 & l2 & t2 & Hi2 & Hl2 & Ht2 & Hc2).
    rewrite Hi in Hi2. injection Hi2 as <-. exists (ks_tty s1), junk, (l0 ++ l2), t2. split; [unfold kb_reaches; rewrite k_run_app, H0; exact Hl2|].
    split; [exact Ht2|]. rewrite calls_app, (calls_of_cons i a l), Hc, Hc2. unfold l0. destruct (ks_eof s1); reflexivity.
  - destruct (IH s1 s' i k Hr1 H Hi1 Hi) as (m' & junk & l' & t & H1 & H2 & H3). exists m', junk, l', t. split; [exact H1|]. split; [exact H2|]. rewrite H3, (calls_of_cons i a l).
    assert (Hc : calls_of i [a] = []); [|rewrite Hc; reflexivity].
    destruct a as [j junk'|j b|x| | |m]; try reflexivity. unfold calls_of. cbn. destruct b; try reflexivity. destruct (Nat.eqb_spec j i) as [->|_]; [|reflexivity].
    exfalso. unfold ks_step in E. destruct (died s); [discriminate|]. rewrite Hn in E. discriminate.
Qed.
Theorem one_of_many sgn m l s i k : ks_reaches sgn m l s -> ks_all s i = Some k ->
  exists m' junk l' t, kb_reaches sgn m' junk l' t /\ alike (load s k) t /\ calls l' = calls_of i l.
Proof. intros H Hi. exact (born sgn l _ s i k (init_resting m) H eq_refl Hi). Qed.
Theorem goes_on sgn m l s i k t l2 s2 : ks_reaches sgn m l s -> ks_all s i = Some k -> alike (load s k) t -> ks_run sgn l2 s = Some s2 ->
  exists k' l' t', ks_all s2 i = Some k' /\ k_run sgn l' t = Some t' /\ alike (load s2 k') t' /\ calls l' = calls_of i l2.
Proof. intros H Hi Ht H2. exact (view_run sgn l2 s s2 i k t (reach_resting _ _ _ _ H) H2 Hi Ht). Qed.

(** ** Who reads what *)
Lemma own_read sgn a k k' s i : allowed i a s = true -> k_step sgn a k = Some k' -> k_eof k = false -> k_read k = bytes_by true k -> k_read k' = bytes_by true k'.
Proof.
  intros Ha H He. unfold bytes_by. destruct k as [w mm en mtx st rd ty od ry ef re co ks]. cbn [k_eof] in He. subst ef. cbn [k_read k_cons]. intros ->.
  destruct a; try discriminate Ha; unfold k_step in H; cbn [k_m] in H.
  1: destruct w; unfold w_step, read_then, getchar, lock in H.
  13: destruct mm; unfold m_step, lock in H.
  all: cbn [k_w k_m k_enabled k_mtx k_stop k_reader k_tty k_old k_ready k_eof k_read k_keys k_cons opt_map] in *;
    repeat match goal with
    | H : match ?x with _ => _ end = Some _ |- _ => is_var x; destruct x; try discriminate H
    | H : opt_map _ (match ?x with _ => _ end) = Some _ |- _ => is_var x; destruct x; try discriminate H
    end; cbn [opt_map] in *; try discriminate H; injection H as <-; solve [reflexivity | cbn; rewrite filter_app, map_app; reflexivity | destruct w; reflexivity].
Qed.
Definition shared_ok (l : list ksact) (s : keyboards) : Prop :=
  all_typed l = map snd (ks_cons s) ++ ks_ready s /\
  (forall i, match ks_all s i with
             | Some k => by_whom (Some i) s = bytes_by true k /\ (ks_eof s = false -> k_read k = bytes_by true k)
             | None => by_whom (Some i) s = []
             end) /\
  (~ In KsHangup l -> ks_eof s = false).
Lemma typed_by l a : all_typed (l ++ [a]) = all_typed l ++ match a with KsType t => t | _ => [] end.
Proof. unfold all_typed. rewrite flat_map_app. cbn. rewrite app_nil_r. reflexivity. Qed.
Lemma by_cons o all b ty y e c x : by_whom o (mkKbs all b ty y e (c ++ x)) = by_whom o (mkKbs all b ty y e c) ++ by_whom o (mkKbs all b ty y e x).
Proof. unfold by_whom. cbn [ks_cons]. rewrite filter_app, map_app. reflexivity. Qed.
Lemma shared_step sgn l a s s' : shared_ok l s -> ks_step sgn a s = Some s' -> shared_ok (l ++ [a]) s'.
Proof.
  intros (H1 & H2 & H3) H. unfold ks_step in H. destruct (died s); [discriminate|]. unfold shared_ok. rewrite typed_by.
  assert (Hh : ~ In KsHangup (l ++ [a]) -> ~ In KsHangup l /\ a <> KsHangup).
  { intros Hx. split; [intros Hy; apply Hx, in_or_app; left; exact Hy|intros ->; apply Hx, in_or_app; right; left; reflexivity]. }
  destruct a as [i junk|i b|t| | |m].
  - destruct (ks_busy s); [discriminate|]. destruct (ks_all s i) eqn:Hi; [discriminate|]. injection H as <-. cbn [ks_cons ks_ready ks_all ks_eof].
    rewrite app_nil_r. split; [exact H1|]. split; [|intros Hx; apply H3, Hh, Hx]. intros j. destruct (Nat.eq_dec j i) as [->|Hn].
    + rewrite set_same. specialize (H2 i). rewrite Hi in H2. split; [exact H2|reflexivity].
    + rewrite set_other by exact Hn. exact (H2 j).
  - destruct (ks_all s i) as [k|] eqn:Hi; [|discriminate]. destruct (allowed i b s) eqn:Ha; [|discriminate]. destruct (k_step sgn b (load s k)) as [k'|] eqn:Hk; [|discriminate].
    destruct (own_step _ _ _ _ _ _ Ha Hk) as (He & _ & _ & Hm). change (k_eof (load s k)) with (ks_eof s) in He. change (k_cons (load s k)) with (k_cons k) in Hm.
    injection H as <-. cbn [ks_cons ks_ready ks_all ks_eof]. rewrite app_nil_r.
    set (d := map (fun p => (Some i, snd p)) (skipn (length (k_cons k)) (k_cons k'))).
    assert (Hd : exists x, d = map (fun c => (Some i, c)) x /\ ks_ready s = x ++ k_ready k' /\ k_cons k' = k_cons k ++ map (fun c => (true, c)) x).
    { unfold moved_on in Hm. change (k_cons (load s k)) with (k_cons k) in Hm. change (k_ready (load s k)) with (ks_ready s) in Hm.
      unfold d. destruct Hm as [(Hy & Hc)|(c & Hy & Hc)]; rewrite Hc.
      - exists []. rewrite skipn_all. rewrite Hy, app_nil_r. repeat split.
      - exists [c]. rewrite skipn_app, skipn_all, Nat.sub_diag. repeat split. exact Hy. }
    destruct Hd as (x & Hd & Hy & Hc). split; [rewrite H1, Hy, map_app, Hd, map_map, <- app_assoc; cbn [snd]; rewrite map_id; reflexivity|].
    split; [|intros Hx; rewrite He; apply H3, Hh, Hx]. intros j. unfold by_whom. cbn [ks_cons]. rewrite filter_app, map_app. change (map snd (filter _ (ks_cons s))) with (by_whom (Some j) s). rewrite Hd.
    destruct (Nat.eq_dec j i) as [->|Hn].
    + rewrite set_same. specialize (H2 i). rewrite Hi in H2. destruct H2 as (Hb & Hr). split.
      * rewrite Hb. unfold bytes_by. rewrite Hc, filter_app, map_app. f_equal. clear. induction x as [|c x IH]; [reflexivity|]. cbn. rewrite Nat.eqb_refl. cbn. rewrite IH. reflexivity.
      * rewrite He. intros Hee. apply (own_read _ _ _ _ _ _ Ha Hk Hee). exact (Hr Hee).
    + rewrite set_other by exact Hn. specialize (H2 j).
      assert (Hf : map snd (filter (fun p : option nat * ascii => match fst p with Some a => Nat.eqb a j | None => false end) (map (fun c => (Some i, c)) x)) = []).
      { clear - Hn. induction x as [|c x IH]; [reflexivity|]. cbn. destruct (Nat.eqb_spec i j); [congruence|exact IH]. }
      rewrite Hf, app_nil_r, He. exact H2.
  - injection H as <-. cbn [ks_cons ks_ready ks_all ks_eof]. split; [rewrite H1, app_assoc; reflexivity|]. split; [exact H2|intros Hx; apply H3, Hh, Hx].
  - injection H as <-. cbn [ks_cons ks_ready ks_all ks_eof]. rewrite app_nil_r. split; [exact H1|]. split; [|intros Hx; exfalso; apply Hh in Hx as (_ & Hx); congruence].
    intros j. specialize (H2 j). destruct (ks_all s j); [|exact H2]. split; [exact (proj1 H2)|discriminate].
  - destruct (ks_ready s) as [|c r] eqn:Hy; [discriminate|]. injection H as <-. cbn [ks_cons ks_ready ks_all ks_eof]. rewrite app_nil_r. split; [rewrite H1, map_app, <- app_assoc; reflexivity|].
    split; [|intros Hx; apply H3, Hh, Hx]. intros j. unfold by_whom. cbn [ks_cons]. rewrite filter_app, map_app. cbn [filter fst map]. rewrite app_nil_r. exact (H2 j).
  - destruct (ks_busy s); [discriminate|]. injection H as <-. cbn [ks_cons ks_ready ks_all ks_eof]. rewrite app_nil_r. split; [exact H1|]. split; [exact H2|intros Hx; apply H3, Hh, Hx].
Qed.
Lemma ks_hist sgn (P : list ksact -> keyboards -> Prop) : (forall l a s s', P l s -> ks_step sgn a s = Some s' -> P (l ++ [a]) s') ->
  forall l l0 s s', P l0 s -> ks_run sgn l s = Some s' -> P (l0 ++ l) s'.
Proof.
  intros Hs. induction l as [|a l IH]; intros l0 s s' H0 H; cbn [ks_run] in H; [injection H as <-; rewrite app_nil_r; exact H0|].
  destruct (ks_step sgn a s) as [s1|] eqn:E; [|discriminate]. change (a :: l) with ([a] ++ l). rewrite app_assoc. exact (IH _ s1 s' (Hs _ _ _ _ H0 E) H).
Qed.
Theorem conserved sgn m l s : ks_reaches sgn m l s -> all_typed l = map snd (ks_cons s) ++ ks_ready s /\
  forall i k, ks_all s i = Some k -> ~ In KsHangup l -> k_read k = by_whom (Some i) s.
Proof.
  intros H. assert (H0 : shared_ok [] (ks_init m)) by (split; [reflexivity|]; split; [intros i; reflexivity|reflexivity]).
  destruct (ks_hist sgn shared_ok (shared_step sgn) l [] _ s H0 H) as (H1 & H2 & H3). split; [exact H1|]. intros i k Hi Hh. specialize (H2 i). rewrite Hi in H2.
  destruct H2 as (Hb & Hr). rewrite Hb. exact (Hr (H3 Hh)).
Qed.

(** ** Modes *)
Section Modes.
Context (sgn : bool) (m : tmode).
Definition mode_of (st : list nat) : tmode := match st with [] => m | _ => manual m end.
Fixpoint chain (st : list nat) (all : nat -> option kbd) : Prop :=
  match st with [] => True | i :: st' => (exists k, all i = Some k /\ k_old k = mode_of st') /\ ~ In i st' /\ chain st' all end.
Definition modes_ok (st : list nat) (s : keyboards) : Prop :=
  match ks_busy s with
  | None => ks_tty s = mode_of st /\ chain st (ks_all s)
  | Some i =>
      exists k, ks_all s i = Some k /\
      match k_m k with
      | MAct0 => exists st', st = i :: st' /\ ks_tty s = mode_of st' /\ ~ In i st' /\ chain st' (ks_all s)
      | MAct1 => exists st', st = i :: st' /\ ks_tty s = mode_of st' /\ chain st (ks_all s)
      | MDe0 | MDt0 => ks_tty s = mode_of (i :: st) /\ chain (i :: st) (ks_all s)
      | _ => ks_tty s = mode_of st /\ chain st (ks_all s)
      end
  end.
Lemma chain_same st all all' : (forall i k, In i st -> all i = Some k -> exists k', all' i = Some k' /\ k_old k' = k_old k) -> chain st all -> chain st all'.
Proof.
  induction st as [|i st IH]; intros H Hc; [exact Logic.I|]. destruct Hc as ((k & Hk & Ho) & Hn & Hc). split; [|split; [exact Hn|]].
  - destruct (H i k (or_introl eq_refl) Hk) as (k' & Hk' & Ho'). exists k'. split; [exact Hk'|congruence].
  - apply IH; [|exact Hc]. intros j kj Hj. apply H. right. exact Hj.
Qed.
Lemma chain_set st all i k k' : all i = Some k -> k_old k' = k_old k -> chain st all -> chain st (ks_set i k' all).
Proof.
  intros Hi Ho. apply chain_same. intros j kj _ Hj. destruct (Nat.eq_dec j i) as [->|Hn]; [rewrite set_same; exists k'; split; [reflexivity|congruence]|rewrite set_other by exact Hn; eauto].
Qed.
Lemma chain_out st all i k' : ~ In i st -> chain st all -> chain st (ks_set i k' all).
Proof. intros Hn. apply chain_same. intros j kj Hj Hk. rewrite set_other by congruence. eauto. Qed.
Lemma manual_mode i st : manual (mode_of st) = mode_of (i :: st).
Proof. destruct st; reflexivity. Qed.

Definition push (st : list nat) (a : ksact) : option (list nat) := stacked st [a].
Lemma stacked_cons st a l : stacked st (a :: l) = match push st a with Some st' => stacked st' l | None => None end.
Proof.
  unfold push. destruct a as [i junk|i b|t| | |x]; try reflexivity; cbn [stacked].
  - destruct (existsb (Nat.eqb i) st); reflexivity.
  - destruct b as [| | | |[]| | | |]; try reflexivity.
    + destruct (existsb (Nat.eqb i) st); reflexivity.
    + destruct st as [|j st]; [reflexivity|]. destruct (Nat.eqb i j); reflexivity.
    + destruct st as [|j st]; [reflexivity|]. destruct (Nat.eqb i j); reflexivity.
Qed.
Lemma not_there i st : existsb (Nat.eqb i) st = false -> ~ In i st.
Proof. intros H Hin. rewrite (proj2 (existsb_exists _ _)) in H; [discriminate|]. exists i. split; [exact Hin|apply Nat.eqb_refl]. Qed.
Lemma worker_modes st s i k k' cons : modes_ok st s -> ks_all s i = Some k -> k_m k' = k_m k -> k_tty k' = ks_tty s -> k_old k' = k_old k ->
  modes_ok st (mkKbs (ks_set i k' (ks_all s)) (ks_busy s) (k_tty k') (k_ready k') (k_eof k') cons).
Proof.
  intros H Hi Hm Ht Ho. unfold modes_ok in *. cbn [ks_busy ks_tty ks_all]. rewrite Ht.
  assert (Hc : forall x, chain x (ks_all s) -> chain x (ks_set i k' (ks_all s))) by (intros x; apply chain_set with (k := k); assumption).
  destruct (ks_busy s) as [j|]; [|destruct H as (H1 & H2); auto]. destruct H as (kj & Hj & H).
  assert (Hj' : exists kj', ks_set i k' (ks_all s) j = Some kj' /\ k_m kj' = k_m kj).
  { destruct (Nat.eq_dec j i) as [->|Hn]; [rewrite set_same; exists k'; split; congruence|rewrite set_other by exact Hn; eauto]. }
  destruct Hj' as (kj' & Hj' & Hmj). exists kj'. split; [exact Hj'|]. rewrite Hmj.
  destruct (k_m kj); first [solve [destruct H as (H1 & H2); split; [exact H1|apply Hc, H2]] | solve [destruct H as (x & -> & H1 & H2 & H3); exists x; auto] | solve [destruct H as (x & -> & H1 & H2); exists x; auto]].
Qed.
Definition neutral (p : mpc) : bool := match p with MAct0 | MAct1 | MDe0 | MDt0 => false | _ => true end.
Lemma neutral_step k k' : m_step k = Some k' -> neutral (k_m k) = true -> neutral (k_m k') = true /\ k_tty k' = k_tty k /\ k_old k' = k_old k.
Proof.
  unfold m_step, lock. destruct (k_m k) eqn:Em; try discriminate; intros H _;
    try (destruct (k_mtx k); [discriminate|]); try (destruct (k_reader k)); try (destruct (k_w k) eqn:Ew; try discriminate H); cbn [opt_map] in H; injection H as <-; cbn; rewrite ?Em; auto.
Qed.
Lemma modes_step st st' a s s' : modes_ok st s -> push st a = Some st' -> ks_step sgn a s = Some s' -> modes_ok st' s'.
Proof.
  intros H Hp E. unfold ks_step in E. destruct (died s) eqn:Hd; [discriminate|]. unfold push in Hp. destruct a as [i junk|i b|t| | |x]; cbn [stacked] in Hp.
  - destruct (existsb (Nat.eqb i) st) eqn:Hx; [discriminate|]. injection Hp as <-. unfold modes_ok in H. destruct (ks_busy s); [discriminate|]. destruct (ks_all s i) eqn:Hi; [discriminate|].
    injection E as <-. unfold modes_ok. cbn [ks_busy ks_tty ks_all]. destruct H as (Ht & Hc). eexists. split; [apply set_same|]. cbn [k_m kbd_init]. exists st.
    split; [reflexivity|]. split; [exact Ht|]. split; [exact (not_there _ _ Hx)|]. apply chain_out; [exact (not_there _ _ Hx)|exact Hc].
  - destruct (ks_all s i) as [k|] eqn:Hi; [|discriminate]. destruct (allowed i b s) eqn:Ha; [|discriminate]. destruct (k_step sgn b (load s k)) as [k'|] eqn:Hk; [|discriminate].
    destruct (own_step _ _ _ _ _ _ Ha Hk) as (_ & Hs & Hty & _). injection E as <-. destruct b; try discriminate Ha.
    1, 3, 4: injection Hp as <-; destruct Hs as (Hs1 & Hs2 & Hs3); apply worker_modes with (k := k); assumption.
    + injection Hp as <-. cbn [allowed] in Ha. unfold modes_ok in H. destruct (ks_busy s) as [j|] eqn:Eb; [|discriminate]. apply Nat.eqb_eq in Ha. subst j.
      destruct H as (k1 & Hk1 & H). rewrite Hi in Hk1. injection Hk1 as <-. apply step_main in Hk. pose proof Hk as Hk0. unfold m_step in Hk. change (k_m (load s k)) with (k_m k) in Hk.
      unfold modes_ok. cbn [ks_busy ks_tty ks_all].
      destruct (neutral (k_m k)) eqn:Hne.
      { destruct (neutral_step (load s k) k') as (Hn' & Ht' & Ho'); [exact Hk0|exact Hne|]. change (k_tty (load s k)) with (ks_tty s) in Ht'. change (k_old (load s k)) with (k_old k) in Ho'.
        assert (H' : ks_tty s = mode_of st /\ chain st (ks_all s)) by (clear - H Hne; destruct (k_m k); try discriminate Hne; exact H).
        destruct H' as (Ht & Hc). apply (chain_set st _ i k k' Hi Ho') in Hc. rewrite Ht'. destruct (at_rest k'); [split; assumption|].
        exists k'. split; [apply set_same|]. destruct (k_m k'); try discriminate Hn'; split; assumption. }
      destruct (k_m k) eqn:Em; try discriminate Hne; injection Hk as <-.
      * destruct H as (st' & -> & Ht & Hn & Hc). cbn [at_rest k_m to_m with_modes load]. eexists. split; [apply set_same|]. cbn [k_m to_m]. exists st'. split; [reflexivity|]. split; [exact Ht|].
        cbn [chain]. split; [eexists; split; [apply set_same|]; exact Ht|]. split; [exact Hn|]. apply chain_out; assumption.
      * destruct H as (st' & -> & Ht & Hc). cbn [at_rest k_m to_m with_modes load]. eexists. split; [apply set_same|]. cbn [k_m to_m]. split.
        -- destruct Hc as ((k2 & Hk2 & Ho) & _). rewrite Hi in Hk2. injection Hk2 as <-. cbn [k_tty to_m with_modes k_old load with_input]. rewrite Ho. apply manual_mode.
        -- apply chain_set with (k := k); [exact Hi|reflexivity|exact Hc].
      * destruct H as (Ht & Hc). destruct Hc as ((k2 & Hk2 & Ho) & Hn & Hc). rewrite Hi in Hk2. injection Hk2 as <-. cbn [at_rest k_m to_m with_modes load]. eexists. split; [apply set_same|]. cbn [k_m to_m].
        split; [exact Ho|apply chain_out; assumption].
      * destruct H as (Ht & Hc). destruct Hc as ((k2 & Hk2 & Ho) & Hn & Hc). rewrite Hi in Hk2. injection Hk2 as <-. cbn [at_rest k_m to_m with_modes load]. eexists. split; [apply set_same|]. cbn [k_m to_m].
        split; [exact Ho|apply chain_out; assumption].
    + cbn [allowed] in Ha. unfold modes_ok in H. destruct (ks_busy s) as [j|] eqn:Eb; [discriminate|]. destruct H as (Ht & Hc). unfold k_step in Hk. change (k_m (load s k)) with (k_m k) in Hk.
      destruct (k_m k) eqn:Em; try discriminate Hk. injection Hk as <-. unfold modes_ok. cbn [ks_busy ks_tty ks_all at_rest k_m to_m].
      destruct c; cbn [at_rest k_m to_m]; (eexists; split; [apply set_same|]); cbn [k_m to_m].
      * destruct (existsb (Nat.eqb i) st) eqn:Hx; [discriminate|]. injection Hp as <-. exists st. split; [reflexivity|]. split; [exact Ht|]. split; [exact (not_there _ _ Hx)|]. apply chain_out; [exact (not_there _ _ Hx)|exact Hc].
      * destruct st as [|j st0]; [discriminate|]. destruct (Nat.eqb_spec i j) as [->|]; [|discriminate]. injection Hp as <-. split; [exact Ht|]. apply chain_set with (k := k); [exact Hi|reflexivity|exact Hc].
      * destruct st as [|j st0]; [discriminate|]. destruct (Nat.eqb_spec i j) as [->|]; [|discriminate]. injection Hp as <-. split; [exact Ht|]. apply chain_set with (k := k); [exact Hi|reflexivity|exact Hc].
  - injection Hp as <-. injection E as <-. exact H.
  - injection Hp as <-. injection E as <-. exact H.
  - injection Hp as <-. destruct (ks_ready s); [discriminate|]. injection E as <-. exact H.
  - discriminate.
Qed.
Theorem modes_nested l s st : ks_reaches sgn m l s -> stacked [] l = Some st -> ks_busy s = None -> ks_tty s = mode_of st.
Proof.
  intros H Hst Hb. assert (H0 : modes_ok [] (ks_init m)) by (split; [reflexivity|exact Logic.I]).
  assert (Hm : modes_ok st s).
  { unfold ks_reaches in H. revert H0 Hst H. generalize (@nil nat) (ks_init m). induction l as [|a l IH]; intros st0 s0 H0 Hst H; cbn [ks_run] in H.
    - cbn [stacked] in Hst. injection Hst as <-. injection H as <-. exact H0.
    - rewrite stacked_cons in Hst. destruct (push st0 a) as [st1|] eqn:Hp; [|discriminate]. destruct (ks_step sgn a s0) as [s1|] eqn:E; [|discriminate].
      exact (IH st1 s1 (modes_step _ _ _ _ _ H0 Hp E) Hst H). }
  unfold modes_ok in Hm. rewrite Hb in Hm. exact (proj1 Hm).
Qed.
End Modes.

(** ** What is known of one keyboard, for each of several *)
Theorem keys_of_each sgn m l s i k qs r : ks_reaches sgn m l s -> ks_all s i = Some k ->
  Forall (fun q => linux_seq sgn (fst q) (snd q)) qs -> linux_part r -> k_read k = flat_map fst qs ++ r -> found k = map snd qs.
Proof.
  intros H Hi Hq Hr Hk. destruct (one_of_many _ _ _ _ _ _ H Hi) as (m' & junk & l' & t & Ht & Ha & _).
  destruct Ha as (H1 & _ & _ & _ & _ & _ & _ & _ & _ & _ & H2 & H3 & _).
  change (k_w (load s k)) with (k_w k) in H1. change (k_read (load s k)) with (k_read k) in H2. change (k_keys (load s k)) with (k_keys k) in H3.
  unfold found. rewrite H1, H3. apply (seqs_found sgn m' junk l' t qs r Ht Hq Hr). rewrite <- H2. exact Hk.
Qed.
Lemma active_calls l : forall b, active_after b l = on_calls b (calls l).
Proof. induction l as [|a l IH]; intros b; [reflexivity|]. cbn [active_after]. unfold calls. destruct a as [| | | |[]| | | |]; cbn; apply IH. Qed.
Theorem each_deactivated sgn m l s i k cs l2 s2 : ks_reaches sgn m l s -> ks_all s i = Some k -> k_m k = MUser -> calls_of i l = cs ++ [Deactivate] ->
  ks_run sgn l2 s = Some s2 -> ~ In Activate (calls_of i l2) ->
  exists k2 bytes keys, ks_all s2 i = Some k2 /\ k_read k2 = k_read k ++ bytes /\ length bytes <= 4 /\ k_keys k2 = k_keys k ++ keys /\ length keys <= 1.
Proof.
  intros H Hi Hm Hc Hr Hn. destruct (one_of_many _ _ _ _ _ _ H Hi) as (m' & junk & l' & t & Ht & Ha & Hl).
  destruct (goes_on _ _ _ _ _ _ _ _ _ H Hi Ha Hr) as (k2 & l2' & t2 & Hi2 & Hl2 & Ha2 & Hc2).
  assert (Hu : k_m t = MUser) by (destruct Ha as (_ & Hx & _); rewrite <- Hx; exact Hm).
  assert (Hoff : active_after true l' = false) by (rewrite active_calls, Hl, Hc; unfold on_calls; rewrite fold_left_app; reflexivity).
  assert (Hna : no_call Activate l2') by (intros Hin; apply Hn; rewrite <- Hc2; unfold calls; apply in_flat_map; exists (MCall Activate); split; [exact Hin|left; reflexivity]).
  pose proof (reach_on sgn m' junk l' t Ht) as Ho. unfold on_ok in Ho. rewrite Hu, Hoff in Ho.
  destruct (off_run sgn l2' t t2 Hna Ho) as ((d & ks & H1 & H2 & H3 & H4) & _); [rewrite Hu; reflexivity|exact Hl2|].
  exists k2, d, ks. split; [exact Hi2|]. destruct Ha as (_ & _ & _ & _ & _ & _ & _ & _ & _ & _ & R1 & K1 & _). destruct Ha2 as (_ & _ & _ & _ & _ & _ & _ & _ & _ & _ & R2 & K2 & _).
  change (k_read (load s k)) with (k_read k) in R1. change (k_keys (load s k)) with (k_keys k) in K1. change (k_read (load s2 k2)) with (k_read k2) in R2. change (k_keys (load s2 k2)) with (k_keys k2) in K2.
  assert (B : bytes_due t <= 4) by (unfold bytes_due; destruct (k_w t); lia). assert (K : keys_due t <= 1) by (unfold keys_due; destruct (k_w t); lia).
  rewrite R1, R2, K1, K2. split; [exact H1|]. split; [lia|]. split; [exact H3|lia].
Qed.
