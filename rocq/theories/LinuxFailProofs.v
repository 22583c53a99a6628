(** * Proofs about the Linux keyboard when calls fail *)

From Verif Require Import Base TerminalModel TelnetModel TelnetSpec TelnetProofs KeyboardModel KeyboardSpec KeyboardProofs LinuxFailModel LinuxFailSpec.
Open Scope nat_scope.
Open Scope list_scope.

Lemma l_step_inv sgn p a s s' : l_step sgn p a s = Some (LRun s') -> k_m s <> MKilled /\ trap p a s = false /\ failing sgn a s = Some s'.
Proof.
  unfold l_step. intros H. assert (Hk : k_m s <> MKilled) by (intros E; rewrite E in H; discriminate). split; [exact Hk|].
  assert (H1 : (if trap p a s then Some LUB else option_map LRun (failing sgn a s)) = Some (LRun s')) by (destruct (k_m s); congruence). destruct (trap p a s); [discriminate|]. split; [reflexivity|].
  destruct (failing sgn a s); [|discriminate]. injection H1 as ->. reflexivity.
Qed.
Lemma l_run_hist sgn p (P : list lact -> kbd -> Prop) : (forall l a s s', P l s -> k_m s <> MKilled -> trap p a s = false -> failing sgn a s = Some s' -> P (l ++ [a]) s') ->
  forall l2 l1 s s', P l1 s -> l_run sgn p l2 (LRun s) = Some (LRun s') -> P (l1 ++ l2) s'.
Proof.
  intros Hstep. induction l2 as [|a l2 IH]; intros l1 s s' Hp H; cbn [l_run] in H; [injection H as <-; rewrite app_nil_r; exact Hp|].
  destruct (l_step sgn p a s) as [[s1|]|] eqn:Hs; [|destruct l2; discriminate|discriminate]. apply l_step_inv in Hs as (H1 & H2 & H3). change (a :: l2) with ([a] ++ l2). rewrite app_assoc. exact (IH _ s1 s' (Hstep _ _ _ _ Hp H1 H2 H3) H).
Qed.
Lemma lf_inv sgn p (P : list lact -> kbd -> Prop) m j l s : P [] (kbd_init m j) ->
  (forall l a s s', P l s -> k_m s <> MKilled -> trap p a s = false -> failing sgn a s = Some s' -> P (l ++ [a]) s') -> lf_reaches sgn p m j l s -> P l s.
Proof. intros H0 Hs H. exact (l_run_hist sgn p P Hs l [] _ s H0 H). Qed.
(** A step is one of KeyboardModel.v, the closing of the pipe, or a failure. *)
Definition closes (s : kbd) : kbd := to_m MDt3 (with_pipe true (k_reader s) s).
Lemma failing_ok sgn a s s' : failing sgn (LOk a) s = Some s' -> (k_step sgn a s = Some s' /\ (a = MGo -> k_m s <> MDt2)) \/ (a = MGo /\ k_m s = MDt2 /\ s' = closes s).
Proof.
  cbn [failing]. intros H. destruct a; try (left; split; [exact H|discriminate]). destruct (k_m s) eqn:Em; try (left; split; [exact H|discriminate]).
  right. injection H as <-. auto.
Qed.
Lemma fail_read sgn s s' : failing sgn LRead s = Some s' -> exists f,
  ((k_w s, f) = (WGet0, get0 sgn) \/ (k_w s, f) = (WGet1, get1) \/ (k_w s, f) = (WGet2, get2) \/ (k_w s, f) = (WGet3, get3)) /\ s' = to_w (f "000"%char) (no_char s).
Proof. cbn [failing]. destruct (k_w s); intros [= <-]; eexists; (split; [|reflexivity]); auto 6. Qed.

(** ** If nothing fails *)
Lemma ok_run sgn l : forall s, mutex_ok s -> sleep_ok s -> pipe_ok s -> l_run sgn PipeOk (map LOk l) (LRun s) = option_map LRun (k_run sgn l s).
Proof.
  induction l as [|a l IH]; intros s Hm Hz Hp; [reflexivity|]. cbn [map l_run k_run].
  assert (E : l_step sgn PipeOk (LOk a) s = option_map LRun (k_step sgn a s)).
  { unfold l_step. cbn [trap]. destruct (k_m s) eqn:Em; try (cbn [failing]; rewrite ?Em; destruct a; reflexivity).
    - cbn [failing]. rewrite Em. destruct a; try reflexivity. unfold k_step, m_step. rewrite Em. cbn [option_map]. do 2 f_equal. destruct Hp as (Hp & _). rewrite Em in Hp. specialize (Hp ltac:(discriminate)). destruct s; cbn in *. subst. reflexivity.
    - unfold k_step. rewrite Em. reflexivity. }
  rewrite E. destruct (k_step sgn a s) as [s1|] eqn:Hs; [|reflexivity]. cbn [option_map]. destruct (safe_step sgn a s s1 Hm Hz Hp Hs) as (H1 & H2 & H3). exact (IH s1 H1 H2 H3).
Qed.
Theorem fails_conservative sgn m j l : l_run sgn PipeOk (map LOk l) (LRun (kbd_init m j)) = option_map LRun (k_run sgn l (kbd_init m j)).
Proof. apply ok_run; unfold mutex_ok, sleep_ok, pipe_ok; cbn; repeat split; discriminate. Qed.

(** ** The keys *)
(** As [dec_ok], with the key that could not be posted. *)
Definition lost_ok (sgn : bool) (l : list lact) (s : kbd) : Prop := exists lost,
  decoded sgn (k_read s) (WGet0, []) = (place (k_w s), found s ++ lost) /\ length lost = fails LPost l /\ (lost <> [] -> k_w s = WDone).
Lemma fails_snoc a l b : fails a (l ++ [b]) = fails a l + if lact_eqb a b then 1 else 0.
Proof. unfold fails. rewrite filter_app, app_length. cbn [filter]. destruct (lact_eqb a b); reflexivity. Qed.
Lemma done_step sgn a s s' : k_w s = WDone -> k_step sgn a s = Some s' -> k_w s' = WDone /\ k_keys s' = k_keys s /\ k_read s' = k_read s.
Proof.
  intros Hw Hs. split; [|split].
  - apply (done_forever sgn [a] s s' Hw). cbn. rewrite Hs. reflexivity.
  - apply (done_forever sgn [a] s s' Hw). cbn. rewrite Hs. reflexivity.
  - destruct a as [| | | |c|t| | |md].
    + apply step_worker in Hs. unfold w_step in Hs. rewrite Hw in Hs. discriminate.
    + apply step_main in Hs. unfold m_step, lock in Hs. rewrite Hw in Hs. destruct (k_m s); try discriminate; try (injection Hs as <-; reflexivity); try (destruct (k_mtx s); try discriminate; injection Hs as <-; reflexivity). destruct (k_reader s); injection Hs as <-; reflexivity.
    + unfold k_step in Hs. rewrite Hw in Hs. destruct (k_m s); discriminate.
    + unfold k_step in Hs. rewrite Hw in Hs. destruct (k_m s); discriminate.
    + unfold k_step in Hs. destruct (k_m s); try discriminate; injection Hs as <-; reflexivity.
    + unfold k_step in Hs. destruct (k_m s); try discriminate; injection Hs as <-; reflexivity.
    + unfold k_step in Hs. destruct (k_m s); try discriminate; injection Hs as <-; reflexivity.
    + unfold k_step in Hs. destruct (k_ready s); [destruct (k_m s); discriminate|]. destruct (k_m s); try discriminate; injection Hs as <-; reflexivity.
    + unfold k_step in Hs. destruct (k_m s); try discriminate; injection Hs as <-; reflexivity.
Qed.
Lemma lost_step sgn l a s s' : lost_ok sgn l s -> failing sgn a s = Some s' -> lost_ok sgn (l ++ [a]) s'.
Proof.
  intros (lost & Hd & Hn & Hw) Hs. unfold lost_ok. rewrite fails_snoc.
  assert (Hsame : forall s1, k_read s1 = k_read s -> k_w s1 = k_w s -> k_keys s1 = k_keys s -> lact_eqb LPost a = false ->
    exists lost0, decoded sgn (k_read s1) (WGet0, []) = (place (k_w s1), found s1 ++ lost0) /\ length lost0 = fails LPost l + (if lact_eqb LPost a then 1 else 0) /\ (lost0 <> [] -> k_w s1 = WDone)).
  { intros s1 H1 H2 H3 ->. exists lost. unfold found in *. rewrite H1, H2, H3, Nat.add_0_r. auto. }
  destruct a as [a| | | | |].
  - apply failing_ok in Hs as [(Hs & _)|(-> & _ & ->)]; [|apply Hsame; reflexivity]. cbn [lact_eqb]. rewrite Nat.add_0_r. destruct lost as [|k0 lost].
    + exists []. rewrite app_nil_r in *. split; [exact (dec_step sgn a s s' Hd Hs)|]. split; [exact Hn|congruence].
    + specialize (Hw ltac:(discriminate)). destruct (done_step sgn a s s' Hw Hs) as (H1 & H2 & H3). exists (k0 :: lost). unfold found in *. rewrite H3, H1, H2, Hd, Hw. auto.
  - apply fail_read in Hs as (f & Hf & ->). cbn [lact_eqb]. rewrite Nat.add_0_r. destruct (get_next sgn f "000"%char _ Hf) as (Hg & Ha).
    assert (lost = []) as -> by (destruct lost; [reflexivity|]; specialize (Hw ltac:(discriminate)); rewrite Hw in Hg; discriminate).
    exists []. split; [|split; [exact Hn|congruence]]. rewrite app_nil_r in *. unfold decoded, found in *. unfold no_char. k_proj. rewrite fold_left_app, Hd. cbn [fold_left]. unfold dstep. cbn [fst snd].
    assert (Hq : match place (k_w s) with WGet1 => get1 "000"%char | WGet2 => get2 "000"%char | WGet3 => get3 "000"%char | _ => get0 sgn "000"%char end = f "000"%char) by (destruct Hf as [H|[H|[H|H]]]; injection H as -> ->; reflexivity).
    assert (Hnn : match k_w s with WNotify k => [k] | _ => [] end = []) by (destruct Hf as [H|[H|[H|H]]]; injection H as -> _; reflexivity).
    rewrite Hq, Hnn, app_nil_r. destruct (f "000"%char); try discriminate Ha; rewrite ?app_nil_r; reflexivity.
  - cbn [failing] in Hs. destruct (k_w s) eqn:Ew; try discriminate. injection Hs as <-. assert (lost = []) as -> by (destruct lost; [reflexivity|]; specialize (Hw ltac:(discriminate)); discriminate).
    cbn in Hn. exists [k]. unfold found in *. k_proj. rewrite Ew, app_nil_r in *. split; [exact Hd|]. split; [cbn; lia|reflexivity].
  - cbn [failing] in Hs. destruct (k_m s); try discriminate; injection Hs as <-; apply Hsame; reflexivity.
  - cbn [failing] in Hs. destruct (k_m s); try discriminate; injection Hs as <-; apply Hsame; reflexivity.
  - cbn [failing] in Hs. destruct (k_m s); try discriminate; injection Hs as <-; apply Hsame; reflexivity.
Qed.
(** The bytes. *)
Definition items_ok (l : list lact) (s : kbd) : Prop :=
  typed_in (worked l) = map snd (k_cons s) ++ k_ready s /\ (~ hung_up (worked l) -> k_eof s = false) /\
  exists items, k_read s = reads_of items /\ really items = bytes_by true s /\ fails LRead l <= missed items /\ (~ hung_up (worked l) -> missed items = fails LRead l).
Lemma worked_snoc l a : worked (l ++ [a]) = worked l ++ match a with LOk a => [a] | _ => [] end.
Proof. unfold worked. rewrite flat_map_app. cbn [flat_map]. rewrite app_nil_r. reflexivity. Qed.
Lemma items_same l a s s' : match a with LOk (Type_ _) | LOk Hangup | LRead => False | _ => True end ->
  k_ready s' = k_ready s -> bytes_by true s' = bytes_by true s -> map snd (k_cons s') = map snd (k_cons s) -> k_eof s' = k_eof s -> k_read s' = k_read s -> items_ok l s -> items_ok (l ++ [a]) s'.
Proof.
  intros Ha H1 H2 H2' H3 H4 (Ht & He & items & Hi1 & Hi2 & Hi3 & Hi4). unfold items_ok. rewrite H1, H2, H2', H3, H4, worked_snoc, fails_snoc.
  assert (Hz : lact_eqb LRead a = false) by (destruct a; try reflexivity; destruct Ha). rewrite Hz, Nat.add_0_r.
  assert (Hy : typed_in (worked l ++ match a with LOk a => [a] | _ => [] end) = typed_in (worked l)).
  { destruct a as [a| | | | |]; rewrite ?app_nil_r; try reflexivity. rewrite typed_snoc. destruct a; rewrite ?app_nil_r; try reflexivity. destruct Ha. }
  rewrite Hy. split; [exact Ht|].
  assert (Hx : ~ hung_up (worked l ++ match a with LOk a => [a] | _ => [] end) -> ~ hung_up (worked l)) by (intros H Hh; apply H; unfold hung_up in *; apply in_or_app; left; exact Hh).
  split; [intros H; exact (He (Hx H))|]. exists items. split; [exact Hi1|]. split; [exact Hi2|]. split; [exact Hi3|]. intros H. exact (Hi4 (Hx H)).
Qed.
Lemma items_step sgn l a s s' : items_ok l s -> failing sgn a s = Some s' -> items_ok (l ++ [a]) s'.
Proof.
  intros Hi Hs. destruct a as [a| | | | |].
  - apply failing_ok in Hs as [(Hs & _)|(-> & _ & ->)]; [|apply (items_same l _ s); [exact Logic.I|reflexivity|reflexivity|reflexivity|reflexivity|reflexivity|exact Hi]].
    destruct a as [| | | |c|t| | |md].
    + apply step_worker, w_step_cases in Hs. destruct Hs as [p Hw Hmt ->|Hw He|Hw He|Hw|Hw Hst|Hw Hst Hq|f c s1 Hf Hg|k Hw]; try (apply (items_same l _ s); [exact Logic.I|reflexivity|reflexivity|reflexivity|reflexivity|reflexivity|exact Hi]; fail).
      destruct Hi as (Ht & He & items & Hi1 & Hi2 & Hi3 & Hi4). apply getchar_inv in Hg as (r & e & cs & -> & -> & [(Hr & ->)|(Hr & -> & Heof & -> & ->)]); unfold items_ok, bytes_by in *; k_proj; rewrite worked_snoc, typed_snoc, fails_snoc, app_nil_r; cbn [lact_eqb]; rewrite Nat.add_0_r.
      * split; [rewrite Ht, Hr, map_app, <- app_assoc; reflexivity|]. split; [intros H; apply hung_snoc in H as (H & _); exact (He H)|].
        exists (items ++ [Some c]). unfold reads_of, really, missed in *. rewrite map_app, flat_map_app, !filter_app, map_app, app_length, Hi1, Hi2. cbn. split; [reflexivity|]. split; [reflexivity|]. split; [lia|]. intros H. apply hung_snoc in H as (H & _). specialize (Hi4 H). lia.
      * rewrite Hr in Ht. split; [exact Ht|]. split; [intros H; apply hung_snoc in H as (H & _); exact (He H)|].
        exists (items ++ [None]). unfold reads_of, really, missed in *. rewrite map_app, flat_map_app, filter_app, app_length, Hi1, Hi2. cbn. rewrite app_nil_r. split; [reflexivity|]. split; [reflexivity|]. split; [lia|]. intros H. apply hung_snoc in H as (H & _). specialize (He H). congruence.
    + apply step_main in Hs. unfold m_step, lock in Hs. apply (items_same l _ s); [exact Logic.I| | | | | |exact Hi]; (destruct (k_m s); try discriminate; try (injection Hs as <-; reflexivity); try (destruct (k_mtx s); try discriminate; injection Hs as <-; reflexivity); try (destruct (k_w s); try discriminate; injection Hs as <-; reflexivity); destruct (k_reader s); injection Hs as <-; reflexivity).
    + unfold k_step in Hs. destruct (k_m s), (k_w s); try discriminate; injection Hs as <-; (apply (items_same l _ s); [exact Logic.I|reflexivity|reflexivity|reflexivity|reflexivity|reflexivity|exact Hi]).
    + unfold k_step in Hs. destruct (k_m s), (k_w s); try discriminate; injection Hs as <-; (apply (items_same l _ s); [exact Logic.I|reflexivity|reflexivity|reflexivity|reflexivity|reflexivity|exact Hi]).
    + unfold k_step in Hs. destruct (k_m s); try discriminate; injection Hs as <-; (apply (items_same l _ s); [exact Logic.I|reflexivity|reflexivity|reflexivity|reflexivity|reflexivity|exact Hi]).
    + assert (Hw : s' = with_input (k_ready s ++ t) (k_eof s) s) by (unfold k_step in Hs; destruct (k_m s); congruence). subst s'. destruct Hi as (Ht & He & items & Hi1 & Hi2 & Hi3 & Hi4). unfold items_ok. rewrite worked_snoc, typed_snoc, Ht, <- app_assoc, fails_snoc. k_proj. cbn [lact_eqb]. rewrite Nat.add_0_r.
      split; [reflexivity|]. split; [intros H; apply hung_snoc in H as (H & _); exact (He H)|]. exists items. split; [exact Hi1|]. split; [exact Hi2|]. split; [exact Hi3|]. intros H. apply hung_snoc in H as (H & _). exact (Hi4 H).
    + assert (Hw : s' = with_input (k_ready s) true s) by (unfold k_step in Hs; destruct (k_m s); congruence). subst s'. destruct Hi as (Ht & He & items & Hi1 & Hi2 & Hi3 & Hi4). unfold items_ok. rewrite worked_snoc, typed_snoc, Ht, app_nil_r, fails_snoc. k_proj. cbn [lact_eqb]. rewrite Nat.add_0_r.
      split; [reflexivity|]. split; [intros H; apply hung_snoc in H as (_ & H); congruence|]. exists items. split; [exact Hi1|]. split; [exact Hi2|]. split; [exact Hi3|]. intros H. apply hung_snoc in H as (_ & H). congruence.
    + unfold k_step in Hs. destruct (k_ready s) as [|c r] eqn:Hr; [destruct (k_m s); discriminate|]. destruct Hi as (Ht & He & items & Hi1 & Hi2 & Hi3 & Hi4). unfold items_ok, bytes_by in *. rewrite worked_snoc, typed_snoc, Ht, Hr, fails_snoc. cbn [lact_eqb]. rewrite Nat.add_0_r.
      destruct (k_m s); try discriminate; injection Hs as <-; k_proj; (split; [rewrite app_nil_r, map_app, <- app_assoc; reflexivity|]); (split; [intros H; apply hung_snoc in H as (H & _); exact (He H)|]); exists items; (split; [exact Hi1|]);
        (split; [rewrite filter_app, map_app; cbn; rewrite app_nil_r; exact Hi2|]); (split; [exact Hi3|]); intros H; apply hung_snoc in H as (H & _); exact (Hi4 H).
    + unfold k_step in Hs. destruct (k_m s); try discriminate; injection Hs as <-; (apply (items_same l _ s); [exact Logic.I|reflexivity|reflexivity|reflexivity|reflexivity|reflexivity|exact Hi]).
  - apply fail_read in Hs as (f & Hf & ->). destruct Hi as (Ht & He & items & Hi1 & Hi2 & Hi3 & Hi4). unfold items_ok, bytes_by, no_char in *. rewrite worked_snoc, app_nil_r, fails_snoc. k_proj. cbn [lact_eqb].
    split; [exact Ht|]. split; [exact He|]. exists (items ++ [None]). unfold reads_of, really, missed in *. rewrite map_app, flat_map_app, filter_app, app_length, Hi1, Hi2. cbn. rewrite app_nil_r. split; [reflexivity|]. split; [reflexivity|]. split; [lia|]. intros H. specialize (Hi4 H). lia.
  - cbn [failing] in Hs. destruct (k_w s); try discriminate; injection Hs as <-; (apply (items_same l _ s); [exact Logic.I|reflexivity|reflexivity|reflexivity|reflexivity|reflexivity|exact Hi]).
  - cbn [failing] in Hs. destruct (k_m s); try discriminate; injection Hs as <-; (apply (items_same l _ s); [exact Logic.I|reflexivity|reflexivity|reflexivity|reflexivity|reflexivity|exact Hi]).
  - cbn [failing] in Hs. destruct (k_m s); try discriminate; injection Hs as <-; (apply (items_same l _ s); [exact Logic.I|reflexivity|reflexivity|reflexivity|reflexivity|reflexivity|exact Hi]).
  - cbn [failing] in Hs. destruct (k_m s); try discriminate; injection Hs as <-; (apply (items_same l _ s); [exact Logic.I|reflexivity|reflexivity|reflexivity|reflexivity|reflexivity|exact Hi]).
Qed.
Theorem fails_bytes sgn p m j l s : lf_reaches sgn p m j l s ->
  typed_in (worked l) = map snd (k_cons s) ++ k_ready s /\
  exists items, k_read s = reads_of items /\ really items = bytes_by true s /\ fails LRead l <= missed items /\ (~ hung_up (worked l) -> missed items = fails LRead l).
Proof.
  intros H. destruct (lf_inv sgn p items_ok m j l s) as (H1 & _ & H2); [|intros ? ? ? ? Hi _ _ Hs; exact (items_step sgn _ _ _ _ Hi Hs)|exact H|auto].
  split; [reflexivity|]. split; [reflexivity|]. exists []. split; [reflexivity|]. split; [reflexivity|]. split; [apply le_n|reflexivity].
Qed.
Theorem fails_keys sgn p m j l s qs r : lf_reaches sgn p m j l s -> Forall (fun q => linux_seq sgn (fst q) (snd q)) qs -> linux_part r -> k_read s = flat_map fst qs ++ r ->
  exists lost, map snd qs = found s ++ lost /\ length lost = fails LPost l /\ (lost <> [] -> k_w s = WDone).
Proof.
  intros H Hq Hr He. destruct (lf_inv sgn p (lost_ok sgn) m j l s) as (lost & H1 & H2 & H3); [|intros ? ? ? ? Hi _ _ Hs; exact (lost_step sgn _ _ _ _ Hi Hs)|exact H|].
  - exists []. split; [reflexivity|]. split; [reflexivity|congruence].
  - exists lost. split; [|auto]. pose proof (lseqs_run sgn qs r Hq Hr []) as H4. rewrite He in H1. rewrite H1 in H4. cbn in H4. symmetry. exact H4.
Qed.

(** ** The locks *)
Lemma locks_step sgn a s s' : mutex_ok s -> sleep_ok s -> k_step sgn a s = Some s' -> mutex_ok s' /\ sleep_ok s'.
Proof.
  unfold mutex_ok, sleep_ok. intros Hm Hz Hs. destruct a as [| | | |c|t| | |md].
  - apply step_worker, w_step_cases in Hs. destruct Hs as [p Hw Hmt ->|Hw He|Hw He|Hw|Hw Hst|Hw Hst Hq|f c s1 Hf Hg|k Hw].
    + rewrite Hmt in Hm. k_proj. split; [split; [reflexivity|apply Hm]|discriminate].
    + rewrite Hw in *. k_proj. split; [exact Hm|discriminate].
    + rewrite Hw in *. k_proj. destruct (k_mtx s) as [[]|]; destruct Hm as (Hm1 & Hm2); try discriminate. split; [auto|congruence].
    + rewrite Hw in *. k_proj. destruct (k_mtx s) as [[]|]; destruct Hm as (Hm1 & Hm2); try discriminate. split; [auto|discriminate].
    + rewrite Hw in *. k_proj. split; [exact Hm|discriminate].
    + rewrite Hw in *. k_proj. split; [exact Hm|discriminate].
    + apply getchar_inv in Hg as (r & e & cs & -> & _). destruct (get_next sgn f c _ Hf) as (H1 & H2). k_proj.
      destruct (k_w s); try discriminate H1; destruct (f c); try discriminate H2; (split; [exact Hm|discriminate]).
    + rewrite Hw in *. k_proj. split; [exact Hm|discriminate].
  - apply step_main in Hs. unfold m_step in Hs.
    destruct (k_m s) eqn:Em; try discriminate; try (injection Hs as <-; k_proj; (split; [exact Hm|]); (intros H1 H2; specialize (Hz H1 H2); discriminate); fail).
    + apply opt_map_inv in Hs as (x & Hs & ->). apply lock_inv in Hs as (Hl & ->). rewrite Hl in Hm. k_proj. split; [split; [apply Hm|reflexivity]|]. intros H1 H2. specialize (Hz H1 H2). discriminate.
    + injection Hs as <-. k_proj. split; [exact Hm|reflexivity].
    + injection Hs as <-. destruct (k_w s) eqn:Ew; k_proj; rewrite ?Ew; (split; [exact Hm|discriminate]).
    + injection Hs as <-. k_proj. destruct (k_mtx s) as [[]|]; destruct Hm as (Hm1 & Hm2); try discriminate. split; [auto|]. intros H1 H2. specialize (Hz H1 H2). discriminate.
    + apply opt_map_inv in Hs as (x & Hs & ->). apply lock_inv in Hs as (Hl & ->). rewrite Hl in Hm. k_proj. split; [split; [apply Hm|reflexivity]|]. intros H1 H2. specialize (Hz H1 H2). discriminate.
    + injection Hs as <-. k_proj. split; [exact Hm|discriminate].
    + injection Hs as <-. k_proj. destruct (k_mtx s) as [[]|]; destruct Hm as (Hm1 & Hm2); try discriminate. split; [auto|]. intros H1 H2. specialize (Hz H1 H2). discriminate.
    + destruct (k_reader s) eqn:Er; injection Hs as <-; k_proj; (split; [exact Hm|]); intros H1 H2; specialize (Hz H1 H2); discriminate.
    + destruct (k_w s) eqn:Ew; try discriminate. injection Hs as <-. k_proj. rewrite Ew. split; [exact Hm|discriminate].
  - assert (Hw : k_w s = WSleep /\ s' = to_w WWoke s) by (unfold k_step in Hs; destruct (k_m s), (k_w s); try discriminate; injection Hs as <-; auto). destruct Hw as (Ew & ->). rewrite Ew in *. k_proj.
    split; [exact Hm|discriminate].
  - assert (Hw : k_w s = WSelect /\ s' = to_w WDone (with_pipe (k_stop s) false s)) by (unfold k_step in Hs; destruct (k_m s), (k_w s); try discriminate; injection Hs as <-; auto). destruct Hw as (Ew & ->). rewrite Ew in *. k_proj.
    split; [exact Hm|discriminate].
  - unfold k_step in Hs. destruct (k_m s) eqn:Em; try discriminate. injection Hs as <-. k_proj. split; [destruct c; exact Hm|]. intros H1 H2. specialize (Hz H1 H2). discriminate.
  - unfold k_step in Hs. assert (Hw : s' = with_input (k_ready s ++ t) (k_eof s) s) by (destruct (k_m s); congruence). subst s'. k_proj. auto.
  - unfold k_step in Hs. assert (Hw : s' = with_input (k_ready s) true s) by (destruct (k_m s); congruence). subst s'. k_proj. auto.
  - unfold k_step in Hs. destruct (k_ready s); [destruct (k_m s); discriminate|]. destruct (k_m s); try discriminate; injection Hs as <-; k_proj; auto.
  - unfold k_step in Hs. destruct (k_m s) eqn:Em; try discriminate; injection Hs as <-; k_proj; rewrite Em; auto.
Qed.
Definition lf_ok (l : list lact) (s : kbd) : Prop :=
  mutex_ok s /\ sleep_ok s /\ on_ok (worked l) s /\ (match k_m s with MDt3 => k_stop s = true | MGone => k_stop s = true /\ k_w s = WDone | _ => True end) /\
  (k_reader s = false -> In (LOk WSignal) l \/ (k_stop s = true /\ k_w s = WDone)) /\ (k_stop s = true -> match k_m s with MDt2 | MDt3 | MGone => True | _ => False end) /\
  (k_m s = MKilled -> In (LOk WSignal) l).
Lemma on_same l s s' : on_ok l s -> k_enabled s' = k_enabled s -> k_m s' = k_m s -> on_ok l s'.
Proof. unfold on_ok. intros H -> ->. exact H. Qed.
Lemma lf_step sgn l a s s' : lf_ok l s -> k_m s <> MKilled -> failing sgn a s = Some s' -> lf_ok (l ++ [a]) s'.
Proof.
  intros (Hm & Hz & Ho & Hg & Hr & Ht & Hx) Hk Hs. unfold lf_ok. rewrite worked_snoc.
  assert (Hl : forall x, In x l -> In x (l ++ [a])) by (intros x H; apply in_or_app; left; exact H).
  destruct a as [a| | | | |]; rewrite ?app_nil_r.
  - apply failing_ok in Hs as [(Hs & Hn)|(-> & Em & ->)].
    + destruct (locks_step sgn a s s' Hm Hz Hs) as (H1 & H2). split; [exact H1|]. split; [exact H2|]. split; [exact (on_step sgn _ a s s' Ho Hs)|].
      destruct a as [| | | |c|t| | |md].
      * apply step_worker, w_step_cases in Hs. destruct Hs as [p Hw Hmt ->|Hw He|Hw He|Hw|Hw Hst|Hw Hst Hq|f c s1 Hf Hgc|k Hw]; k_proj.
        -- split; [destruct (k_m s); auto; destruct Hg as (_ & Hg); destruct Hw; congruence|]. split; [|split; [exact Ht|auto]]. intros H. destruct (Hr H) as [H3|(_ & H3)]; [left; auto|destruct Hw; congruence].
        -- split; [destruct (k_m s); auto; destruct Hg as (_ & Hg); congruence|]. split; [|split; [exact Ht|auto]]. intros H. destruct (Hr H) as [H3|(_ & H3)]; [left; auto|congruence].
        -- split; [destruct (k_m s); auto; destruct Hg as (_ & Hg); congruence|]. split; [|split; [exact Ht|auto]]. intros H. destruct (Hr H) as [H3|(_ & H3)]; [left; auto|congruence].
        -- split; [destruct (k_m s); auto; destruct Hg as (_ & Hg); congruence|]. split; [|split; [exact Ht|auto]]. intros H. destruct (Hr H) as [H3|(_ & H3)]; [left; auto|congruence].
        -- split; [destruct (k_m s); auto|]. split; [auto|]. split; [intros _; exact (Ht Hst)|auto].
        -- split; [destruct (k_m s); auto; destruct Hg as (_ & Hg); congruence|]. split; [|split; [exact Ht|auto]]. intros H. destruct (Hr H) as [H3|(_ & H3)]; [left; auto|congruence].
        -- apply getchar_inv in Hgc as (r & e & cs & -> & _). destruct (get_next sgn f c _ Hf) as (H3 & H4). k_proj.
           split; [destruct (k_m s); auto; destruct Hg as (_ & Hg); rewrite Hg in H3; discriminate|]. split; [|split; [exact Ht|auto]]. intros H. destruct (Hr H) as [H5|(_ & H5)]; [left; auto|rewrite H5 in H3; discriminate].
        -- split; [destruct (k_m s); auto; destruct Hg as (_ & Hg); congruence|]. split; [|split; [exact Ht|auto]]. intros H. destruct (Hr H) as [H3|(_ & H3)]; [left; auto|congruence].
      * specialize (Hn eq_refl). apply step_main in Hs. unfold m_step in Hs.
        assert (Hrl : k_reader s = false -> In (LOk WSignal) (l ++ [LOk MGo]) \/ (k_stop s = true /\ k_w s = WDone)) by (intros H; destruct (Hr H) as [H3|H3]; [left; auto|right; exact H3]).
        destruct (k_m s) eqn:Em; try discriminate; try congruence;
          try (injection Hs as <-; k_proj; (split; [exact Logic.I|]); (split; [exact Hrl|]); (split; [intros H; destruct (Ht H)|discriminate]); fail);
          try (apply opt_map_inv in Hs as (x & Hs & ->); apply lock_inv in Hs as (Hlk & ->); k_proj; (split; [exact Logic.I|]); (split; [exact Hrl|]); (split; [intros H; destruct (Ht H)|discriminate]); fail).
        -- injection Hs as <-. destruct (k_w s) eqn:Ew; k_proj; (split; [exact Logic.I|]); rewrite ?Ew; (split; [try exact Hrl|split; [intros H; destruct (Ht H)|discriminate]]).
           intros H; destruct (Hrl H) as [H3|(_ & H3)]; [left; exact H3|discriminate].
        -- destruct (k_reader s) eqn:Er; injection Hs as <-; k_proj.
           ++ split; [exact Logic.I|]. split; [discriminate|]. split; [intros _; exact Logic.I|discriminate].
           ++ split; [exact Logic.I|]. split; [intros _; destruct (Hr eq_refl) as [H3|(H3 & _)]; [left; auto|destruct (Ht H3)]|]. split; [intros H; destruct (Ht H)|]. intros _. destruct (Hr eq_refl) as [H3|(H3 & _)]; [auto|destruct (Ht H3)].
        -- destruct (k_w s) eqn:Ew; try discriminate. injection Hs as <-. k_proj. rewrite Ew. split; [auto|]. split; [exact Hrl|]. split; [intros _; exact Logic.I|discriminate].
      * unfold k_step in Hs. assert (Hw : k_w s = WSleep /\ s' = to_w WWoke s) by (destruct (k_m s), (k_w s); try discriminate; injection Hs as <-; auto). destruct Hw as (Ew & ->). k_proj.
        split; [destruct (k_m s); auto; destruct Hg as (_ & Hg); congruence|]. split; [|split; [exact Ht|auto]]. intros H. destruct (Hr H) as [H3|(_ & H3)]; [left; auto|congruence].
      * unfold k_step in Hs. assert (Hw : k_w s = WSelect /\ s' = to_w WDone (with_pipe (k_stop s) false s)) by (destruct (k_m s), (k_w s); try discriminate; injection Hs as <-; auto). destruct Hw as (Ew & ->). k_proj.
        assert (Hin : In (LOk WSignal) (l ++ [LOk WSignal])) by (apply in_or_app; right; left; reflexivity).
        split; [destruct (k_m s); auto; destruct Hg as (Hg1 & Hg); auto|]. split; [intros _; left; exact Hin|]. split; [exact Ht|auto].
      * unfold k_step in Hs. destruct (k_m s) eqn:Em; try discriminate. injection Hs as <-. k_proj. split; [destruct c; exact Logic.I|]. split; [intros H; destruct (Hr H) as [H3|(H3 & H4)]; auto|]. split; [intros H; destruct (Ht H)|destruct c; discriminate].
      * unfold k_step in Hs. assert (Hw : s' = with_input (k_ready s ++ t) (k_eof s) s) by (destruct (k_m s); congruence). subst s'. k_proj. split; [exact Hg|]. split; [intros H; destruct (Hr H); auto|]. split; [exact Ht|auto].
      * unfold k_step in Hs. assert (Hw : s' = with_input (k_ready s) true s) by (destruct (k_m s); congruence). subst s'. k_proj. split; [exact Hg|]. split; [intros H; destruct (Hr H); auto|]. split; [exact Ht|auto].
      * unfold k_step in Hs. destruct (k_ready s); [destruct (k_m s); discriminate|]. destruct (k_m s) eqn:Em; try discriminate; injection Hs as <-; k_proj; (split; [exact Hg|]); (split; [intros H; destruct (Hr H); auto|]); (split; [exact Ht|auto]).
      * unfold k_step in Hs. destruct (k_m s) eqn:Em; try discriminate; injection Hs as <-; k_proj; rewrite Em; (split; [exact Hg|]); (split; [intros H; destruct (Hr H); auto|]); (split; [exact Ht|discriminate]).
    + unfold closes, mutex_ok, sleep_ok, on_ok in *. rewrite active_snoc. k_proj. rewrite Em in *. split; [exact Hm|]. split; [intros H1 H2; specialize (Hz H1 H2); discriminate|]. split; [exact Ho|]. split; [reflexivity|]. split; [intros H; destruct (Hr H) as [H3|(_ & H3)]; auto|]. split; [intros _; exact Logic.I|discriminate].
  - apply fail_read in Hs as (f & Hf & ->). destruct (get_next sgn f "000"%char _ Hf) as (H3 & H4). unfold mutex_ok, sleep_ok, on_ok, no_char in *. k_proj.
    split; [destruct (k_w s); try discriminate H3; destruct (f "000"%char); try discriminate H4; exact Hm|]. split; [intros E; rewrite E in H4; discriminate|]. split; [exact Ho|].
    split; [destruct (k_m s); auto; destruct Hg as (_ & Hg); rewrite Hg in H3; discriminate|]. split; [|split; [exact Ht|auto]]. intros H. destruct (Hr H) as [H5|(_ & H5)]; [left; auto|rewrite H5 in H3; discriminate].
  - cbn [failing] in Hs. destruct (k_w s) eqn:Ew; try discriminate. injection Hs as <-. unfold mutex_ok, sleep_ok, on_ok in *. k_proj. rewrite Ew in *. split; [exact Hm|]. split; [discriminate|]. split; [exact Ho|].
    split; [destruct (k_m s); auto; destruct Hg as (_ & Hg); discriminate|]. split; [|split; [exact Ht|auto]]. intros H. destruct (Hr H) as [H5|(_ & H5)]; [left; auto|discriminate].
  - cbn [failing] in Hs. destruct (k_m s) eqn:Em; try discriminate. injection Hs as <-. unfold mutex_ok, sleep_ok, on_ok in *. k_proj. rewrite Em in *. split; [exact Hm|]. split; [intros H1 H2; specialize (Hz H1 H2); discriminate|]. split; [exact Ho|].
    split; [exact Logic.I|]. split; [|split; [auto|discriminate]]. intros H. destruct (Hr H) as [H5|H5]; [left; auto|right; exact H5].
  - cbn [failing] in Hs. destruct (k_m s) eqn:Em; try discriminate. injection Hs as <-. unfold mutex_ok, sleep_ok, on_ok in *. k_proj. rewrite Em in *. split; [exact Hm|]. split; [intros H1 H2; specialize (Hz H1 H2); discriminate|]. split; [exact Ho|].
    split; [exact Logic.I|]. split; [|split; [auto|discriminate]]. intros H. destruct (Hr H) as [H5|H5]; [left; auto|right; exact H5].
  - cbn [failing] in Hs. destruct (k_m s) eqn:Em; try discriminate; injection Hs as <-; unfold mutex_ok, sleep_ok, on_ok in *; k_proj; rewrite Em in *; (split; [exact Hm|]); (split; [intros H1 H2; specialize (Hz H1 H2); discriminate|]); (split; [exact Ho|]);
    (split; [exact Logic.I|]); (split; [|split; [auto|discriminate]]); intros H; (destruct (Hr H) as [H5|H5]; [left; auto|right; exact H5]).
Qed.
Lemma lf_all sgn p m j l s : lf_reaches sgn p m j l s -> lf_ok l s.
Proof.
  intros H. apply (lf_inv sgn p lf_ok m j l s); [|intros ? ? ? ? Hi Hk _ Hs; exact (lf_step sgn _ _ _ _ Hi Hk Hs)|exact H].
  unfold lf_ok, mutex_ok, sleep_ok, on_ok; cbn. split; [auto|]. split; [discriminate|]. split; [reflexivity|]. split; [exact Logic.I|]. split; [discriminate|]. split; discriminate.
Qed.
Theorem fails_killed sgn p m j l s : lf_reaches sgn p m j l s -> k_m s = MKilled -> In (LOk WSignal) l.
Proof. intros H. apply (lf_all sgn p m j l s H). Qed.
Theorem fails_over sgn p m j l s : lf_reaches sgn p m j l s -> k_m s = MGone -> k_w s = WDone.
Proof. intros H E. destruct (lf_all sgn p m j l s H) as (_ & _ & _ & Hg & _). rewrite E in Hg. exact (proj2 Hg). Qed.

(** ** Shutdown *)
Lemma ending_fail sgn a s s' : ending s -> failing sgn a s = Some s' -> ending s' /\ end_weight (k_w s') + (if by_keyboard a then 1 else 0) <= end_weight (k_w s).
Proof.
  intros He Hs. assert (Hmm : k_m s = MDt3 \/ k_m s = MGone) by (destruct He as ([H|(H & _)] & _); auto). destruct a as [a| | | | |].
  - apply failing_ok in Hs as [(Hs & _)|(_ & Em & _)]; [|destruct Hmm; congruence]. exact (end_step sgn a s s' He Hs).
  - apply fail_read in Hs as (f & Hf & ->). destruct He as (Hj & Hst & Hen & Hm & Hz). destruct (get_next sgn f "000"%char _ Hf) as (H1 & H2). unfold ending, mutex_ok, no_char in *. k_proj. cbn [by_keyboard].
    assert (Hx : 1 + end_weight (f "000"%char) <= end_weight (k_w s)).
    { destruct Hf as [H|[H|[H|H]]]; injection H as -> ->; unfold get0, get1, get2, get3; repeat match goal with |- context [if ?b then _ else _] => destruct b end; cbn; lia. }
    split; [|lia]. split; [destruct Hj as [Hj|(_ & Hj)]; [left; exact Hj|rewrite Hj in H1; discriminate]|]. split; [exact Hst|]. split; [exact Hen|]. split; [|intros E; rewrite E in H2; discriminate].
    destruct (k_w s); try discriminate H1; destruct (f "000"%char); try discriminate H2; exact Hm.
  - cbn [failing] in Hs. destruct (k_w s) eqn:Ew; try discriminate. injection Hs as <-. destruct He as (Hj & Hst & Hen & Hm & Hz). unfold ending, mutex_ok in *. k_proj. rewrite Ew in *. cbn [by_keyboard end_weight]. split; [|lia].
    split; [destruct Hj as [Hj|(_ & Hj)]; [left; exact Hj|discriminate]|]. split; [exact Hst|]. split; [exact Hen|]. split; [exact Hm|discriminate].
  - cbn [failing] in Hs. destruct Hmm as [E|E]; rewrite E in Hs; discriminate.
  - cbn [failing] in Hs. destruct Hmm as [E|E]; rewrite E in Hs; discriminate.
  - cbn [failing] in Hs. destruct Hmm as [E|E]; rewrite E in Hs; discriminate.
Qed.
Theorem fails_shutdown sgn p m j l s l' s' : lf_reaches sgn p m j l s -> k_m s = MDt3 -> active_after true (worked l) = true -> l_run sgn p l' (LRun s) = Some (LRun s') ->
  length (filter by_keyboard l') <= 9 /\
  (k_m s' = MGone \/ (exists s'', k_step sgn WGo s' = Some s'') \/ (exists s'', k_step sgn MGo s' = Some s'' /\ k_m s'' = MGone) \/ (in_get (k_w s') /\ starved s')).
Proof.
  intros H Hj Ha Hr. destruct (lf_all sgn p m j l s H) as (Hm & Hz & Ho & Hg & _). unfold on_ok in Ho. rewrite Hj, Ha in Ho. rewrite Hj in Hg.
  assert (He : ending s). { split; [left; exact Hj|]. split; [exact Hg|]. split; [exact Ho|]. split; [exact Hm|]. intros E. specialize (Hz E Ho). congruence. }
  assert (Hall : ending s' /\ length (filter by_keyboard l') + end_weight (k_w s') <= end_weight (k_w s)).
  { clear H Hj Ha Hm Hz Ho Hg l. revert s He Hr. induction l' as [|a l' IH]; intros s He Hr; cbn [l_run] in Hr; [injection Hr as <-; split; [exact He|cbn; lia]|].
    destruct (l_step sgn p a s) as [[s1|]|] eqn:Hs; [|destruct l'; discriminate|discriminate]. apply l_step_inv in Hs as (_ & _ & Hs). destruct (ending_fail sgn a s s1 He Hs) as (H1 & H2). destruct (IH s1 H1 Hr) as (H3 & H4). split; [exact H3|]. cbn [filter]. destruct (by_keyboard a); cbn [length]; lia. }
  destruct Hall as (H1 & H2). split; [|exact (end_moves sgn s' H1)]. assert (B : end_weight (k_w s) <= 9) by (destruct (k_w s); cbn; lia). lia.
Qed.

(** ** The modes of the terminal *)
Definition modes_ok (m : tmode) (l : list lact) (s : kbd) : Prop :=
  let ms := m :: modes_of l in let from x := exists y, In y ms /\ (x = y \/ x = mkMode false false (md_rest y)) in from (k_tty s) /\ (match k_m s with MAct0 => True | _ => from (k_old s) end).
Lemma modes_snoc l a : modes_of (l ++ [a]) = modes_of l ++ match a with LOk (SetMode m) => [m] | _ => [] end.
Proof. unfold modes_of. rewrite flat_map_app. cbn [flat_map]. rewrite app_nil_r. reflexivity. Qed.
Theorem fails_modes sgn p m j l s : lf_reaches sgn p m j l s -> ~ In LGetattr l ->
  exists y, In y (m :: modes_of l) /\ (k_tty s = y \/ k_tty s = mkMode false false (md_rest y)).
Proof.
  intros H. pose proof (lf_inv sgn p (fun l s => ~ In LGetattr l -> modes_ok m l s) m j l s) as G. cbn beta in G. intros Hn. refine (proj1 (G _ _ H Hn)).
  - intros _. unfold modes_ok. cbn. split; [exists m; auto|exact Logic.I].
  - clear. intros l a s s' Hi Hk _ Hs Hn. assert (Hn1 : ~ In LGetattr l) by (intros Hin; apply Hn, in_or_app; left; exact Hin). specialize (Hi Hn1). destruct Hi as (H1 & H2). cbn zeta in *.
    assert (Hup : forall x, (exists y, In y (m :: modes_of l) /\ (x = y \/ x = mkMode false false (md_rest y))) -> exists y, In y (m :: modes_of (l ++ [a])) /\ (x = y \/ x = mkMode false false (md_rest y))).
    { intros x (y & Hy & Hx). exists y. split; [|exact Hx]. rewrite modes_snoc. cbn. destruct Hy as [->|Hy]; [left; reflexivity|right; apply in_or_app; left; exact Hy]. }
    assert (Hman : forall x, (exists y, In y (m :: modes_of l) /\ (x = y \/ x = mkMode false false (md_rest y))) -> exists y, In y (m :: modes_of l) /\ (manual x = y \/ manual x = mkMode false false (md_rest y))).
    { intros x (y & Hy & Hx). exists y. split; [exact Hy|]. right. unfold manual. destruct Hx as [->| ->]; reflexivity. }
    assert (Hsame : k_tty s' = k_tty s -> k_old s' = k_old s -> (k_m s' = MAct0 \/ k_m s <> MAct0) -> modes_ok m (l ++ [a]) s').
    { intros E1 E2 E3. unfold modes_ok. cbn zeta. rewrite E1, E2. split; [exact (Hup _ H1)|]. destruct E3 as [-> |E3]; [exact Logic.I|]. assert (H3 : exists y, In y (m :: modes_of l) /\ (k_old s = y \/ k_old s = mkMode false false (md_rest y))) by (destruct (k_m s); try congruence; exact H2). destruct (k_m s'); try exact Logic.I; exact (Hup _ H3). }
    destruct a as [a| | | | |].
    + apply failing_ok in Hs as [(Hs & Hq)|(-> & Em & ->)]; [|apply Hsame; [reflexivity|reflexivity|right; rewrite Em; discriminate]].
      destruct a as [| | | |c|t| | |md].
      * apply step_worker, w_step_cases in Hs. destruct Hs as [p0 Hw Hmt ->|Hw He|Hw He|Hw|Hw Hst|Hw Hst Hqq|f c s1 Hf Hg|k Hw]; try apply getchar_inv in Hg as (r & e & cs & -> & _); (apply Hsame; [reflexivity|reflexivity|k_proj; destruct (k_m s); auto; right; discriminate]).
      * apply step_main in Hs. unfold m_step, lock in Hs. destruct (k_m s) eqn:Em; try discriminate;
          try (apply Hsame; [| |right; discriminate]; try (destruct (k_mtx s); try discriminate); try (destruct (k_reader s)); try (destruct (k_w s); try discriminate); injection Hs as <-; reflexivity).
        -- injection Hs as <-. unfold modes_ok. k_proj. cbn zeta. split; exact (Hup _ H1).
        -- injection Hs as <-. unfold modes_ok. k_proj. cbn zeta. split; [exact (Hup _ (Hman _ H2))|exact (Hup _ H2)].
        -- injection Hs as <-. unfold modes_ok. k_proj. cbn zeta. split; exact (Hup _ H2).
        -- injection Hs as <-. unfold modes_ok. k_proj. cbn zeta. split; exact (Hup _ H2).
      * unfold k_step in Hs. destruct (k_m s) eqn:Em, (k_w s); try discriminate; injection Hs as <-; (apply Hsame; [reflexivity|reflexivity|k_proj; rewrite ?Em; first [left; reflexivity|right; discriminate]]).
      * unfold k_step in Hs. destruct (k_m s) eqn:Em, (k_w s); try discriminate; injection Hs as <-; (apply Hsame; [reflexivity|reflexivity|k_proj; rewrite ?Em; first [left; reflexivity|right; discriminate]]).
      * unfold k_step in Hs. destruct (k_m s) eqn:Em; try discriminate; injection Hs as <-; (apply Hsame; [reflexivity|reflexivity|right; discriminate]).
      * unfold k_step in Hs. destruct (k_m s) eqn:Em; try discriminate; injection Hs as <-; (apply Hsame; [reflexivity|reflexivity|k_proj; rewrite ?Em; first [left; reflexivity|right; discriminate]]).
      * unfold k_step in Hs. destruct (k_m s) eqn:Em; try discriminate; injection Hs as <-; (apply Hsame; [reflexivity|reflexivity|k_proj; rewrite ?Em; first [left; reflexivity|right; discriminate]]).
      * unfold k_step in Hs. destruct (k_ready s); [destruct (k_m s); discriminate|]. destruct (k_m s) eqn:Em; try discriminate; injection Hs as <-; (apply Hsame; [reflexivity|reflexivity|k_proj; rewrite ?Em; first [left; reflexivity|right; discriminate]]).
      * unfold k_step in Hs. assert (Hin : exists y, In y (m :: modes_of (l ++ [LOk (SetMode md)])) /\ (md = y \/ md = mkMode false false (md_rest y))).
        { exists md. split; [right; rewrite modes_snoc; apply in_or_app; right; left; reflexivity|left; reflexivity]. }
        destruct (k_m s) eqn:Em; try discriminate; injection Hs as <-; unfold modes_ok; k_proj; rewrite Em; cbn zeta; (split; [exact Hin|exact (Hup _ H2)]).
    + apply fail_read in Hs as (f & Hf & ->). apply Hsame; [reflexivity|reflexivity|unfold no_char; k_proj; destruct (k_m s); auto; right; discriminate].
    + cbn [failing] in Hs. destruct (k_w s); try discriminate; injection Hs as <-. apply Hsame; [reflexivity|reflexivity|k_proj; destruct (k_m s); auto; right; discriminate].
    + cbn [failing] in Hs. destruct (k_m s) eqn:Em; try discriminate; injection Hs as <-. apply Hsame; [reflexivity|reflexivity|right; discriminate].
    + exfalso. apply Hn, in_or_app. right. left. reflexivity.
    + cbn [failing] in Hs. destruct (k_m s) eqn:Em; try discriminate; injection Hs as <-; (apply Hsame; [reflexivity|reflexivity|right; discriminate]).
Qed.

(** ** Without a pipe *)
Definition waits (p : wpc) : bool := match p with WLock | WCheck | WSleep | WWoke | WUnlock => true | _ => false end.
Definition past_stop (p : mpc) : bool := match p with MDt2 | MDt3 | MGone | MKilled => true | _ => false end.
Definition blind (p : lpipe) (s : kbd) : Prop := waits (k_w s) = true /\ k_read s = [] /\ k_keys s = [] /\ (p = PipeFailed -> past_stop (k_m s) = false).
Lemma blind_same p s s' : waits (k_w s') = true -> k_read s' = k_read s -> k_keys s' = k_keys s -> (p = PipeFailed -> past_stop (k_m s) = false -> past_stop (k_m s') = false) -> blind p s -> blind p s'.
Proof. unfold blind. intros H1 -> -> H2 (_ & H3 & H4 & H6). auto 8. Qed.
Theorem fails_blind sgn p m j l s : p <> PipeOk -> lf_reaches sgn p m j l s ->
  k_read s = [] /\ k_keys s = [] /\ k_w s <> WSelect /\ (p = PipeFailed -> k_m s <> MGone).
Proof.
  intros Hp H. assert (G : blind p s).
  { apply (lf_inv sgn p (fun _ s => blind p s) m j l s); [| |exact H]; [unfold blind; cbn; auto 8|]. clear - Hp. intros l a s s' Hb Hk Htr Hs. pose proof Hb as (Hw & Hr & Hy & Hm).
    destruct a as [a| | | | |].
    - apply failing_ok in Hs as [(Hs & Hq)|(-> & Em & ->)]; [|unfold closes; apply (blind_same p s); k_proj; auto; intros E E2; rewrite Em in E2; discriminate].
      destruct a as [| | | |c|t| | |md].
      + assert (Hu : k_w s <> WUnlock) by (intros E; unfold trap in Htr; rewrite E in Htr; destruct p; congruence).
        apply step_worker, w_step_cases in Hs. destruct Hs as [q Hw1 Hmt ->|Hw1 He|Hw1 He|Hw1|Hw1 Hst|Hw1 Hst Hqq|f c s1 Hf Hg|k Hw1]; try (rewrite Hw1 in Hw; discriminate); try congruence; try (apply (blind_same p s); k_proj; auto; fail).
        destruct (get_next sgn f c _ Hf) as (H3 & _). destruct (k_w s); discriminate.
      + assert (Hu : p = PipeFailed -> k_m s <> MDt1) by (intros E E2; unfold trap in Htr; rewrite E, E2 in Htr; discriminate).
        apply step_main in Hs. unfold m_step, lock in Hs. destruct (k_m s) eqn:Em; try discriminate; try congruence;
          try (injection Hs as <-; apply (blind_same p s); k_proj; auto; fail);
          try (destruct (k_mtx s); try discriminate; injection Hs as <-; apply (blind_same p s); k_proj; auto; fail).
        * injection Hs as <-. destruct (k_w s) eqn:Ew; apply (blind_same p s); k_proj; rewrite ?Ew; auto.
        * destruct (k_reader s); injection Hs as <-; apply (blind_same p s); k_proj; auto; intros E; destruct (Hu E eq_refl).
        * destruct (k_w s) eqn:Ew; discriminate.
      + unfold k_step in Hs. destruct (k_m s) eqn:Em, (k_w s); try discriminate; injection Hs as <-; (apply (blind_same p s); k_proj; auto).
      + unfold k_step in Hs. destruct (k_m s) eqn:Em, (k_w s); discriminate.
      + unfold k_step in Hs. destruct (k_m s) eqn:Em; try discriminate; injection Hs as <-; (apply (blind_same p s); k_proj; auto). destruct c; reflexivity.
      + unfold k_step in Hs. destruct (k_m s) eqn:Em; try discriminate; injection Hs as <-; (apply (blind_same p s); k_proj; auto).
      + unfold k_step in Hs. destruct (k_m s) eqn:Em; try discriminate; injection Hs as <-; (apply (blind_same p s); k_proj; auto).
      + unfold k_step in Hs. destruct (k_ready s); [destruct (k_m s); discriminate|]. unfold blind. destruct (k_m s) eqn:Em; try discriminate; injection Hs as <-; k_proj; (split; [exact Hw|]); (split; [exact Hr|]); (split; [exact Hy|exact Hm]).
      + unfold k_step in Hs. destruct (k_m s) eqn:Em; try discriminate; injection Hs as <-; (apply (blind_same p s); k_proj; auto).
    - apply fail_read in Hs as (f & Hf & ->). destruct (get_next sgn f "000"%char _ Hf) as (H3 & _). destruct (k_w s); discriminate.
    - cbn [failing] in Hs. destruct (k_w s); discriminate.
    - assert (Hu : p = PipeFailed -> k_m s <> MDt1) by (intros E E2; unfold trap in Htr; rewrite E, E2 in Htr; discriminate).
      cbn [failing] in Hs. destruct (k_m s) eqn:Em; try discriminate; injection Hs as <-. apply (blind_same p s); k_proj; auto. intros E. destruct (Hu E eq_refl).
    - cbn [failing] in Hs. destruct (k_m s) eqn:Em; try discriminate; injection Hs as <-. apply (blind_same p s); k_proj; auto.
    - cbn [failing] in Hs. destruct (k_m s) eqn:Em; try discriminate; injection Hs as <-; (apply (blind_same p s); k_proj; auto). }
  destruct G as (H1 & H2 & H3 & H4). split; [exact H2|]. split; [exact H3|]. split; [intros E; rewrite E in H1; discriminate|]. intros E E2. specialize (H4 E). rewrite E2 in H4. discriminate.
Qed.
Lemma fails_done sgn p l s s' : k_w s = WDone -> l_run sgn p l (LRun s) = Some (LRun s') -> k_w s' = WDone /\ k_keys s' = k_keys s.
Proof.
  intros Hw H. refine (l_run_hist sgn p (fun _ x => k_w x = WDone /\ k_keys x = k_keys s) _ l [] s s' _ H); [|auto]. clear. intros _ a x x' (Hw & <-) Hk _ Hs. destruct a as [a| | | | |].
  - apply failing_ok in Hs as [(Hs & _)|(_ & _ & ->)]; [|auto]. destruct (done_step sgn a x x' Hw Hs) as (H1 & H2 & _). auto.
  - cbn [failing] in Hs. rewrite Hw in Hs. discriminate.
  - cbn [failing] in Hs. rewrite Hw in Hs. discriminate.
  - cbn [failing] in Hs. destruct (k_m x); try discriminate; injection Hs as <-; auto.
  - cbn [failing] in Hs. destruct (k_m x); try discriminate; injection Hs as <-; auto.
  - cbn [failing] in Hs. destruct (k_m x); try discriminate; injection Hs as <-; auto.
Qed.
(** Why the thread ends. *)
Theorem fails_ends sgn p m j l s : lf_reaches sgn p m j l s -> k_w s = WDone -> In (LOk WSignal) l \/ fails LPost l > 0 \/ match k_m s with MDt2 | MDt3 | MGone => True | _ => False end.
Proof.
  intros H. apply (lf_inv sgn p (fun l s => lf_ok l s /\ (k_w s = WDone -> In (LOk WSignal) l \/ fails LPost l > 0 \/ match k_m s with MDt2 | MDt3 | MGone => True | _ => False end)) m j l s); [| |exact H].
  - split; [exact (lf_all sgn p m j [] _ eq_refl)|discriminate].
  - clear. intros l a s s' (Hl & Hd) Hk _ Hs. split; [exact (lf_step sgn l a s s' Hl Hk Hs)|]. destruct Hl as (_ & _ & _ & _ & _ & Ht & _). rewrite fails_snoc. intros Hw.
    assert (Hsame : k_w s = WDone -> (match k_m s with MDt2 | MDt3 | MGone => True | _ => False end -> match k_m s' with MDt2 | MDt3 | MGone => True | _ => False end) ->
      In (LOk WSignal) (l ++ [a]) \/ fails LPost l + (if lact_eqb LPost a then 1 else 0) > 0 \/ match k_m s' with MDt2 | MDt3 | MGone => True | _ => False end).
    { intros E Hm. destruct (Hd E) as [H|[H|H]]; [left; apply in_or_app; left; exact H|right; left; lia|right; right; exact (Hm H)]. }
    destruct a as [a| | | | |].
    + apply failing_ok in Hs as [(Hs & Hq)|(-> & Em & ->)]; [|right; right; exact Logic.I].
      destruct a as [| | | |c|t| | |md].
      * apply step_worker, w_step_cases in Hs. destruct Hs as [p0 Hw1 Hmt ->|Hw1 He|Hw1 He|Hw1|Hw1 Hst|Hw1 Hst Hqq|f c s1 Hf Hg|k Hw1]; try discriminate Hw.
        -- right. right. exact (Ht Hst).
        -- destruct (get_next sgn f c _ Hf) as (_ & H4). k_proj. rewrite Hw in H4. discriminate.
      * specialize (Hq eq_refl). apply step_main in Hs. pose proof (main_done s s' Hs) as (H1 & _). apply Hsame; [exact (H1 Hw)|]. unfold m_step in Hs. destruct (k_m s) eqn:Em; try (intros []; fail); try congruence. destruct (k_w s); try discriminate. injection Hs as <-. auto.
      * unfold k_step in Hs. destruct (k_m s), (k_w s); try discriminate; injection Hs as <-; discriminate.
      * left. apply in_or_app. right. left. reflexivity.
      * unfold k_step in Hs. destruct (k_m s) eqn:Em; try discriminate; injection Hs as <-. apply Hsame; [exact Hw|intros []].
      * unfold k_step in Hs. destruct (k_m s) eqn:Em; try discriminate; injection Hs as <-; (apply Hsame; [exact Hw|k_proj; rewrite Em; auto]).
      * unfold k_step in Hs. destruct (k_m s) eqn:Em; try discriminate; injection Hs as <-; (apply Hsame; [exact Hw|k_proj; rewrite Em; auto]).
      * unfold k_step in Hs. destruct (k_ready s); [destruct (k_m s); discriminate|]. destruct (k_m s) eqn:Em; try discriminate; injection Hs as <-; (apply Hsame; [exact Hw|k_proj; auto]).
      * unfold k_step in Hs. destruct (k_m s) eqn:Em; try discriminate; injection Hs as <-; (apply Hsame; [exact Hw|k_proj; rewrite Em; auto]).
    + apply fail_read in Hs as (f & Hf & ->). destruct (get_next sgn f "000"%char _ Hf) as (_ & H4). k_proj. rewrite Hw in H4. discriminate.
    + right. left. cbn. lia.
    + cbn [failing] in Hs. destruct (k_m s) eqn:Em; try discriminate; injection Hs as <-. apply Hsame; [exact Hw|intros []].
    + cbn [failing] in Hs. destruct (k_m s) eqn:Em; try discriminate; injection Hs as <-. apply Hsame; [exact Hw|intros []].
    + cbn [failing] in Hs. destruct (k_m s) eqn:Em; try discriminate; injection Hs as <-; (apply Hsame; [exact Hw|intros []]).
Qed.
