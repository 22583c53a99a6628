(** * Proofs about shared history files *)

From Verif Require Import Base StorageModel StorageSpec StorageProofs ShareModel ShareSpec.
Open Scope nat_scope.
Open Scope list_scope.

Lemma s_run_app l1 : forall l2 s, s_run (l1 ++ l2) s = match s_run l1 s with Some s' => s_run l2 s' | None => None end.
Proof. induction l1 as [|a l1 IH]; intros l2 s; [reflexivity|]. cbn. destruct (s_step a s); [apply IH|reflexivity]. Qed.

(** Writing at the end. *)
Lemma write_at_end s f : write_at (length f) s f = f ++ s.
Proof.
  unfold write_at. rewrite firstn_all, Nat.sub_diag. cbn [repeat app]. rewrite skipn_all2 by lia. rewrite app_nil_r. reflexivity.
Qed.
Lemma firstn_S_nil {A} n (l : list A) : firstn (S n) l = [] -> l = [].
Proof. destruct l; [reflexivity|discriminate]. Qed.

(** One process at work, begun on the file [f0]; the others idle. *)
Definition others_idle (i : nat) (s : shared) : Prop := forall j, j <> i -> sh_proc s j = SIdle.
Definition target (f0 : file) (max : nat) (cmds : list str) : str :=
  put_lines (append_trim max (f_commands f0) cmds).
Definition at_work (f0 : file) (max : nat) (cmds : list str) (p : sphase) (f : file) : Prop :=
  match p with
  | SIdle => f = Some (target f0 max cmds)
  | SRead m c got => f = f0 /\ m = max /\ c = cmds /\ exists s rest, f0 = Some s /\ s = got ++ rest
  | SReady c => f = f0 /\ c = target f0 max cmds
  | SWrite pos rest => exists done, f = Some done /\ pos = length done /\ target f0 max cmds = done ++ rest
  end.
Lemma set_proc_same i p s : sh_proc (set_proc i p s) i = p.
Proof. cbn. rewrite Nat.eqb_refl. reflexivity. Qed.
Lemma set_proc_other i p s j : j <> i -> sh_proc (set_proc i p s) j = sh_proc s j.
Proof. intros H. cbn. destruct (Nat.eqb_spec j i); [congruence|reflexivity]. Qed.

Lemma work_step f0 max cmds i n s s' : at_work f0 max cmds (sh_proc s i) (sh_file s) ->
  s_step (GoOn i n) s = Some s' -> at_work f0 max cmds (sh_proc s' i) (sh_file s') /\ (forall j, j <> i -> sh_proc s' j = sh_proc s j).
Proof.
  intros H E. cbn [s_step] in E. destruct (sh_proc s i) as [|m c got|c|pos rest] eqn:Hp; [discriminate| | |].
  - cbn [at_work] in H. destruct H as (Hf & -> & -> & (t & rest & -> & ->)). rewrite Hf in E.
    rewrite skipn_app, skipn_all, Nat.sub_diag in E. cbn [app skipn] in E.
    destruct (firstn (S n) rest) as [|x piece] eqn:Hx; injection E as <-; rewrite set_proc_same; cbn [at_work sh_file set_proc];
      (split; [|intros j Hj; apply set_proc_other; exact Hj]).
    + apply firstn_S_nil in Hx. subst rest. split; [exact Hf|]. unfold target, to_write. cbn [f_commands]. rewrite app_nil_r. reflexivity.
    + split; [exact Hf|]. split; [reflexivity|]. split; [reflexivity|]. exists (got ++ rest), (skipn (S n) rest). split; [reflexivity|].
      rewrite <- app_assoc, <- Hx. rewrite firstn_skipn. reflexivity.
  - destruct H as (Hf & ->). injection E as <-. cbn [set_file sh_proc sh_file]. rewrite set_proc_same. cbn [at_work].
    split; [|intros j Hj; apply set_proc_other; exact Hj]. exists []. auto.
  - destruct H as (dn & Hf & -> & Ht). destruct rest as [|x rest].
    + injection E as <-. rewrite set_proc_same. cbn [at_work sh_file set_proc]. split; [|intros j Hj; apply set_proc_other; exact Hj].
      rewrite Hf, Ht, app_nil_r. reflexivity.
    + rewrite Hf in E. injection E as <-. cbn [set_file sh_proc sh_file]. split; [|intros j Hj; apply set_proc_other; exact Hj].
      rewrite set_proc_same. cbn [at_work]. exists (dn ++ firstn (S n) (x :: rest)). rewrite write_at_end.
      split; [reflexivity|]. split; [rewrite app_length; reflexivity|]. rewrite <- app_assoc.
      change (skipn n rest) with (skipn (S n) (x :: rest)). rewrite firstn_skipn. exact Ht.
Qed.

(** Calls one at a time: as with atomic calls. *)
Definition serial_state (f : file) (s : shared) : Prop :=
  (all_idle s /\ sh_file s = f) \/
  exists f0 max cmds i, f = f_store max f0 cmds /\ others_idle i s /\ sh_proc s i <> SIdle /\ at_work f0 max cmds (sh_proc s i) (sh_file s).
Lemma serial_call a f s s' : is_call a -> all_idle s -> sh_file s = f -> s_step a s = Some s' -> serial_state (fold_left f_step (calls_made [a]) f) s'.
Proof.
  intros Ha Hi Hf E. destruct a as [i max cmds|i|i n]; [| |destruct Ha]; cbn [s_step] in E; rewrite (Hi i) in E; cbn [calls_made fold_left f_step].
  - right. exists f, max, cmds, i. split; [reflexivity|]. rewrite Hf in E. destruct f as [t|]; injection E as <-.
    + split; [intros j Hj; rewrite set_proc_other by exact Hj; apply Hi|]. rewrite set_proc_same. split; [discriminate|]. cbn [at_work sh_file set_proc].
      split; [exact Hf|]. split; [reflexivity|]. split; [reflexivity|]. exists t, t. auto.
    + split; [intros j Hj; rewrite set_proc_other by exact Hj; apply Hi|]. rewrite set_proc_same. split; [discriminate|]. cbn [at_work sh_file set_proc].
      split; [exact Hf|reflexivity].
  - injection E as <-. left. split; [exact Hi|reflexivity].
Qed.
Lemma serial_go i n f s s' : serial_state f s -> s_step (GoOn i n) s = Some s' -> serial_state f s'.
Proof.
  intros [(Hi & Hf)|(f0 & max & cmds & k & -> & Ho & Hk & Hw)] E; [cbn [s_step] in E; rewrite (Hi i) in E; discriminate|].
  destruct (Nat.eq_dec i k) as [->|Hn]; [|cbn [s_step] in E; rewrite (Ho i Hn) in E; discriminate].
  destruct (work_step _ _ _ _ _ _ _ Hw E) as (Hw' & Ho'). destruct (sh_proc s' k) as [|m c got|c|pos rest] eqn:Hp.
  - left. split; [|exact Hw']. intros j. destruct (Nat.eq_dec j k) as [->|Hj]; [exact Hp|]. rewrite Ho' by exact Hj. apply Ho, Hj.
  - right. exists f0, max, cmds, k. split; [reflexivity|]. rewrite Hp. split; [intros j Hj; rewrite Ho' by exact Hj; apply Ho, Hj|]. split; [discriminate|exact Hw'].
  - right. exists f0, max, cmds, k. split; [reflexivity|]. rewrite Hp. split; [intros j Hj; rewrite Ho' by exact Hj; apply Ho, Hj|]. split; [discriminate|exact Hw'].
  - right. exists f0, max, cmds, k. split; [reflexivity|]. rewrite Hp. split; [intros j Hj; rewrite Ho' by exact Hj; apply Ho, Hj|]. split; [discriminate|exact Hw'].
Qed.
Lemma calls_app l1 l2 : calls_made (l1 ++ l2) = calls_made l1 ++ calls_made l2.
Proof. induction l1 as [|[i m c|i|i n] l1 IH]; cbn; rewrite ?IH; reflexivity. Qed.
Lemma serial_run s0 : all_idle s0 -> forall l s, one_at_a_time s0 l -> s_run l s0 = Some s ->
  serial_state (fold_left f_step (calls_made l) (sh_file s0)) s.
Proof.
  intros H0. induction l as [|a l IH] using rev_ind; intros s Hl E.
  - cbn in E. injection E as <-. left. auto.
  - rewrite s_run_app in E. destruct (s_run l s0) as [s1|] eqn:E1; [|discriminate]. cbn in E. destruct (s_step a s1) as [s2|] eqn:E2; [|discriminate]. injection E as <-.
    assert (H1 : serial_state (fold_left f_step (calls_made l) (sh_file s0)) s1).
    { apply IH; [|reflexivity]. intros l1 b l2 s -> Hb Hr. apply (Hl l1 b (l2 ++ [a]) s); [rewrite <- app_assoc; reflexivity|exact Hb|exact Hr]. }
    rewrite calls_app, fold_left_app. destruct a as [i m c|i|i n].
    + assert (Hi : all_idle s1) by (apply (Hl l (CallStore i m c) [] s1); [reflexivity|exact Logic.I|exact E1]).
      destruct H1 as [(_ & Hf)|(f0 & max & cmds & k & _ & _ & Hk & _)]; [|destruct (Hk (Hi k))]. eapply serial_call; [exact Logic.I|exact Hi|exact Hf|exact E2].
    + assert (Hi : all_idle s1) by (apply (Hl l (CallClear i) [] s1); [reflexivity|exact Logic.I|exact E1]).
      destruct H1 as [(_ & Hf)|(f0 & max & cmds & k & _ & _ & Hk & _)]; [|destruct (Hk (Hi k))]. eapply serial_call; [exact Logic.I|exact Hi|exact Hf|exact E2].
    + cbn [calls_made fold_left]. eapply serial_go; [exact H1|exact E2].
Qed.
Lemma serial_file f0 l s : one_at_a_time (sh_init f0) l -> s_run l (sh_init f0) = Some s -> all_idle s ->
  sh_file s = fold_left f_step (calls_made l) f0.
Proof.
  intros Hl E Hi. assert (H0 : all_idle (sh_init f0)) by (intros i; reflexivity).
  destruct (serial_run _ H0 l s Hl E) as [(_ & Hf)|(? & ? & ? & k & _ & _ & Hk & _)]; [exact Hf|destruct (Hk (Hi k))].
Qed.

Lemma serial_ideal f0 l s : one_at_a_time (sh_init f0) l -> s_run l (sh_init f0) = Some s -> all_idle s ->
  Forall op_one_line (calls_made l) -> f_commands (sh_file s) = ideal (f_commands f0) (calls_made l).
Proof. intros Hl E Hi Ho. rewrite (serial_file f0 l s Hl E Hi). apply file_ideal, Ho. Qed.

(** ** The last one to open the file *)
Lemma step_other a s s' i : actor a <> i -> s_step a s = Some s' -> sh_proc s' i = sh_proc s i.
Proof.
  intros Ha E. destruct a as [j m c|j|j n]; cbn [actor] in Ha; cbn [s_step] in E.
  - destruct (sh_proc s j); try discriminate. destruct (sh_file s); injection E as <-; apply set_proc_other; congruence.
  - destruct (sh_proc s j); try discriminate. injection E as <-. reflexivity.
  - destruct (sh_proc s j) as [|m c got|c|pos rest]; [discriminate| | |].
    + destruct (sh_file s) as [f|]; [|discriminate]. destruct (firstn (S n) _); injection E as <-; apply set_proc_other; congruence.
    + injection E as <-. cbn [set_file sh_proc]. apply set_proc_other; congruence.
    + destruct rest as [|x rest]; [injection E as <-; apply set_proc_other; congruence|].
      destruct (sh_file s) as [f|]; [|discriminate]. injection E as <-. cbn [set_file sh_proc]. apply set_proc_other; congruence.
Qed.
Lemma step_quiet a s s' : ~ writes s a -> s_step a s = Some s' -> sh_file s' = sh_file s.
Proof.
  intros Hw E. destruct a as [j m c|j|j n]; cbn [writes] in Hw; cbn [s_step] in E.
  - destruct (sh_proc s j); try discriminate. destruct (sh_file s) eqn:Hf; injection E as <-; cbn [sh_file set_proc]; exact Hf.
  - destruct Hw. exact Logic.I.
  - destruct (sh_proc s j) as [|m c got|c|pos rest]; [discriminate| |destruct Hw; exact Logic.I|].
    + destruct (sh_file s) as [f|] eqn:Hf; [|discriminate]. destruct (firstn (S n) _); injection E as <-; cbn [sh_file set_proc]; exact Hf.
    + destruct rest as [|x rest]; [|destruct Hw; exact Logic.I]. injection E as <-. reflexivity.
Qed.

(** A [Store] of [cmds] that is not over, whatever the others do. *)
Definition storing (max : nat) (cmds : list str) (p : sphase) : Prop :=
  match p with
  | SRead m c _ => m = max /\ c = cmds
  | SReady c => exists got, c = to_write max cmds got
  | _ => True
  end.
Lemma storing_go max cmds i n s s' : storing max cmds (sh_proc s i) -> s_step (GoOn i n) s = Some s' -> storing max cmds (sh_proc s' i).
Proof.
  intros H E. cbn [s_step] in E. destruct (sh_proc s i) as [|m c got|c|pos rest]; [discriminate| | |].
  - destruct H as (-> & ->). destruct (sh_file s) as [f|]; [|discriminate]. destruct (firstn (S n) _); injection E as <-; rewrite set_proc_same; cbn [storing]; eauto.
  - injection E as <-. cbn [set_file sh_proc]. rewrite set_proc_same. exact Logic.I.
  - destruct rest as [|x rest]; [injection E as <-; rewrite set_proc_same; exact Logic.I|].
    destruct (sh_file s) as [f|]; [|discriminate]. injection E as <-. cbn [set_file sh_proc]. rewrite set_proc_same. exact Logic.I.
Qed.
Lemma storing_run max cmds i : forall l s s', calls_not i l -> storing max cmds (sh_proc s i) -> s_run l s = Some s' -> storing max cmds (sh_proc s' i).
Proof.
  induction l as [|a l IH]; intros s s' Hc H E; cbn in E; [injection E as <-; exact H|].
  destruct (s_step a s) as [s1|] eqn:E1; [|discriminate]. apply (IH s1 s'); [intros b Hb; apply Hc; right; exact Hb| |exact E].
  destruct (Nat.eq_dec (actor a) i) as [Ha|Ha]; [|rewrite (step_other _ _ _ _ Ha E1); exact H].
  destruct a as [j m c|j|j n]; [destruct (Hc _ (or_introl eq_refl) Ha Logic.I)..|]. cbn [actor] in Ha. subst j. exact (storing_go _ _ _ _ _ _ H E1).
Qed.
Lemma storing_start i max cmds s s' : s_step (CallStore i max cmds) s = Some s' -> storing max cmds (sh_proc s' i).
Proof.
  intros E. cbn [s_step] in E. destruct (sh_proc s i); try discriminate. destruct (sh_file s); injection E as <-; rewrite set_proc_same; cbn [storing]; eauto.
Qed.

(** From before opening the file until the end, the only writer. *)
Definition last_one (max : nat) (cmds : list str) (p : sphase) (f : file) : Prop :=
  match p with
  | SIdle => exists got, f = Some (to_write max cmds got)
  | SRead m c _ => m = max /\ c = cmds
  | SReady c => exists got, c = to_write max cmds got
  | SWrite pos rest => exists got done, f = Some done /\ pos = length done /\ to_write max cmds got = done ++ rest
  end.
Lemma last_go max cmds i n s s' : last_one max cmds (sh_proc s i) (sh_file s) -> s_step (GoOn i n) s = Some s' ->
  last_one max cmds (sh_proc s' i) (sh_file s').
Proof.
  intros H E. cbn [s_step] in E. destruct (sh_proc s i) as [|m c got|c|pos rest]; [discriminate| | |].
  - destruct H as (-> & ->). destruct (sh_file s) as [f|]; [|discriminate]. destruct (firstn (S n) _); injection E as <-; rewrite set_proc_same; cbn [last_one]; eauto.
  - destruct H as (got & ->). injection E as <-. cbn [set_file sh_proc sh_file]. rewrite set_proc_same. exists got, []. auto.
  - destruct H as (got & dn & Hf & -> & Ht). destruct rest as [|x rest].
    + injection E as <-. rewrite set_proc_same. cbn [last_one sh_file set_proc]. exists got. rewrite Hf, Ht, app_nil_r. reflexivity.
    + rewrite Hf in E. injection E as <-. cbn [set_file sh_proc sh_file]. rewrite set_proc_same.
      exists got, (dn ++ firstn (S n) (x :: rest)). rewrite write_at_end.
      split; [reflexivity|]. split; [rewrite app_length; reflexivity|]. rewrite <- app_assoc.
      change (skipn n rest) with (skipn (S n) (x :: rest)). rewrite firstn_skipn. exact Ht.
Qed.
Lemma last_run max cmds i : forall l s s', calls_not i l -> sole_writer i s l -> last_one max cmds (sh_proc s i) (sh_file s) ->
  s_run l s = Some s' -> last_one max cmds (sh_proc s' i) (sh_file s').
Proof.
  induction l as [|a l IH]; intros s s' Hc Hs H E; cbn in E; [injection E as <-; exact H|].
  destruct (s_step a s) as [s1|] eqn:E1; [|discriminate]. apply (IH s1 s'); [intros b Hb; apply Hc; right; exact Hb| | |exact E].
  - intros l1 b l2 t -> Hr. apply (Hs (a :: l1) b l2 t); [reflexivity|]. cbn. rewrite E1. exact Hr.
  - destruct (Nat.eq_dec (actor a) i) as [Ha|Ha].
    + destruct a as [j m c|j|j n]; [destruct (Hc _ (or_introl eq_refl) Ha Logic.I)..|]. cbn [actor] in Ha. subst j. exact (last_go _ _ _ _ _ _ H E1).
    + rewrite (step_other _ _ _ _ Ha E1). rewrite (step_quiet _ _ _ (fun W => Ha (Hs [] a l s eq_refl eq_refl W)) E1). exact H.
Qed.
Lemma last_kept f0 la i max cmds lb s1 lc s :
  s_run (la ++ CallStore i max cmds :: lb) (sh_init f0) = Some s1 -> calls_not i (lb ++ lc) -> before_opening s1 i ->
  sole_writer i s1 lc -> s_run lc s1 = Some s -> sh_proc s i = SIdle -> Forall one_line cmds ->
  exists old, f_commands (sh_file s) = lastn max (old ++ cmds).
Proof.
  intros E Hc Hb Hs E' Hi Ho. rewrite s_run_app in E. destruct (s_run la (sh_init f0)) as [sa|]; [|discriminate]. cbn [s_run] in E.
  destruct (s_step (CallStore i max cmds) sa) as [sb|] eqn:Eb; [|discriminate].
  assert (H1 : storing max cmds (sh_proc s1 i)) by (apply (storing_run max cmds i lb sb s1); [intros b Hin; apply Hc, in_or_app; left; exact Hin|exact (storing_start _ _ _ _ _ Eb)|exact E]).
  assert (H2 : last_one max cmds (sh_proc s i) (sh_file s)).
  { apply (last_run max cmds i lc s1 s); [intros b Hin; apply Hc, in_or_app; right; exact Hin|exact Hs| |exact E'].
    unfold before_opening in Hb. destruct (sh_proc s1 i); [destruct Hb|exact H1|exact H1|destruct Hb]. }
  rewrite Hi in H2. destruct H2 as (got & ->). exists (getlines [] got). cbn [f_commands]. unfold to_write.
  rewrite append_trim_lastn. apply getlines_put, Forall_lastn, Forall_app. split; [apply getlines_one_line; intros []|exact Ho].
Qed.

(** ** Where the bytes come from *)
Lemma put_lines_flat cs : put_lines cs = flat_map (fun c => c ++ ["010"%char]) cs.
Proof. induction cs as [|c cs IH]; [reflexivity|]. cbn. rewrite <- IH, <- app_assoc. reflexivity. Qed.
Lemma nth_error_skipn {A} n : forall (l : list A) k, nth_error (skipn n l) k = nth_error l (n + k).
Proof. induction n as [|n IH]; intros [|x l] k; cbn; auto. destruct k; reflexivity. Qed.
Lemma nth_write_at pos s f k b : nth_error (write_at pos s f) k = Some b ->
  b = "000"%char \/ (pos <= k /\ nth_error s (k - pos) = Some b) \/ nth_error f k = Some b.
Proof.
  unfold write_at. intros H. destruct (Nat.lt_ge_cases k (length (firstn pos f))) as [L|L].
  - rewrite nth_error_app1 in H by exact L. right. right. rewrite firstn_length in L. rewrite <- H.
    clear H. revert f k L. induction pos as [|p IH]; intros [|x f] [|k] L; cbn in *; try lia; [reflexivity|]. apply IH. lia.
  - rewrite nth_error_app2 in H by exact L. rewrite firstn_length in *. destruct (Nat.lt_ge_cases (k - Nat.min pos (length f)) (pos - length f)) as [L2|L2].
    + rewrite nth_error_app1 in H by (rewrite repeat_length; exact L2). left. symmetry. apply nth_error_In, repeat_spec in H. auto.
    + rewrite nth_error_app2 in H by (rewrite repeat_length; exact L2). rewrite repeat_length in H. right.
      replace (k - Nat.min pos (length f) - (pos - length f)) with (k - pos) in H by lia. destruct (Nat.lt_ge_cases (k - pos) (length s)) as [L3|L3].
      * rewrite nth_error_app1 in H by exact L3. left. split; [lia|exact H].
      * rewrite nth_error_app2 in H by exact L3. right. rewrite nth_error_skipn in H. rewrite <- H. f_equal. lia.
Qed.
Definition from_call (l : list sact) (c : str) : Prop := exists i max cmds old, In (CallStore i max cmds) l /\ c = put_lines (lastn max (old ++ cmds)).
Definition proc_from (l : list sact) (p : sphase) : Prop :=
  match p with
  | SIdle => True
  | SRead max cmds _ => exists i, In (CallStore i max cmds) l
  | SReady c => from_call l c
  | SWrite pos rest => exists c, from_call l c /\ rest = skipn pos c
  end.
Definition byte_from (f0 : file) (l : list sact) (k : nat) (b : ascii) : Prop :=
  b = "000"%char \/ (exists f, f0 = Some f /\ nth_error f k = Some b) \/ its_byte l k b.
Definition all_from (f0 : file) (l : list sact) (s : shared) : Prop :=
  (forall i, proc_from l (sh_proc s i)) /\ (forall f k b, sh_file s = Some f -> nth_error f k = Some b -> byte_from f0 l k b).
Lemma from_call_more l a c : from_call l c -> from_call (l ++ [a]) c.
Proof. intros (i & m & cs & o & H & E). exists i, m, cs, o. split; [apply in_or_app; auto|exact E]. Qed.
Lemma proc_from_more l a p : proc_from l p -> proc_from (l ++ [a]) p.
Proof.
  destruct p; cbn; auto using from_call_more.
  - intros (i & H). exists i. apply in_or_app. auto.
  - intros (c & H & E). exists c. auto using from_call_more.
Qed.
Lemma byte_from_more f0 l a k b : byte_from f0 l k b -> byte_from f0 (l ++ [a]) k b.
Proof. intros [H|[H|(i & m & cs & o & H & E)]]; [left|right; left|right; right]; auto. exists i, m, cs, o. split; [apply in_or_app; auto|exact E]. Qed.
Lemma from_write l i max cmds got : In (CallStore i max cmds) l -> from_call l (to_write max cmds got).
Proof. intros H. exists i, max, cmds, (getlines [] got). split; [exact H|]. unfold to_write. rewrite append_trim_lastn. reflexivity. Qed.
Lemma from_step f0 l a s s' : all_from f0 l s -> s_step a s = Some s' -> all_from f0 (l ++ [a]) s'.
Proof.
  intros (Hp & Hf) H.
  assert (Hset : forall i p s0, sh_file s0 = sh_file s -> sh_proc s0 = sh_proc s -> proc_from (l ++ [a]) p -> forall j, proc_from (l ++ [a]) (sh_proc (set_proc i p s0) j)).
  { intros i p s0 _ E2 Hq j. cbn. destruct (Nat.eqb j i); [exact Hq|]. rewrite E2. apply proc_from_more, Hp. }
  assert (Hsame : forall f k b, sh_file s = Some f -> nth_error f k = Some b -> byte_from f0 (l ++ [a]) k b) by (intros; eapply byte_from_more, Hf; eassumption).
  destruct a as [i max cmds|i|i n]; cbn [s_step] in H.
  - destruct (sh_proc s i) eqn:Ei; try discriminate. destruct (sh_file s) as [f|] eqn:Ef; injection H as <-; (split; [|cbn [set_proc sh_file]; rewrite Ef; exact Hsame]); apply Hset; auto.
    + exists i. apply in_or_app. right. left. reflexivity.
    + apply (from_write _ i). apply in_or_app. right. left. reflexivity.
  - destruct (sh_proc s i) eqn:Ei; try discriminate. injection H as <-. split; [intros j; apply proc_from_more, Hp|]. intros f k b Hk. injection Hk as <-. destruct k; discriminate.
  - pose proof (Hp i) as Hi. destruct (sh_proc s i) as [|max cmds got|c|pos rest] eqn:Ei; try discriminate.
    + destruct (sh_file s) as [f|] eqn:Ef; [|discriminate]. destruct Hi as (i0 & Hi). assert (Hi' : In (CallStore i0 max cmds) (l ++ [GoOn i n])) by (apply in_or_app; auto).
      destruct (firstn (S n) (skipn (length got) f)) eqn:Eg; injection H as <-; (split; [|cbn [set_proc sh_file]; rewrite Ef; exact Hsame]); apply Hset; auto.
      * apply (from_write _ i0), Hi'.
      * exists i0. exact Hi'.
    + injection H as <-. split.
      * apply (Hset i (SWrite 0 c) s eq_refl eq_refl). exists c. split; [apply from_call_more, Hi|reflexivity].
      * intros f k b Hk. injection Hk as <-. destruct k; discriminate.
    + destruct rest as [|x rest]; [injection H as <-; split; [apply Hset; cbn; auto|exact Hsame]|].
      destruct (sh_file s) as [f|] eqn:Ef; [|discriminate]. injection H as <-. destruct Hi as (c & Hc & Er). split.
      * refine (Hset i _ s Ef eq_refl _). exists c. split; [apply from_call_more, Hc|]. change (skipn (S n) (x :: rest) = skipn (pos + length (firstn (S n) (x :: rest))) c). rewrite Er, skipn_skipn'.
        destruct (Nat.le_gt_cases (S n) (length (skipn pos c))) as [L|L].
        -- f_equal. rewrite firstn_length. lia.
        -- rewrite !skipn_all2; [reflexivity| |]; rewrite ?firstn_length, ?skipn_length in *; lia.
      * intros f1 k b Hk Hb. injection Hk as <-. apply nth_write_at in Hb. destruct Hb as [Hb|[(L & Hb)|Hb]]; [left; exact Hb| |eapply Hsame; [reflexivity|exact Hb]].
        right. right. destruct Hc as (i0 & m & cs & o & Hin & ->). exists i0, m, cs, o. split; [apply in_or_app; auto|]. rewrite <- put_lines_flat.
        change (nth_error (firstn (S n) (x :: rest)) (k - pos) = Some b) in Hb. rewrite Er in Hb. assert (Hb' : nth_error (skipn pos (put_lines (lastn m (o ++ cs)))) (k - pos) = Some b).
        { rewrite <- (firstn_skipn (S n) (skipn pos _)). rewrite nth_error_app1; [exact Hb|]. apply nth_error_Some. rewrite Hb. discriminate. }
        rewrite nth_error_skipn in Hb'. rewrite <- Hb'. f_equal. lia.
Qed.
Lemma from_run f0 l' : forall l s s', all_from f0 l s -> s_run l' s = Some s' -> all_from f0 (l ++ l') s'.
Proof.
  induction l' as [|a l' IH]; intros l s s' H Hr; [injection Hr as <-; rewrite app_nil_r; exact H|]. cbn [s_run] in Hr. destruct (s_step a s) as [s1|] eqn:E; [|discriminate].
  replace (l ++ a :: l') with ((l ++ [a]) ++ l') by (rewrite <- app_assoc; reflexivity). eapply IH; [|exact Hr]. eapply from_step; eassumption.
Qed.
Theorem bytes_from f0 l s f k b : s_run l (sh_init f0) = Some s -> sh_file s = Some f -> nth_error f k = Some b ->
  b = "000"%char \/ (exists f1, f0 = Some f1 /\ nth_error f1 k = Some b) \/ its_byte l k b.
Proof.
  intros Hr Hf Hb. destruct (from_run f0 l [] (sh_init f0) s) as (_ & H); [|exact Hr|exact (H f k b Hf Hb)].
  split; [intros i; exact Logic.I|]. intros f1 k1 b1 H1 H2. right. left. cbn in H1. eauto.
Qed.
