From Verif Require Import Base StorageModel StorageSpec StorageProofs HistoryModel MenuModel SessionModel FaultModel FaultSpec.
Open Scope nat_scope.
Open Scope list_scope.

Lemma sv_refl l : salvaged 0 l l.
Proof. induction l; [apply sv_nil|apply sv_kept; assumption]. Qed.
Lemma sv_none l : salvaged 0 l [].
Proof. induction l; constructor; assumption. Qed.

Lemma sv_trans n a b : salvaged n a b -> forall m c, salvaged m b c -> exists k, k <= n + m /\ salvaged k a c.
Proof.
  induction 1 as [|n x l l' H IH|n x l l' H IH|n p r l l' Hp H IH]; intros m c Hc.
  - exists m. split; [lia|exact Hc].
  - destruct (IH _ _ Hc) as (k & L & S). exists k. split; [exact L|]. apply sv_lost. exact S.
  - inversion Hc as [|m' y l1 l1' S1|m' y l1 l1' S1|m' p r l1 l1' Hp S1]; subst.
    + destruct (IH _ _ S1) as (k & L & S). exists k. split; [exact L|]. apply sv_lost. exact S.
    + destruct (IH _ _ S1) as (k & L & S). exists k. split; [exact L|]. apply sv_kept. exact S.
    + destruct (IH _ _ S1) as (k & L & S). exists (Datatypes.S k). split; [lia|]. apply sv_short; assumption.
  - inversion Hc as [|m' y l1 l1' S1|m' y l1 l1' S1|m' q s l1 l1' Hq S1]; subst.
    + destruct (IH _ _ S1) as (k & L & S). exists k. split; [lia|]. apply sv_lost. exact S.
    + destruct (IH _ _ S1) as (k & L & S). exists (Datatypes.S k). split; [lia|]. apply sv_short; assumption.
    + destruct (IH _ _ S1) as (k & L & S). exists (Datatypes.S k). split; [lia|]. rewrite <- app_assoc. apply sv_short; assumption.
Qed.
Lemma sv_app n a a' : salvaged n a a' -> forall m b b', salvaged m b b' -> salvaged (n + m) (a ++ b) (a' ++ b').
Proof. induction 1; intros m b b' Hb; cbn [app Nat.add]; [exact Hb|apply sv_lost; auto|apply sv_kept; auto|apply sv_short; auto]. Qed.
Lemma sv_lastn k l : salvaged 0 l (lastn k l).
Proof.
  unfold lastn. generalize (length l - k). intro d. rewrite <- (firstn_skipn d l) at 1.
  change 0 with (0 + 0). change (skipn d l) with ([] ++ skipn d l) at 2. apply sv_app; [apply sv_none|apply sv_refl].
Qed.
Lemma sv_firstn k l : salvaged 0 l (firstn k l).
Proof.
  rewrite <- (firstn_skipn k l) at 1. change 0 with (0 + 0).
  rewrite <- (app_nil_r (firstn k l)) at 2. apply sv_app; [apply sv_refl|apply sv_none].
Qed.
Lemma sv_cut l l' : cut l l' -> exists n, n <= 1 /\ salvaged n l l'.
Proof.
  intros (n & [->|(x & p & N & P & (r & ->) & ->)]).
  - exists 0. split; [lia|apply sv_firstn].
  - apply nth_error_split in N as (a & b & -> & <-). exists 1. split; [lia|].
    rewrite firstn_app, Nat.sub_diag, firstn_all, app_nil_r.
    change 1 with (0 + 1). apply sv_app; [apply sv_refl|]. apply sv_short; [exact P|apply sv_none].
Qed.

(** What is read before an error: the first lines of the file. *)
Lemma whole_firstn s : forall acc n, exists k, whole_lines acc (firstn n s) = firstn k (getlines acc s).
Proof.
  induction s as [|c s IH]; intros acc n.
  - rewrite firstn_nil. exists 0. reflexivity.
  - destruct n; cbn [firstn whole_lines getlines].
    + exists 0. reflexivity.
    + destruct (Ascii.eqb_spec c "010") as [->|Hc].
      * destruct (IH [] n) as (k & ->). exists (Datatypes.S k). reflexivity.
      * destruct (IH (acc ++ [c]) n) as (k & ->). exists k. reflexivity.
Qed.
Lemma x_commands_firstn r f : exists k, x_commands r f = firstn k (f_commands f).
Proof.
  destruct r as [| |n]; cbn [x_commands].
  - exists (length (f_commands f)). symmetry. apply firstn_all.
  - exists 0. reflexivity.
  - destruct f as [s|]; [apply whole_firstn|exists 0; reflexivity].
Qed.
Lemma Forall_firstn {A} (P : A -> Prop) n l : Forall P l -> Forall P (firstn n l).
Proof. intro H. rewrite <- (firstn_skipn n l) in H. apply Forall_app in H. apply H. Qed.
Lemma x_commands_one_line r f : Forall one_line (x_commands r f).
Proof. destruct (x_commands_firstn r f) as (k & ->). apply Forall_firstn, f_commands_one_line. Qed.
Lemma x_commands_salvaged r f : salvaged 0 (f_commands f) (x_commands r f).
Proof. destruct (x_commands_firstn r f) as (k & ->). apply sv_firstn. Qed.

Lemma store_salvaged r w max f cmds : Forall one_line cmds ->
  exists n, n <= incomplete (XStore r w max cmds) /\ salvaged n (f_commands f ++ cmds) (f_commands (x_store r w max f cmds)).
Proof.
  intro H.
  assert (S1 : salvaged 0 (f_commands f ++ cmds) (lastn max (x_commands r f ++ cmds))).
  { destruct (sv_trans 0 (f_commands f ++ cmds) (x_commands r f ++ cmds)) with (m := 0) (c := lastn max (x_commands r f ++ cmds)) as (k & L & S).
    - change 0 with (0 + 0). apply sv_app; [apply x_commands_salvaged|apply sv_refl].
    - apply sv_lastn.
    - replace k with 0 in S by lia. exact S. }
  assert (L1 : Forall one_line (lastn max (x_commands r f ++ cmds))).
  { apply Forall_lastn, Forall_app. split; [apply x_commands_one_line|exact H]. }
  unfold x_store. rewrite append_trim_lastn. destruct w as [| |k]; cbn [incomplete f_commands].
  - exists 0. split; [lia|]. rewrite getlines_put by exact L1. exact S1.
  - exists 0. split; [lia|]. rewrite <- (app_nil_r (f_commands f)) at 2. change 0 with (0 + 0). apply sv_app; [apply sv_refl|apply sv_none].
  - destruct (sv_cut _ _ (crash_prefix _ L1 k)) as (n & L & S).
    destruct (sv_trans _ _ _ S1 _ _ S) as (m & Lm & Sm). exists m. split; [lia|exact Sm].
Qed.

Lemma run_salvaged os : Forall xop_one_line os -> forall n acc f, salvaged n acc (f_commands f) ->
  exists k, k <= n + write_errors os /\ salvaged k (entered acc os) (f_commands (x_run os f)).
Proof.
  induction 1 as [|o os Ho Hos IH]; intros n acc f H.
  - exists n. cbn. split; [lia|exact H].
  - change (x_run (o :: os) f) with (x_run os (x_step f o)). destruct o as [r w max cmds|w]; cbn [entered write_errors x_step].
    + destruct (store_salvaged r w max f cmds Ho) as (m & Lm & Sm).
      destruct (sv_trans (n + 0) (acc ++ cmds) (f_commands f ++ cmds) (sv_app _ _ _ H _ _ _ (sv_refl cmds)) _ _ Sm) as (j & Lj & Sj).
      destruct (IH _ _ _ Sj) as (k & Lk & Sk). exists k. split; [lia|exact Sk].
    + cbn [incomplete]. destruct w; cbn [x_clear].
      * destruct (IH 0 [] (Some [])) as (k & Lk & Sk); [apply sv_nil|]. exists k. split; [lia|exact Sk].
      * apply IH. exact H.
      * destruct (IH 0 [] (Some [])) as (k' & Lk & Sk); [apply sv_nil|]. exists k'. split; [lia|exact Sk].
Qed.
Lemma loaded_salvaged os f r : Forall xop_one_line os ->
  exists k, k <= write_errors os /\ salvaged k (entered (f_commands f) os) (x_commands r (x_run os f)).
Proof.
  intro H. destruct (run_salvaged os H 0 _ f (sv_refl _)) as (k & L & S).
  destruct (sv_trans _ _ _ S _ _ (x_commands_salvaged r _)) as (m & Lm & Sm). exists m. split; [lia|exact Sm].
Qed.

Lemma fault_free_run os : Forall fault_free os -> forall f, x_run os f = fold_left f_step (map intended os) f.
Proof.
  induction 1 as [|o os Ho Hos IH]; intro f; [reflexivity|].
  change (x_run (o :: os) f) with (x_run os (x_step f o)). rewrite IH. cbn [map fold_left]. f_equal.
  destruct o as [r w max cmds|w]; [destruct Ho as [-> ->]|cbn in Ho; subst w]; reflexivity.
Qed.

Lemma unwritable_run os f : Forall unwritable os -> x_run os f = f.
Proof.
  induction 1 as [|o os Ho Hos IH]; [reflexivity|].
  change (x_run (o :: os) f) with (x_run os (x_step f o)).
  destruct o; cbn in Ho; subst w; exact IH.
Qed.
Lemma store_recent r max f cmds : Forall one_line cmds ->
  exists k, f_commands (x_store r WOk max f cmds) = lastn max (firstn k (f_commands f) ++ cmds).
Proof.
  intro H. destruct (x_commands_firstn r f) as (k & E). exists k. unfold x_store. rewrite append_trim_lastn, E.
  cbn [f_commands]. apply getlines_put, Forall_lastn, Forall_app.
  split; [apply Forall_firstn, f_commands_one_line|exact H].
Qed.

(** ** Sessions do not notice *)
Lemma hook_storage E k args w st : but_storage (run_hook E k args w) (run_hook E k args (set_store st w)).
Proof.
  unfold run_hook.
  assert (G : forall os v, apply_ops os (set_store st v) = set_store st (apply_ops os v)).
  { induction os as [|o os IH]; intro v; [reflexivity|]. cbn [apply_ops fold_left] in *.
    change (fold_left apply_op os (apply_op (set_store st v) o) = set_store st (fold_left apply_op os (apply_op v o))).
    replace (apply_op (set_store st v) o) with (set_store st (apply_op v o)); [apply IH|].
    destruct o; try reflexivity. cbn [apply_op]. change (w_next (set_store st v)) with (w_next v). destruct (relabel (w_next v) c). reflexivity. }
  change (log (EvHook (w_sid (set_store st w)) k args) (set_store st w)) with (set_store st (log (EvHook (w_sid w) k args) w)).
  change (w_trace (set_store st (log (EvHook (w_sid w) k args) w))) with (w_trace (log (EvHook (w_sid w) k args) w)).
  change (w_sid (set_store st (log (EvHook (w_sid w) k args) w))) with (w_sid (log (EvHook (w_sid w) k args) w)).
  destruct (e_hook E _ k args _) as [ops e]. cbn [ur_ops ur_end]. rewrite G.
  destruct e; cbn [but_storage]; [|split; [reflexivity|]]; exists st; reflexivity.
Qed.
Lemma exit_storage E w st : but_storage (session_exit E w) (session_exit E (set_store st w)).
Proof.
  unfold session_exit.
  assert (B : forall a b f, but_storage a b -> (forall v st', but_storage (f v) (f (set_store st' v))) -> but_storage (h_bind a f) (h_bind b f)).
  { intros [v|x v| |] [u|y u| |] f H Hf; cbn [but_storage h_bind] in *; try contradiction; try exact H.
    destruct H as [st' <-]. apply Hf. }
  apply B.
  - destruct (e_has E KSesExit); [apply hook_storage|]. split; [reflexivity|]. exists st. reflexivity.
  - intros v st1. apply B.
    + destruct (e_has E KCliExit); [apply hook_storage|]. exists st1. reflexivity.
    + intros u st2. change (w_hist (set_store st2 u)) with (w_hist u). destruct (get_commands (w_hist u)); [|exact Logic.I].
      cbn [but_storage]. eexists. reflexivity.
Qed.
