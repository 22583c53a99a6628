(** * Proofs about the history storages *)

From Verif Require Import Base StorageModel StorageSpec.

Lemma append_trim_lastn max old cmds : append_trim max old cmds = lastn max (old ++ cmds).
Proof.
  unfold append_trim, lastn. destruct (Nat.ltb_spec max (length (old ++ cmds))) as [L|L]; [reflexivity|].
  replace (length (old ++ cmds) - max) with 0 by lia. reflexivity.
Qed.

Lemma volatile_ideal os : forall st, v_commands (fold_left v_step os st) = ideal st os.
Proof.
  unfold ideal. induction os as [|o os IH]; intro st; cbn [fold_left]; [reflexivity|].
  rewrite IH. f_equal. destruct o; cbn; [apply append_trim_lastn|reflexivity].
Qed.

Lemma ideal_since max os : Forall (limit_is max) os -> forall l acc, l = lastn max acc ->
  ideal l os = lastn max (since_clear acc os).
Proof.
  unfold ideal. induction 1 as [|o os Ho _ IH]; intros l acc El; cbn [fold_left since_clear]; [exact El|].
  destruct o as [m cmds|]; cbn [ideal_step limit_is] in *.
  - subst m. apply IH. rewrite El. apply lastn_app_lastn.
  - apply IH. reflexivity.
Qed.

Lemma volatile_recent max os : Forall (limit_is max) os ->
  v_commands (fold_left v_step os []) = lastn max (since_clear [] os).
Proof. intro H. rewrite volatile_ideal. apply ideal_since; [exact H|]. reflexivity. Qed.

(** ** Files *)
Lemma getlines_line x : one_line x -> forall acc s,
  getlines acc (x ++ ["010"%char] ++ s) = (acc ++ x) :: getlines [] s.
Proof.
  intro H. induction x as [|c x IH]; intros acc s.
  - cbn. rewrite app_nil_r. reflexivity.
  - cbn [app getlines]. destruct (Ascii.eqb_spec c "010") as [->|Hc].
    + exfalso. apply H. left. reflexivity.
    + change (x ++ "010"%char :: s) with (x ++ ["010"%char] ++ s). rewrite IH.
      * rewrite <- app_assoc. reflexivity.
      * intro Q. apply H. right. exact Q.
Qed.

Lemma getlines_put l : Forall one_line l -> getlines [] (put_lines l) = l.
Proof.
  induction 1 as [|x l Hx _ IH]; [reflexivity|]. cbn [put_lines].
  rewrite getlines_line by exact Hx. rewrite IH. reflexivity.
Qed.

Lemma getlines_one_line s : forall acc, one_line acc -> Forall one_line (getlines acc s).
Proof.
  induction s as [|c s IH]; intros acc H; cbn [getlines].
  - destruct acc; constructor; [exact H|constructor].
  - destruct (Ascii.eqb_spec c "010") as [->|Hc].
    + constructor; [exact H|]. apply IH. intros [].
    + apply IH. intro Q. apply in_app_or in Q as [Q|[Q|[]]]; [exact (H Q)|congruence].
Qed.
Lemma f_commands_one_line f : Forall one_line (f_commands f).
Proof. destruct f; cbn; [apply getlines_one_line; intros []|constructor]. Qed.

Lemma Forall_lastn {A} (P : A -> Prop) n l : Forall P l -> Forall P (lastn n l).
Proof.
  intro H. unfold lastn. rewrite <- (firstn_skipn (length l - n) l) in H. apply Forall_app in H. apply H.
Qed.

Lemma f_step_ideal f o : op_one_line o -> f_commands (f_step f o) = ideal_step (f_commands f) o.
Proof.
  intro H. destruct o as [max cmds|]; cbn [f_step ideal_step]; [|reflexivity].
  unfold f_store. rewrite append_trim_lastn. cbn [f_commands]. apply getlines_put.
  apply Forall_lastn, Forall_app. split; [apply f_commands_one_line|exact H].
Qed.

Lemma file_ideal os : Forall op_one_line os -> forall f,
  f_commands (fold_left f_step os f) = ideal (f_commands f) os.
Proof.
  unfold ideal. induction 1 as [|o os Ho _ IH]; intro f; cbn [fold_left]; [reflexivity|].
  rewrite IH, f_step_ideal by exact Ho. reflexivity.
Qed.

Lemma file_recent max os : Forall op_one_line os -> Forall (limit_is max) os ->
  f_commands (fold_left f_step os None) = lastn max (since_clear [] os).
Proof. intros H L. rewrite file_ideal by exact H. apply ideal_since; [exact L|]. reflexivity. Qed.

(** ** Crashes *)
Lemma getlines_nonl x : one_line x -> forall acc, getlines acc x = match acc ++ x with [] => [] | y => [y] end.
Proof.
  intro H. induction x as [|c x IH]; intro acc; cbn [getlines].
  - rewrite app_nil_r. destruct acc; reflexivity.
  - destruct (Ascii.eqb_spec c "010") as [->|Hc]; [exfalso; apply H; left; reflexivity|].
    rewrite IH by (intro Q; apply H; right; exact Q). rewrite <- app_assoc. reflexivity.
Qed.

Lemma crash_prefix l : Forall one_line l -> forall k, cut l (getlines [] (firstn k (put_lines l))).
Proof.
  induction 1 as [|x l Hx Hl IH]; intro k.
  - exists 0. left. cbn [put_lines]. rewrite firstn_nil. reflexivity.
  - cbn [put_lines]. destruct (Nat.le_gt_cases k (length x)) as [L|L].
    + rewrite firstn_app. replace (k - length x) with 0 by lia. cbn [firstn]. rewrite app_nil_r.
      exists 0. rewrite getlines_nonl.
      2: { intro Q. apply Hx. rewrite <- (firstn_skipn k x). apply in_or_app. left. exact Q. }
      cbn [app]. destruct (firstn k x) as [|c p] eqn:E; [left; reflexivity|].
      right. exists x, (c :: p). split; [reflexivity|]. split; [discriminate|]. split; [|reflexivity].
      exists (skipn k x). rewrite <- E. symmetry. apply firstn_skipn.
    + replace k with (length x + S (k - length x - 1)) by lia.
      rewrite firstn_app_2. cbn [app firstn].
      change (x ++ "010"%char :: firstn (k - length x - 1) (put_lines l)) with
        (x ++ ["010"%char] ++ firstn (k - length x - 1) (put_lines l)).
      rewrite getlines_line by exact Hx. cbn [app].
      destruct (IH (k - length x - 1)) as (n & [E|(y & p & N & P & R & E)]); rewrite E.
      * exists (S n). left. reflexivity.
      * exists (S n). right. exists y, p. split; [exact N|]. split; [exact P|]. split; [exact R|]. reflexivity.
Qed.

Lemma crash_cut k max f cmds : Forall one_line cmds ->
  cut (lastn max (f_commands f ++ cmds)) (f_commands (f_store_crash k max f cmds)).
Proof.
  intro H. unfold f_store_crash. rewrite append_trim_lastn. cbn [f_commands]. apply crash_prefix.
  apply Forall_lastn, Forall_app. split; [apply f_commands_one_line|exact H].
Qed.
Lemma crash_complete max f cmds : Forall one_line cmds ->
  f_commands (f_store_crash (length (put_lines (append_trim max (f_commands f) cmds))) max f cmds) =
  lastn max (f_commands f ++ cmds).
Proof.
  intro H. unfold f_store_crash. rewrite firstn_all. rewrite append_trim_lastn. cbn [f_commands].
  apply getlines_put, Forall_lastn, Forall_app. split; [apply f_commands_one_line|exact H].
Qed.
