(** * Proofs about the history file when memory runs out *)

From Verif Require Import Base StorageModel StorageSpec StorageProofs FaultModel FaultSpec FaultProofs AllocFileModel AllocFileSpec.
Open Scope nat_scope.
Open Scope list_scope.

Lemma read_cases line copy ls : forall i acc,
  (exists k, stopped_at (fun n => line (i + n)) (fun n => copy (i + n)) (length ls) k /\ read_m line copy i ls acc = Some (acc ++ firstn k ls)) \/
  (exists k, threw_at (fun n => line (i + n)) (fun n => copy (i + n)) (length ls) k /\ read_m line copy i ls acc = None).
Proof.
  induction ls as [|l ls IH]; intros i acc; cbn [read_m length].
  - left. exists 0. split; [split; [lia|split; [lia|left; reflexivity]]|]. cbn. rewrite app_nil_r. reflexivity.
  - destruct (line i) eqn:L; cbn [negb].
    2:{ left. exists 0. split; [split; [lia|split; [lia|right; rewrite Nat.add_0_r; exact L]]|]. cbn. rewrite app_nil_r. reflexivity. }
    destruct (copy i) eqn:C; cbn [negb].
    2:{ right. exists 0. split; [|reflexivity]. split; [lia|]. split; [lia|]. rewrite Nat.add_0_r. split; assumption. }
    assert (Sh : forall (P : nat -> Prop) k, P i -> (forall j, j < k -> P (S i + j)) -> forall j, j < S k -> P (i + j)).
    { intros P k P0 Ps [|j] J; [rewrite Nat.add_0_r; exact P0|]. rewrite <- Nat.add_succ_comm. apply Ps. lia. }
    destruct (IH (S i) (acc ++ [l])) as [(k & (K1 & K2 & K3) & R)|(k & (K1 & K2 & K3 & K4) & R)].
    + left. exists (S k). split.
      * split; [lia|]. split; [apply (Sh (fun n => line n = true /\ copy n = true)); [split; assumption|exact K2]|].
        destruct K3 as [K3|K3]; [left; lia|right; rewrite <- Nat.add_succ_comm; exact K3].
      * rewrite R, <- app_assoc. reflexivity.
    + right. exists (S k). split; [|exact R].
      split; [lia|]. split; [apply (Sh (fun n => line n = true /\ copy n = true)); [split; assumption|exact K2]|].
      rewrite <- Nat.add_succ_comm. split; assumption.
Qed.

Lemma commands_cases line copy f :
  (exists k, stopped_at line copy (length (f_commands f)) k /\ commands_m line copy f = Some (firstn k (f_commands f))) \/
  (exists k, threw_at line copy (length (f_commands f)) k /\ commands_m line copy f = None).
Proof. exact (read_cases line copy (f_commands f) 0 []). Qed.

(** Every number of lines can be what a failing device gives. *)
Lemma whole_reach s : forall acc k, k < length (getlines acc s) -> exists n, whole_lines acc (firstn n s) = firstn k (getlines acc s).
Proof.
  induction s as [|c s IH]; intros acc k K; cbn [getlines] in *.
  - exists 0. destruct acc; cbn in K; [lia|]. assert (k = 0) as -> by lia. reflexivity.
  - destruct k as [|k]; [exists 0; reflexivity|].
    destruct (Ascii.eqb_spec c "010") as [->|Hc]; cbn [length] in K.
    + destruct (IH [] k) as (n & H); [lia|]. exists (S n). cbn [firstn whole_lines]. rewrite Ascii.eqb_refl, H. reflexivity.
    + destruct (IH (acc ++ [c]) (S k) K) as (n & H). exists (S n). cbn [firstn whole_lines].
      destruct (Ascii.eqb_spec c "010"); [contradiction|]. exact H.
Qed.
Lemma reach f k : k <= length (f_commands f) -> exists r, x_commands r f = firstn k (f_commands f).
Proof.
  intro K. destruct (Nat.eq_dec k (length (f_commands f))) as [->|N].
  - exists ROk. rewrite firstn_all. reflexivity.
  - destruct f as [s|]; [|cbn in K; exists ROk; assert (k = 0) as -> by lia; reflexivity].
    destruct (whole_reach s [] k) as (n & H); [cbn [f_commands] in *; lia|]. exists (RError n). exact H.
Qed.
Lemma as_fault line copy ins max f cmds :
  exists r w, snd (store_m line copy ins max f cmds) = x_store r w max f cmds /\
    ((fst (store_m line copy ins max f cmds) = true /\ w = WOk) \/ (fst (store_m line copy ins max f cmds) = false /\ w = WNoOpen)).
Proof.
  unfold store_m. destruct (commands_cases line copy f) as [(k & (K & _) & ->)|(k & _ & ->)].
  - destruct ins; cbn [negb fst snd].
    + destruct (reach f k K) as (r & R). exists r, WOk. unfold x_store. rewrite R. split; [reflexivity|left; split; reflexivity].
    + exists ROk, WNoOpen. split; [reflexivity|right; split; reflexivity].
  - exists ROk, WNoOpen. split; [reflexivity|right; split; reflexivity].
Qed.

Lemma store_threw line copy ins max f cmds f' : store_m line copy ins max f cmds = (false, f') ->
  f' = f /\ (ins = false \/ exists k, threw_at line copy (length (f_commands f)) k).
Proof.
  unfold store_m. destruct (commands_cases line copy f) as [(k & K & ->)|(k & K & ->)].
  - destruct ins; cbn [negb]; [discriminate|]. intro H. injection H as <-. split; [reflexivity|left; reflexivity].
  - intro H. injection H as <-. split; [reflexivity|right; exists k; exact K].
Qed.
Lemma store_done line copy ins max f cmds f' : Forall one_line cmds -> store_m line copy ins max f cmds = (true, f') ->
  exists k, stopped_at line copy (length (f_commands f)) k /\ f_commands f' = lastn max (firstn k (f_commands f) ++ cmds).
Proof.
  intros O. unfold store_m. destruct (commands_cases line copy f) as [(k & K & ->)|(k & K & ->)]; [|discriminate].
  destruct ins; cbn [negb]; [|discriminate]. intro H. injection H as <-. exists k. split; [exact K|].
  rewrite append_trim_lastn. cbn [f_commands]. apply getlines_put, Forall_lastn, Forall_app.
  split; [apply Forall_firstn, f_commands_one_line|exact O].
Qed.
Lemma store_enough line copy max f cmds : (forall i, i < length (f_commands f) -> line i = true /\ copy i = true) ->
  store_m line copy true max f cmds = (true, f_store max f cmds).
Proof.
  intro A. unfold store_m. destruct (commands_cases line copy f) as [(k & (K & _ & [->|K3]) & ->)|(k & (K & _ & _ & K4) & _)]; cbn [negb].
  - rewrite firstn_all. reflexivity.
  - destruct (Nat.eq_dec k (length (f_commands f))) as [->|N]; [rewrite firstn_all; reflexivity|].
    destruct (A k) as (X & _); [lia|congruence].
  - destruct (A k K) as (_ & X). congruence.
Qed.

(** Sessions one after another. *)
Lemma part_refl {A} (l : list A) : part l l.
Proof. induction l; constructor; assumption. Qed.
Lemma part_none {A} (l : list A) : part [] l.
Proof. induction l; constructor; assumption. Qed.
Lemma part_app {A} (a a' b b' : list A) : part a a' -> part b b' -> part (a ++ b) (a' ++ b').
Proof. intros H K. induction H; cbn; [exact K|constructor; exact IHpart|constructor; exact IHpart]. Qed.
Lemma part_trans {A} (b c : list A) : part b c -> forall a, part a b -> part a c.
Proof.
  induction 1 as [|x l l' _ IH|x l l' _ IH]; intros a P; [exact P|constructor; apply IH, P|].
  inversion P; subst; constructor; apply IH; assumption.
Qed.
Lemma part_firstn {A} k (l : list A) : part (firstn k l) l.
Proof. revert k. induction l as [|x l IH]; intros [|k]; cbn; try constructor; try apply part_none; apply IH. Qed.
Lemma part_skipn {A} k (l : list A) : part (skipn k l) l.
Proof. revert k. induction l as [|x l IH]; intros [|k]; cbn; try constructor; try apply part_refl; apply IH. Qed.
Lemma ends_part es : Forall (fun e => Forall one_line (en_cmds e)) es -> forall f bs f', ends es f = (bs, f') ->
  part (f_commands f') (f_commands f ++ stored bs es).
Proof.
  induction 1 as [|e es O _ IH]; intros f bs f' H; cbn [ends] in H.
  - injection H as <- <-. cbn. rewrite app_nil_r. apply part_refl.
  - destruct (store_m _ _ _ _ _ _) as [b f1] eqn:S. destruct (ends es f1) as [bs1 f2] eqn:R. injection H as <- <-.
    cbn [stored]. rewrite app_assoc. specialize (IH f1 bs1 f2 R). refine (part_trans _ _ _ _ IH). apply part_app; [|apply part_refl].
    destruct b.
    + destruct (store_done _ _ _ _ _ _ _ O S) as (k & _ & ->). refine (part_trans _ _ _ _ (part_skipn _ _)).
      apply part_app; [apply part_firstn|apply part_refl].
    + destruct (store_threw _ _ _ _ _ _ _ S) as (-> & _). rewrite app_nil_r. apply part_refl.
Qed.
