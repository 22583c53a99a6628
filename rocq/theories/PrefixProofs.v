(** * Proofs about the longest common prefix *)

From Verif Require Import Base PrefixModel PrefixSpec.

Lemma min_element_spec v : forall best,
  In (min_element best v) (best :: v) /\
  forall x, In x (best :: v) -> length (min_element best v) <= length x.
Proof.
  induction v as [|y v IH]; intro best; cbn [min_element].
  - split; [left; reflexivity|]. intros x [<-|[]]. lia.
  - destruct (IH (if Nat.ltb (length y) (length best) then y else best)) as [I1 I2].
    destruct (Nat.ltb_spec (length y) (length best)) as [L|L].
    + split.
      * destruct I1 as [E|I1]; [right; left; exact E|right; right; exact I1].
      * intros x [<-|[<-|Hx]].
        -- specialize (I2 y (or_introl eq_refl)). lia.
        -- apply I2. left. reflexivity.
        -- apply I2. right. exact Hx.
    + split.
      * destruct I1 as [E|I1]; [left; exact E|right; right; exact I1].
      * intros x [<-|[<-|Hx]].
        -- apply I2. left. reflexivity.
        -- specialize (I2 best (or_introl eq_refl)). lia.
        -- apply I2. right. exact Hx.
Qed.

Lemma all_equal_spec c i v : (forall x, In x v -> i < length x) ->
  exists b, all_equal c i v = Some b /\
    (b = true <-> forall x, In x v -> nth_error x i = Some c).
Proof.
  induction v as [|x v IH]; intro H; cbn [all_equal].
  - exists true. split; [reflexivity|]. split; [intros _ x []|reflexivity].
  - assert (Lx : i < length x) by (apply H; left; reflexivity).
    unfold char_at. destruct (Nat.eqb_spec i (length x)) as [E|_]; [lia|].
    destruct (nth_error x i) as [d|] eqn:N; [|apply nth_error_None in N; lia].
    destruct (Ascii.eqb_spec d c) as [->|D].
    + destruct IH as (b & E & Hb); [intros y Hy; apply H; right; exact Hy|].
      exists b. split; [exact E|]. rewrite Hb. split.
      * intros A y [<-|Hy]; [exact N|exact (A y Hy)].
      * intros A y Hy. apply A. right. exact Hy.
    + exists false. split; [reflexivity|]. split; [discriminate|].
      intro A. specialize (A x (or_introl eq_refl)). congruence.
Qed.

Lemma prefix_extend p c x : is_prefix p x -> nth_error x (length p) = Some c -> is_prefix (p ++ [c]) x.
Proof.
  intros (r & ->) N. rewrite nth_error_app2 in N by lia. rewrite Nat.sub_diag in N.
  destruct r as [|d r]; [discriminate|]. cbn in N. injection N as ->. exists r. rewrite <- app_assoc. reflexivity.
Qed.
Lemma prefix_nth p x i : is_prefix p x -> i < length p -> nth_error x i = nth_error p i.
Proof. intros (r & ->) L. apply nth_error_app1. exact L. Qed.
Lemma prefix_length p x : is_prefix p x -> length p <= length x.
Proof. intros (r & ->). rewrite app_length. lia. Qed.
Lemma prefix_both p q x : is_prefix p x -> is_prefix q x -> length p <= length q -> is_prefix p q.
Proof.
  intros (r & ->) (r' & E) L. exists (skipn (length p) q).
  assert (F : firstn (length p) (p ++ r) = firstn (length p) (q ++ r')) by (rewrite E; reflexivity).
  rewrite firstn_app, Nat.sub_diag, firstn_all in F. cbn [firstn] in F. rewrite app_nil_r in F.
  rewrite firstn_app in F. replace (length p - length q) with 0 in F by lia. cbn [firstn] in F.
  rewrite app_nil_r in F. rewrite F at 1. symmetry. apply firstn_skipn.
Qed.

Lemma prefix_loop_spec v smin : In smin v -> (forall x, In x v -> length smin <= length x) ->
  forall rest prefix, smin = prefix ++ rest -> prefix_of_all prefix v ->
  exists p, prefix_loop v (length prefix) rest prefix = Some p /\ longest_common_prefix v p.
Proof.
  intros Hin Hmin. induction rest as [|c rest IH]; intros prefix E P; cbn [prefix_loop].
  - exists prefix. split; [reflexivity|]. split; [exact P|]. intros q Q.
    rewrite app_nil_r in E. subst prefix. exact (Q smin Hin).
  - assert (HL : forall x, In x v -> length prefix < length x).
    { intros x Hx. specialize (Hmin x Hx). rewrite E, app_length in Hmin. cbn in Hmin. lia. }
    destruct (all_equal_spec c (length prefix) v HL) as (b & Eb & Hb). rewrite Eb.
    destruct b.
    + replace (S (length prefix)) with (length (prefix ++ [c])) by (rewrite app_length; cbn; lia).
      apply IH; [rewrite <- app_assoc; exact E|].
      intros x Hx. apply prefix_extend; [exact (P x Hx)|]. apply Hb; [reflexivity|exact Hx].
    + exists prefix. split; [reflexivity|]. split; [exact P|]. intros q Q.
      destruct (Nat.le_gt_cases (length q) (length prefix)) as [L|L].
      * apply (prefix_both q prefix smin (Q smin Hin) (P smin Hin) L).
      * exfalso. enough (false = true) by discriminate. apply Hb. intros x Hx.
        rewrite (prefix_nth q x) by (try exact L; exact (Q x Hx)).
        rewrite <- (prefix_nth q smin) by (try exact L; exact (Q smin Hin)).
        rewrite E, nth_error_app2 by lia. rewrite Nat.sub_diag. reflexivity.
Qed.

Lemma common_prefix_spec v : v <> [] ->
  exists p, common_prefix v = Some p /\ longest_common_prefix v p.
Proof.
  destruct v as [|x v]; [congruence|]. intros _. unfold common_prefix.
  destruct (min_element_spec v x) as [I1 I2].
  apply (prefix_loop_spec (x :: v) (min_element x v) I1 I2 (min_element x v) []); [reflexivity|].
  intros y _. exists y. reflexivity.
Qed.
