(** * Changes of the menu tree, in terms of its listing *)

From Verif Require Import Base FromStringModel StorageModel MenuModel SessionModel ResolveSpec SessionSpec TreeProofs SessionProofs InvariantProofs FeatureProofs.
Open Scope nat_scope.
Open Scope list_scope.

(** ** The listing determines the tree *)
Definition shallow (ab : list nat) (r : list (list nat * label)) : Prop :=
  match r with [] => True | x :: _ => length (fst x) <= length ab end.

Lemma flat_cons ab c : exists l r, flat ab c = (ab, l) :: r /\ Forall (fun x => length (fst x) > length ab) r.
Proof.
  revert ab. induction c as [i n e d p pd h|i n e d pd h|i n e d p ks IH] using cmd_ind2; intros ab; cbn [flat].
  1,2: do 2 eexists; split; [reflexivity|constructor].
  do 2 eexists; split; [reflexivity|]. apply Forall_forall. intros x Hx. apply in_flat_map in Hx as (k & Hk & Hx).
  rewrite Forall_forall in IH. destruct (IH k Hk (i :: ab)) as (l & r & Hf & Hr). rewrite Hf in Hx.
  destruct Hx as [<-|Hx]; [cbn; lia|]. rewrite Forall_forall in Hr. specialize (Hr x Hx). cbn in Hr. lia.
Qed.

Lemma flat_parse c : forall c' ab r r', shallow ab r -> shallow ab r' -> flat ab c ++ r = flat ab c' ++ r' -> c = c' /\ r = r'.
Proof.
  induction c as [i n e d p pd h|i n e d pd h|i n e d p ks IH] using cmd_ind2; intros c' ab r r' Hr Hr' H;
    destruct c' as [i' n' e' d' p' pd' h'|i' n' e' d' pd' h'|i' n' e' d' p' ks']; cbn [flat app] in H; try discriminate.
  - injection H as -> -> -> -> -> -> -> ->. auto.
  - injection H as -> -> -> -> -> -> ->. auto.
  - injection H as <- <- <- <- <- H.
    enough (Hk : ks = ks' /\ r = r') by (destruct Hk as (-> & ->); auto).
    assert (Hr1 : shallow (i :: ab) r /\ shallow (i :: ab) r') by (destruct r, r'; cbn in *; lia).
    destruct Hr1 as (Hr1 & Hr2).
    assert (Hd : forall q k l, shallow ab q -> q = flat (i :: ab) k ++ l -> False).
    { intros q k l Hq ->. destruct (flat_cons (i :: ab) k) as (lb & r0 & Hf & _). rewrite Hf in Hq. cbn in Hq. lia. }
    revert ks' H. induction IH as [|k ks Hk Hks IHks]; intros [|k' ks'] H; cbn [flat_map app] in H.
    + auto.
    + rewrite <- app_assoc in H. exfalso. eapply Hd; [exact Hr|exact H].
    + rewrite <- app_assoc in H. exfalso. eapply Hd; [exact Hr'|symmetry; exact H].
    + rewrite <- !app_assoc in H.
      assert (Hs : forall l q, shallow (i :: ab) q -> shallow (i :: ab) (flat_map (flat (i :: ab)) l ++ q)).
      { intros [|y l] q Hq; cbn; [exact Hq|]. destruct (flat_cons (i :: ab) y) as (lb & r0 & -> & _). cbn. lia. }
      apply Hk in H as (-> & H); [|apply Hs; assumption|apply Hs; assumption].
      apply IHks in H as (-> & ->). auto.
Qed.
Lemma flat_inj c c' : flat [] c = flat [] c' -> c = c'.
Proof. intros H. apply (flat_parse c c' [] [] []); cbn; auto. rewrite !app_nil_r. exact H. Qed.

(** ** Inserting *)
Lemma below_flat pid c : forall above, In pid above -> Forall (fun x => below pid x = true) (flat above c).
Proof.
  assert (Hb : forall ab l, In pid ab -> below pid (ab, l) = true).
  { intros ab l H. apply existsb_exists. exists pid. split; [exact H|apply Nat.eqb_refl]. }
  induction c as [i n e d p pd h|i n e d pd h|i n e d p ks IH] using cmd_ind2; intros above Hin; cbn [flat].
  1,2: constructor; [apply Hb; exact Hin|constructor].
  constructor; [apply Hb; exact Hin|]. apply Forall_forall. intros x Hx. apply in_flat_map in Hx as (k & Hk & Hx).
  rewrite Forall_forall in IH. specialize (IH k Hk (i :: above) (or_intror Hin)). rewrite Forall_forall in IH. auto.
Qed.
Lemma take_while_all {A} f (l m : list A) : Forall (fun x => f x = true) l -> take_while f (l ++ m) = l ++ take_while f m.
Proof. induction 1 as [|x l Hx Hl IH]; cbn; [reflexivity|]. rewrite Hx, IH. reflexivity. Qed.
Lemma drop_while_all {A} f (l m : list A) : Forall (fun x => f x = true) l -> drop_while f (l ++ m) = drop_while f m.
Proof. induction 1 as [|x l Hx Hl IH]; cbn; [reflexivity|]. rewrite Hx, IH. reflexivity. Qed.
Lemma take_while_none {A} f (l : list A) : Forall (fun x => f x = false) l -> take_while f l = [] /\ drop_while f l = l.
Proof. destruct 1 as [|x l Hx Hl]; cbn; [auto|]. rewrite Hx. auto. Qed.

Lemma below_absent pid c : forall above, ~ In pid (ids c) -> ~ In pid above -> Forall (fun x => below pid x = false /\ is_menu_entry pid x = false) (flat above c).
Proof.
  assert (Hb : forall ab l, ~ In pid ab -> below pid (ab, l) = false).
  { intros ab l H. apply not_true_is_false. intros Hx. apply existsb_exists in Hx as (y & Hy & He). apply Nat.eqb_eq in He. subst. tauto. }
  induction c as [i n e d p pd h|i n e d pd h|i n e d p ks IH] using cmd_ind2; intros above Hi Ha; cbn [flat].
  1,2: constructor; [split; [apply Hb; exact Ha|reflexivity]|constructor].
  rewrite ids_menu in Hi. constructor.
  - split; [apply Hb; exact Ha|]. cbn. apply Nat.eqb_neq. intros ->. apply Hi. left. reflexivity.
  - apply Forall_forall. intros x Hx. apply in_flat_map in Hx as (k & Hk & Hx). rewrite Forall_forall in IH.
    specialize (IH k Hk (i :: above)). rewrite Forall_forall in IH. apply IH; [| |exact Hx].
    + intros H. apply Hi. right. apply in_kids_ids. eauto.
    + intros [->|H]; [apply Hi; left; reflexivity|tauto].
Qed.

Lemma add_to_skip pid sub l m : Forall (fun x => is_menu_entry pid x = false) l -> add_to pid sub (l ++ m) = l ++ add_to pid sub m.
Proof. induction 1 as [|x l Hx Hl IH]; cbn; [reflexivity|]. rewrite Hx, IH. reflexivity. Qed.

Lemma insert_listing pid x c : forall above m, NoDup (ids c) -> ~ In pid above -> In pid (menu_ids c) -> Forall (fun y => below pid y = false) m ->
  add_to pid (fun up => flat up x) (flat above c ++ m) = flat above (insert_cmd pid x c) ++ m.
Proof.
  induction c as [i n e d p pd h|i n e d pd h|i n e d p ks IH] using cmd_ind2; intros above m Hnd Ha Hin Hm; try destruct Hin.
  - subst i. rewrite insert_menu, Nat.eqb_refl. rewrite ids_menu in Hnd. apply NoDup_cons_iff in Hnd as (Hi & Hnd).
    rewrite insert_map_absent by exact Hi. cbn [flat app]. cbn [add_to]. unfold is_menu_entry. cbn [snd]. rewrite Nat.eqb_refl. cbn [fst].
    assert (Hb : Forall (fun x => below pid x = true) (flat_map (flat (pid :: above)) ks)).
    { apply Forall_forall. intros y Hy. apply in_flat_map in Hy as (k & Hk & Hy).
      pose proof (below_flat pid k (pid :: above) (or_introl eq_refl)) as H. rewrite Forall_forall in H. auto. }
    rewrite take_while_all, drop_while_all by exact Hb. destruct (take_while_none _ _ Hm) as (-> & ->).
    rewrite flat_map_app. cbn. rewrite !app_nil_r, <- app_assoc. reflexivity.
  - rewrite insert_menu. rewrite ids_menu in Hnd. apply NoDup_cons_iff in Hnd as (Hi & Hnd).
    assert (Hpk : In pid (kids_ids ks)).
    { apply in_flat_map in H as (k & Hk & H). apply in_kids_ids. exists k. split; [exact Hk|apply menu_ids_ids; exact H]. }
    destruct (Nat.eqb_spec i pid) as [->|Hn]; [tauto|]. clear Hpk Hi.
    cbn [flat app add_to]. unfold is_menu_entry at 1. cbn [snd]. apply Nat.eqb_neq in Hn as Hn'. rewrite Hn'. f_equal.
    assert (Ha' : ~ In pid (i :: above)) by (intros [|]; tauto).
    revert H Hnd. induction IH as [|k ks Hk Hks IHk]; intros H Hnd; [destruct H|]. cbn in H, Hnd |- *.
    apply NoDup_app_iff in Hnd as (N1 & N2 & N3). rewrite <- !app_assoc. apply in_app_or in H as [H|H].
    + assert (Hno : ~ In pid (kids_ids ks)) by (apply N3, menu_ids_ids; exact H).
      rewrite insert_map_absent by exact Hno. apply Hk; [exact N1|exact Ha'|exact H|]. apply Forall_app. split; [|exact Hm].
      apply Forall_forall. intros y Hy. apply in_flat_map in Hy as (k' & Hk' & Hy).
      pose proof (below_absent pid k' (i :: above)) as Hb. rewrite Forall_forall in Hb.
      apply Hb in Hy; [apply Hy| |exact Ha']. intros Hx. apply Hno. apply in_kids_ids. eauto.
    + assert (Hno : ~ In pid (ids k)).
      { intros Hx. apply (N3 _ Hx). apply in_flat_map in H as (y & Hy & H).
        apply in_kids_ids. exists y. split; [exact Hy|apply menu_ids_ids; exact H]. }
      rewrite insert_absent by (intros Hx; apply Hno, menu_ids_ids; exact Hx).
      rewrite add_to_skip; [rewrite (IHk H N2); reflexivity|].
      eapply Forall_impl; [|apply (below_absent pid k (i :: above) Hno Ha')]. cbn. tauto.
Qed.
Lemma add_to_absent pid sub l : Forall (fun x => is_menu_entry pid x = false) l -> add_to pid sub l = l.
Proof. intros H. pose proof (add_to_skip pid sub l [] H) as Hx. rewrite !app_nil_r in Hx. exact Hx. Qed.
Lemma not_menu_entries pid c : forall above, ~ In pid (menu_ids c) -> Forall (fun x => is_menu_entry pid x = false) (flat above c).
Proof.
  induction c as [i n e d p pd h|i n e d pd h|i n e d p ks IH] using cmd_ind2; intros above H; cbn [flat].
  1,2: repeat constructor.
  cbn [menu_ids] in H. constructor.
  - cbn. apply Nat.eqb_neq. intros ->. apply H. left. reflexivity.
  - apply Forall_forall. intros x Hx. apply in_flat_map in Hx as (k & Hk & Hx). rewrite Forall_forall in IH.
    specialize (IH k Hk (i :: above)). rewrite Forall_forall in IH. apply IH; [|exact Hx].
    intros Hy. apply H. right. apply in_flat_map. eauto.
Qed.

(** ** All operations *)
Lemma root_removal c : remove_cmd (cmd_id c) c = c \/ In (cmd_id c) (match c with CMenu _ _ _ _ _ ks => kids_ids ks | _ => [] end).
Proof.
  destruct c as [i n e d p pd h|i n e d pd h|i n e d p ks]; [left; reflexivity|left; reflexivity|]. cbn [cmd_id].
  destruct (in_dec Nat.eq_dec i (kids_ids ks)) as [H|H]; [right; exact H|left]. rewrite remove_menu. f_equal.
  induction ks as [|k ks IH]; [reflexivity|]. cbn in H |- *. rewrite in_app_iff in H.
  destruct (Nat.eqb_spec (cmd_id k) i) as [Hk|Hk]; [exfalso; apply H; left; rewrite <- Hk; apply ids_hd|].
  rewrite remove_absent by tauto. rewrite IH by tauto. reflexivity.
Qed.

Lemma flat_id ab c : exists l r, flat ab c = (ab, l) :: r /\ label_id l = cmd_id c.
Proof. destruct c; cbn; eauto. Qed.

Lemma listing_step w o : unique_ids (w_root w) ->
  (flat [] (w_root (apply_op w o)), w_next (apply_op w o)) = listing_op (flat [] (w_root w), w_next w) o.
Proof.
  intros Hu. destruct o as [s|s|id|id|id|pid c]; cbn [listing_op apply_op]; try reflexivity.
  1,2: cbn; rewrite set_enabled_flat; reflexivity.
  - cbn. f_equal. destruct (flat_id [] (w_root w)) as (l & r & Hf & Hl). rewrite Hf. cbn [snd]. rewrite Hl.
    destruct (Nat.eqb_spec (cmd_id (w_root w)) id) as [<-|Hn].
    + rewrite <- Hf. f_equal. destruct (root_removal (w_root w)) as [H|H]; [exact H|].
      exfalso. unfold unique_ids in Hu. destruct (w_root w); cbn in H; try tauto. rewrite ids_menu in Hu. apply NoDup_cons_iff in Hu. tauto.
    + rewrite <- Hf. apply remove_flat; [exact Hu|exact Hn|intros []].
  - destruct (relabel (w_next w) c) as (c', n'). cbn. f_equal.
    destruct (in_dec Nat.eq_dec pid (menu_ids (w_root w))) as [Hi|Hi].
    + pose proof (insert_listing pid c' (w_root w) [] [] Hu (fun x => x) Hi (Forall_nil _)) as H. rewrite !app_nil_r in H. symmetry. exact H.
    + rewrite insert_absent by exact Hi. rewrite add_to_absent; [reflexivity|]. apply not_menu_entries. exact Hi.
Qed.
Lemma listing_steps os : forall w, sound w ->
  (flat [] (w_root (apply_ops os w)), w_next (apply_ops os w)) = fold_left listing_op os (flat [] (w_root w), w_next w) /\
  sound (apply_ops os w).
Proof.
  induction os as [|o os IH]; intros w Hs; [split; [reflexivity|exact Hs]|].
  change (apply_ops (o :: os) w) with (apply_ops os (apply_op w o)). cbn [fold_left].
  rewrite <- listing_step by apply Hs. apply IH. apply sound_op. exact Hs.
Qed.

Lemma relabel_renumbered c : forall n, renumbered c (fst (relabel n c)).
Proof.
  induction c as [i nm e d p pd h|i nm e d pd h|i nm e d p ks IH] using cmd_ind2; intros n; try constructor.
  rewrite relabel_menu.
  assert (Hl : forall m, Forall2 renumbered ks (fst (relabel_list m ks))).
  { induction IH as [|k l Hk Hl IHl]; intros m; [constructor|]. cbn. specialize (Hk m). destruct (relabel m k) as (k', m1).
    specialize (IHl m1). destruct (relabel_list m1 l). constructor; assumption. }
  specialize (Hl (S n)). destruct (relabel_list (S n) ks). constructor. exact Hl.
Qed.

(** Inserted commands get fresh ids. *)
Lemma relabel_fresh c n : let (c', n') := relabel n c in n < n' /\ forall i, In i (ids c') <-> n <= i < n'.
Proof.
  pose proof (relabel_ids c n) as H. destruct (relabel n c) as (c', n'). destruct H as (H & ->). split; [exact H|].
  intros i. rewrite in_seq. lia.
Qed.

(** A session that has exited has run its exit action. *)
Lemma exited_by_action E fuel lines sid size root nxt st tr :
  f_inv (fun w => w_exit w = true -> In (EvHook sid KSesExit []) (w_trace w)) (feeds E fuel lines (open_session sid size root nxt st tr)).
Proof.
  assert (H : f_inv (fun w => w_sid w = sid /\ (w_exit w = true -> In (EvHook sid KSesExit []) (w_trace w)))
    (feeds E fuel lines (open_session sid size root nxt st tr))).
  { apply (feeds_inv E (fun w => w_sid w = sid /\ (w_exit w = true -> In (EvHook sid KSesExit []) (w_trace w))) (fun _ => True) (code_ops_all E));
      try (intros; assumption).
    - intros e w (H1 & H2). split; [exact H1|]. intros Hx. apply in_or_app. left. auto.
    - intros w o _ (H1 & H2). destruct (apply_op_same w o) as (_ & Hs & _ & _ & Hx). split; [congruence|]. rewrite Hx. intros He.
      exact (proj1 (ops_keep [o] w _ (H2 He))).
    - intros w (H1 & H2) Hin. split; [exact H1|]. intros _. rewrite <- H1. exact Hin.
    - split; [reflexivity|discriminate]. }
  destruct (feeds _ _ _ _); try exact Logic.I; exact (proj2 H).
Qed.

(** Leaving a session's flag alone. *)
Lemma stays_exited E fuel line w : w_exit w = true -> f_inv (fun w' => w_exit w' = true) (feed E fuel line w).
Proof.
  apply (feed_inv E (fun w' => w_exit w' = true) (fun _ => True) (code_ops_all E)); try (intros; assumption); try reflexivity.
  intros w0 o _ H. destruct (apply_op_same w0 o) as (_ & _ & _ & _ & ->). exact H.
Qed.
