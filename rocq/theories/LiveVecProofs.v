(** * Proofs about the vectors the loops run over *)

From Verif Require Import Base FromStringModel FromStringProofs HistoryModel HistorySpec StorageModel MenuModel SessionModel ResolveSpec ResolveProofs SessionSpec SessionProofs
  TreeProofs InvariantProofs SafetyProofs LiveModel LiveSpec LiveProofs.
Open Scope nat_scope.
Open Scope list_scope.

Fixpoint vecs (mid : nat) (c : cmd) : list (list nat) :=
  match c with
  | CMenu i _ _ _ _ ks => (if Nat.eqb i mid then [map cmd_id ks] else []) ++ flat_map (vecs mid) ks
  | _ => []
  end.
Lemma flat_map_nil {A B} (f : A -> list B) l : (forall x, In x l -> f x = []) -> flat_map f l = [].
Proof. induction l as [|x l IH]; intros H; [reflexivity|]. cbn. rewrite (H x), IH; auto; [intros; apply H; right; assumption|left; reflexivity]. Qed.
Lemma vecs_menu mid c : vecs mid c <> [] <-> In mid (menu_ids c).
Proof.
  induction c as [i n e d p pd h|i n e d pd h|i n e d p ks IH] using cmd_ind2; cbn [vecs menu_ids]; try (split; [congruence|intros []]).
  rewrite Forall_forall in IH. split.
  - intros H. destruct (Nat.eqb_spec i mid) as [->|Hn]; [left; reflexivity|]. right. cbn in H.
    destruct (flat_map (vecs mid) ks) as [|v l] eqn:Hf; [congruence|]. assert (Hin : In v (flat_map (vecs mid) ks)) by (rewrite Hf; left; reflexivity).
    apply in_flat_map in Hin as (k & Hk & Hv). apply in_flat_map. exists k. split; [exact Hk|]. apply IH; [exact Hk|]. intros E. rewrite E in Hv. destruct Hv.
  - intros [->|H]; [rewrite Nat.eqb_refl; discriminate|]. apply in_flat_map in H as (k & Hk & H). apply IH in H; [|exact Hk].
    destruct (vecs mid k) as [|v l] eqn:Hv; [congruence|]. intros E. apply app_eq_nil in E as (_ & E).
    assert (Hin : In v (flat_map (vecs mid) ks)) by (apply in_flat_map; exists k; split; [exact Hk|rewrite Hv; left; reflexivity]). rewrite E in Hin. destruct Hin.
Qed.
Lemma vecs_absent mid c : ~ In mid (ids c) -> vecs mid c = [].
Proof. intros H. destruct (vecs mid c) eqn:E; [reflexivity|]. exfalso. apply H, menu_ids_ids, vecs_menu. congruence. Qed.
Lemma vecs_in mid c l : In l (vecs mid c) -> In mid (ids c) /\ incl l (ids c).
Proof.
  intros H. split; [apply menu_ids_ids, vecs_menu; intros E; rewrite E in H; destruct H|]. revert H.
  induction c as [i n e d p pd h|i n e d pd h|i n e d p ks IH] using cmd_ind2; cbn [vecs]; try (intros []).
  rewrite Forall_forall in IH. intros H. rewrite ids_menu. apply in_app_or in H as [H|H].
  - destruct (Nat.eqb i mid); [|destruct H]. destruct H as [<-|[]]. intros x Hx. apply in_map_iff in Hx as (k & <- & Hk). right. apply in_kids_ids. exists k. split; [exact Hk|apply ids_hd].
  - apply in_flat_map in H as (k & Hk & H). intros x Hx. right. apply in_kids_ids. exists k. split; [exact Hk|]. exact (IH k Hk H x Hx).
Qed.
Lemma vecs_unique mid c : NoDup (ids c) -> forall a b, In a (vecs mid c) -> In b (vecs mid c) -> a = b.
Proof.
  induction c as [i n e d p pd h|i n e d pd h|i n e d p ks IH] using cmd_ind2; intros Hnd a b; cbn [vecs]; try (intros []).
  rewrite ids_menu in Hnd. apply NoDup_cons_iff in Hnd as (Hi & Hnd). destruct (Nat.eqb_spec i mid) as [->|Hn].
  - rewrite flat_map_nil; [intros [<-|[]] [<-|[]]; reflexivity|]. intros k Hk. apply vecs_absent. intros H. apply Hi, in_kids_ids. eauto.
  - cbn [app]. clear Hi. revert Hnd. induction IH as [|k l Hk Hl IHl]; intros Hnd; [intros []|]. cbn in Hnd. apply NoDup_app_iff in Hnd as (H1 & H2 & H3).
    assert (Hx : forall v, In v (vecs mid k) -> ~ In v (flat_map (vecs mid) l) /\ forall v', ~ In v' (flat_map (vecs mid) l)).
    { intros v Hv. apply vecs_in in Hv as (Hm & _). assert (Hno : forall v', ~ In v' (flat_map (vecs mid) l)); [|split; auto].
      intros v' Hv'. apply in_flat_map in Hv' as (k' & Hk' & Hv'). apply vecs_in in Hv' as (Hm' & _). apply (H3 _ Hm), in_kids_ids. eauto. }
    cbn [flat_map]. intros Ha Hb. apply in_app_or in Ha, Hb. destruct Ha as [Ha|Ha], Hb as [Hb|Hb].
    + apply Hk; assumption.
    + exfalso. eapply (proj2 (Hx a Ha)). exact Hb.
    + exfalso. eapply (proj2 (Hx b Hb)). exact Ha.
    + apply IHl; assumption.
Qed.
Lemma chain_vecs root ctx : chain root ctx -> forall m anc mid, ctx = m :: anc -> incl (vecs mid m) (vecs mid root).
Proof.
  intros H. induction H as [Hm|k p anc H IH Hin Hk]; intros m a mid E; injection E as <- <-; [apply incl_refl|].
  intros v Hv. apply (IH p anc mid eq_refl). pose proof (chain_hd _ _ _ H) as (i & n & e & d & pr & ks & ->). cbn [vecs].
  apply in_or_app. right. apply in_flat_map. exists k. split; [exact Hin|exact Hv].
Qed.
Lemma holds_vecs mid l root : unique_ids root -> holds mid l root <-> In l (vecs mid root).
Proof.
  intros Hu. assert (Hto : forall l, holds mid l root -> In l (vecs mid root)).
  { intros l0 (m & anc & Hc & Hm & <-). apply (chain_vecs _ _ Hc m anc mid eq_refl).
    pose proof (chain_hd _ _ _ Hc) as (i & n & e & d & pr & ks & ->). cbn in Hm |- *. subst i. rewrite Nat.eqb_refl. left. reflexivity. }
  split; [apply Hto|]. intros H.
  assert (Hm : In mid (menu_ids root)) by (apply vecs_menu; intros E; rewrite E in H; destruct H).
  apply (menu_ids_locate _ []) in Hm as (ctx & Hl). apply locate_spec in Hl; [|exact Hu]. destruct Hl as (Hc & m & anc & -> & Hm).
  assert (Hh : holds mid (map cmd_id (cmd_kids m)) root) by (exists m, anc; auto).
  rewrite (vecs_unique mid root Hu l _ H (Hto _ Hh)). exact Hh.
Qed.

(** ** One operation *)
Lemma enabled_vecs mid id b c : vecs mid (set_enabled id b c) = vecs mid c.
Proof.
  induction c as [i n e d p pd h|i n e d pd h|i n e d p ks IH] using cmd_ind2; try reflexivity. cbn [set_enabled vecs].
  rewrite map_map, flat_map_map. rewrite (map_ext _ cmd_id (fun k => set_enabled_id id b k)). f_equal.
  apply flat_map_ext_in. rewrite Forall_forall in IH. exact IH.
Qed.
Lemma insert_cmd_id pid x c : cmd_id (insert_cmd pid x c) = cmd_id c.
Proof. destruct c; reflexivity. Qed.
Lemma insert_other mid pid x c : mid <> pid -> vecs mid x = [] -> vecs mid (insert_cmd pid x c) = vecs mid c.
Proof.
  intros Hn Hx. induction c as [i n e d p pd h|i n e d pd h|i n e d p ks IH] using cmd_ind2; try reflexivity. rewrite insert_menu. cbn [vecs].
  assert (Hm : flat_map (vecs mid) (map (insert_cmd pid x) ks) = flat_map (vecs mid) ks)
    by (rewrite flat_map_map; apply flat_map_ext_in; rewrite Forall_forall in IH; exact IH).
  assert (Hi : map cmd_id (map (insert_cmd pid x) ks) = map cmd_id ks) by (rewrite map_map; apply map_ext, insert_cmd_id).
  destruct (Nat.eqb_spec i pid) as [->|Hp].
  - destruct (Nat.eqb_spec pid mid); [congruence|]. rewrite flat_map_app, Hm. cbn. rewrite Hx, !app_nil_r. reflexivity.
  - rewrite Hm, Hi. reflexivity.
Qed.
Lemma insert_own mid x c : vecs mid x = [] -> vecs mid (insert_cmd mid x c) = map (fun l => l ++ [cmd_id x]) (vecs mid c).
Proof.
  intros Hx. induction c as [i n e d p pd h|i n e d pd h|i n e d p ks IH] using cmd_ind2; try reflexivity. rewrite insert_menu. cbn [vecs].
  assert (Hm : flat_map (vecs mid) (map (insert_cmd mid x) ks) = map (fun l => l ++ [cmd_id x]) (flat_map (vecs mid) ks)).
  { rewrite flat_map_map, map_flat_map. apply flat_map_ext_in. rewrite Forall_forall in IH. exact IH. }
  assert (Hi : map cmd_id (map (insert_cmd mid x) ks) = map cmd_id ks) by (rewrite map_map; apply map_ext, insert_cmd_id).
  rewrite map_app. destruct (Nat.eqb_spec i mid) as [->|Hp].
  - rewrite flat_map_app, Hm, map_app, Hi. cbn. rewrite Hx, !app_nil_r. reflexivity.
  - rewrite Hm. reflexivity.
Qed.
Lemma remove_kept mid id c : ~ In mid (owners id c) -> incl (vecs mid (remove_cmd id c)) (vecs mid c).
Proof.
  induction c as [i n e d p pd h|i n e d pd h|i n e d p ks IH] using cmd_ind2; intros Ho; try apply incl_refl.
  rewrite remove_menu. cbn [vecs owners] in *. rewrite in_app_iff in Ho.
  assert (Hl : incl (flat_map (vecs mid) (remove_list id ks)) (flat_map (vecs mid) ks)).
  { assert (Ho' : ~ In mid (flat_map (owners id) ks)) by tauto. clear Ho. induction IH as [|k l Hk _ IHl]; [apply incl_refl|]. cbn [flat_map] in *. rewrite in_app_iff in Ho'.
    cbn [remove_list]. destruct (Nat.eqb (cmd_id k) id); [intros v Hv; apply in_or_app; right; exact Hv|]. cbn [flat_map].
    apply incl_app; [apply incl_appl, Hk|apply incl_appr, IHl]; tauto. }
  destruct (Nat.eqb_spec i mid) as [->|Hn]; [|exact Hl].
  apply incl_app; [|apply incl_appr, Hl]. apply incl_appl.
  assert (Hk : existsb (fun k => Nat.eqb (cmd_id k) id) ks = false).
  { destruct (existsb _ ks); [|reflexivity]. exfalso. apply Ho. left. left. reflexivity. }
  assert (Hm : map cmd_id (remove_list id ks) = map cmd_id ks); [|rewrite Hm; apply incl_refl].
  clear - Hk. induction ks as [|k ks IH]; [reflexivity|]. cbn in Hk |- *. apply orb_false_iff in Hk as (Hk & Hks). rewrite Hk. cbn. rewrite remove_id, IH by exact Hks. reflexivity.
Qed.
Lemma remove_list_in id l x : In x (kids_ids (remove_list id l)) -> In x (kids_ids l).
Proof.
  induction l as [|k l IH]; [auto|]. cbn. destruct (Nat.eqb (cmd_id k) id); cbn; rewrite ?in_app_iff; [tauto|].
  intros [H|H]; [left; eapply remove_ids_in; exact H|right; auto].
Qed.
Lemma remove_gone id c : NoDup (ids c) -> cmd_id c <> id -> ~ In id (ids (remove_cmd id c)).
Proof.
  induction c as [i n e d p pd h|i n e d pd h|i n e d p ks IH] using cmd_ind2; intros Hnd Hc; try (cbn in *; tauto).
  rewrite remove_menu, ids_menu. rewrite ids_menu in Hnd. apply NoDup_cons_iff in Hnd as (_ & Hnd). cbn in Hc. intros [H|H]; [congruence|].
  induction IH as [|k l Hk _ IHl]; [exact H|]. cbn in Hnd, H. apply NoDup_app_iff in Hnd as (H1 & H2 & H3).
  destruct (Nat.eqb_spec (cmd_id k) id) as [<-|Hn].
  - apply (H3 (cmd_id k)); [apply ids_hd|exact H].
  - cbn in H. apply in_app_or in H as [H|H]; [apply Hk; assumption|apply IHl; assumption].
Qed.
Lemma owners_vecs mid id c : In mid (owners id c) -> exists l, In l (vecs mid c) /\ In id l.
Proof.
  induction c as [i n e d p pd h|i n e d pd h|i n e d p ks IH] using cmd_ind2; cbn [owners vecs]; try (intros []).
  intros H. apply in_app_or in H as [H|H].
  - destruct (existsb _ ks) eqn:Hk; [|destruct H]. destruct H as [->|[]]. apply existsb_exists in Hk as (k & Hk & He). apply Nat.eqb_eq in He.
    rewrite Nat.eqb_refl. exists (map cmd_id ks). split; [left; reflexivity|]. apply in_map_iff. eauto.
  - apply in_flat_map in H as (k & Hk & H). rewrite Forall_forall in IH. destruct (IH k Hk H) as (l & Hl & Hin).
    exists l. split; [apply in_or_app; right; apply in_flat_map; eauto|exact Hin].
Qed.
Lemma owner_root id c mid : NoDup (ids c) -> In mid (owners id c) -> cmd_id c <> id.
Proof.
  intros Hnd H E. destruct c as [| |i n e d p ks]; try destruct H. cbn in E. subst i.
  rewrite ids_menu in Hnd. apply NoDup_cons_iff in Hnd as (Hi & _). apply Hi. cbn [owners] in H. apply in_app_or in H as [H|H].
  - destruct (existsb _ ks) eqn:Hk; [|destruct H]. apply existsb_exists in Hk as (k & Hk & He). apply Nat.eqb_eq in He. subst id. apply in_kids_ids. exists k. split; [exact Hk|apply ids_hd].
  - apply in_flat_map in H as (k & Hk & H). apply owners_vecs in H as (l & Hl & Hin). apply vecs_in in Hl as (_ & Hl). apply in_kids_ids. exists k. split; [exact Hk|apply Hl, Hin].
Qed.

Lemma op_vecs w o mid : sound w -> mid < w_next w ->
  (~ In mid (vectors o w) -> incl (vecs mid (w_root (apply_op w o))) (vecs mid (w_root w))) /\
  (In mid (vectors o w) -> forall l, In l (vecs mid (w_root w)) -> ~ In l (vecs mid (w_root (apply_op w o)))) /\
  (vecs mid (w_root w) = [] -> vecs mid (w_root (apply_op w o)) = []).
Proof.
  intros (Hu & Hf) Hlt. destruct o as [s|s|id|id|id|pid c]; cbn [apply_op vectors].
  - split; [intros _; apply incl_refl|split; [intros []|auto]].
  - split; [intros _; apply incl_refl|split; [intros []|auto]].
  - cbn. rewrite enabled_vecs. split; [intros _; apply incl_refl|split; [intros []|auto]].
  - cbn. rewrite enabled_vecs. split; [intros _; apply incl_refl|split; [intros []|auto]].
  - cbn [w_root set_root]. split; [apply remove_kept|]. split.
    + intros Ho l Hl Hl'. apply vecs_in in Hl' as (_ & Hl'). apply (remove_gone id (w_root w) Hu (owner_root id _ mid Hu Ho)).
      apply owners_vecs in Ho as (l2 & H2 & Hin). rewrite (vecs_unique mid _ Hu l l2 Hl H2) in Hl'. apply Hl', Hin.
    + intros He. destruct (vecs mid (remove_cmd id (w_root w))) as [|v l] eqn:Hv; [reflexivity|]. exfalso.
      assert (Ho : ~ In mid (owners id (w_root w))) by (intros Ho; apply owners_vecs in Ho as (l2 & H2 & _); rewrite He in H2; destruct H2).
      assert (Hin : In v (vecs mid (w_root w))) by (apply (remove_kept mid id _ Ho); rewrite Hv; left; reflexivity). rewrite He in Hin. destruct Hin.
  - pose proof (relabel_ids c (w_next w)) as Hr. destruct (relabel (w_next w) c) as (c', n') eqn:Hc. destruct Hr as (Hn' & Hids). cbn [w_root set_root log].
    assert (Hx : vecs mid c' = []) by (apply vecs_absent; rewrite Hids; intros H; apply in_seq in H; lia).
    split; [intros Hp; rewrite insert_other; [apply incl_refl|intros ->; apply Hp; left; reflexivity|exact Hx]|]. split.
    + intros [->|[]] l Hl Hl'. rewrite insert_own in Hl' by exact Hx. apply in_map_iff in Hl' as (l2 & <- & H2).
      pose proof (f_equal (@length nat) (vecs_unique mid _ Hu _ _ Hl H2)) as He. rewrite app_length in He. cbn in He. lia.
    + intros He. destruct (Nat.eq_dec mid pid) as [->|Hne]; [rewrite insert_own, He by exact Hx; reflexivity|rewrite insert_other, He by assumption; reflexivity].
Qed.

(** ** Several operations *)
Lemma next_ops os : forall w, sound w -> sound (apply_ops os w) /\ w_next w <= w_next (apply_ops os w).
Proof.
  induction os as [|o os IH]; intros w Hs; [split; [exact Hs|apply le_n]|]. destruct (IH (apply_op w o) (sound_op w o Hs)) as (H1 & H2).
  split; [exact H1|]. cbn [apply_ops fold_left] in *. assert (w_next w <= w_next (apply_op w o)); [|unfold apply_ops in H2; lia].
  destruct o as [s|s|id|id|id|pid c]; cbn; try lia. pose proof (relabel_ids c (w_next w)) as H.
  destruct (relabel (w_next w) c) as (c', n). cbn. lia.
Qed.
Lemma vecs_gone os mid : forall w, sound w -> mid < w_next w -> vecs mid (w_root w) = [] -> vecs mid (w_root (apply_ops os w)) = [].
Proof.
  induction os as [|o os IH]; intros w Hs Hlt He; [exact He|]. apply (IH (apply_op w o)); [apply sound_op, Hs| |apply op_vecs; assumption].
  pose proof (next_ops [o] w Hs) as (_ & H). cbn in H. lia.
Qed.
Lemma version_op mid s o : version mid (l_op s o) = version mid s + length (filter (Nat.eqb mid) (vectors o (l_w s))).
Proof. unfold version, l_op. cbn. rewrite filter_app, app_length. reflexivity. Qed.
Lemma filter_none mid l : length (filter (Nat.eqb mid) l) = 0 <-> ~ In mid l.
Proof.
  induction l as [|x l IH]; cbn; [tauto|]. destruct (Nat.eqb_spec mid x) as [->|Hn]; cbn.
  - split; [discriminate|intros H; exfalso; apply H; left; reflexivity].
  - rewrite IH. split; [intros H [E|E]; [congruence|auto]|tauto].
Qed.
Lemma version_mono mid os : forall s, version mid s <= version mid (l_ops os s).
Proof.
  induction os as [|o os IH]; intros s; [apply le_n|]. pose proof (IH (l_op s o)) as H. rewrite version_op in H. cbn [l_ops fold_left]. unfold l_ops in H. lia.
Qed.
Lemma menu_now_vecs mid s : menu_now mid s <> None <-> vecs mid (w_root (l_w s)) <> [].
Proof.
  rewrite vecs_menu. unfold menu_now. rewrite (menu_ids_locate _ []). destruct (locate mid [] (w_root (l_w s))) as [ctx|].
  - split; [eauto|discriminate].
  - split; [congruence|intros (ctx & H); discriminate].
Qed.
Lemma intact_spec mid v s : intact mid v s = true <-> vecs mid (w_root (l_w s)) <> [] /\ version mid s = v.
Proof.
  rewrite <- menu_now_vecs. unfold intact. destruct (menu_now mid s); [rewrite Nat.eqb_eq; split; [split; [discriminate|assumption]|tauto]|].
  split; [discriminate|intros (H & _); congruence].
Qed.
Lemma intact_exact mid l os : forall s, sound (l_w s) -> In l (vecs mid (w_root (l_w s))) ->
  (intact mid (version mid s) (l_ops os s) = true <->
   forall pre post, os = pre ++ post -> In l (vecs mid (w_root (apply_ops pre (l_w s))))).
Proof.
  assert (Hid : forall w, sound w -> In l (vecs mid (w_root w)) -> mid < w_next w).
  { intros w (_ & Hf) Hl. apply vecs_in in Hl as (Hm & _). rewrite Forall_forall in Hf. apply Hf, Hm. }
  induction os as [|o os IH]; intros s Hs Hl.
  - rewrite intact_spec. cbn. split.
    + intros _ pre post E. symmetry in E. apply app_eq_nil in E as (-> & _). exact Hl.
    + intros _. split; [intros E; rewrite E in Hl; destruct Hl|reflexivity].
  - destruct (op_vecs (l_w s) o mid Hs (Hid _ Hs Hl)) as (Ha & Hb & Hc). pose proof (sound_op _ o Hs) as Hs'.
    assert (Hnx : mid < w_next (apply_op (l_w s) o)) by (pose proof (next_ops [o] _ Hs) as (_ & H); pose proof (Hid _ Hs Hl); cbn in H; lia).
    change (l_ops (o :: os) s) with (l_ops os (l_op s o)). specialize (IH (l_op s o) Hs'). cbn [l_op l_w] in IH.
    split.
    + intros Hi. apply intact_spec in Hi as (He & Hv). pose proof (version_mono mid os (l_op s o)) as Hm. rewrite version_op in Hm.
      assert (Hno : ~ In mid (vectors o (l_w s))) by (apply filter_none; lia).
      assert (Hl' : In l (vecs mid (w_root (apply_op (l_w s) o)))).
      { destruct (vecs mid (w_root (apply_op (l_w s) o))) as [|v vs] eqn:Hv'.
        - exfalso. apply He. rewrite l_ops_world. apply vecs_gone; [exact Hs'|exact Hnx|exact Hv'].
        - assert (Hin : In v (v :: vs)) by (left; reflexivity). rewrite (vecs_unique mid _ (proj1 Hs) l v Hl); [exact Hin|]. apply (Ha Hno). exact Hin. }
      assert (Hi' : intact mid (version mid (l_op s o)) (l_ops os (l_op s o)) = true).
      { apply intact_spec. split; [exact He|]. rewrite version_op. rewrite (proj2 (filter_none mid _) Hno). lia. }
      intros [|p pre] post E; [exact Hl|]. injection E as <- ->. apply (proj1 (IH Hl') Hi' pre post eq_refl).
    + intros H. assert (Hl' : In l (vecs mid (w_root (apply_op (l_w s) o)))) by (apply (H [o] os eq_refl)).
      assert (Hno : ~ In mid (vectors o (l_w s))) by (intros Hin; exact (Hb Hin l Hl Hl')).
      replace (version mid s) with (version mid (l_op s o)) by (rewrite version_op, (proj2 (filter_none mid _) Hno); lia).
      apply (IH Hl'). intros pre post E. apply (H (o :: pre) post). rewrite E. reflexivity.
Qed.
Lemma left_alone_iff mid os w : sound w -> In mid (menu_ids (w_root w)) ->
  (intact mid (version mid (mkLive w [])) (l_ops os (mkLive w [])) = true <-> left_alone mid os w).
Proof.
  intros Hs Hm. apply vecs_menu in Hm. destruct (vecs mid (w_root w)) as [|l vs] eqn:Hv; [congruence|].
  assert (Hl : In l (vecs mid (w_root w))) by (rewrite Hv; left; reflexivity).
  assert (Hall : forall l pre, holds mid l (w_root (apply_ops pre w)) <-> In l (vecs mid (w_root (apply_ops pre w))))
    by (intros l0 pre; apply holds_vecs, (next_ops pre w Hs)).
  rewrite (intact_exact mid l os (mkLive w []) Hs Hl). cbn [l_w]. split.
  - intros H. exists l. intros pre post E. apply Hall, (H pre post E).
  - intros (l' & H). assert (l' = l) as ->.
    { apply (vecs_unique mid (w_root w) (proj1 Hs)); [|exact Hl]. apply (Hall l' []), (H [] os eq_refl). }
    intros pre post E. apply Hall, (H pre post E).
Qed.

(** ** The loop over the current menu *)
Lemma menu_in root m anc : chain root (m :: anc) -> unique_ids root -> In (cmd_id m) (menu_ids root).
Proof.
  intros Hc Hu. apply (menu_ids_locate _ []). exists (m :: anc). apply locate_spec; [exact Hu|]. split; [exact Hc|]. eauto.
Qed.
Lemma root_anc root m anc : chain root (m :: anc) -> unique_ids root -> cmd_id m = cmd_id root -> anc = [].
Proof.
  intros Hc Hu He. assert (H1 : locate (cmd_id m) [] root = Some (m :: anc)) by (apply locate_spec; [exact Hu|split; [exact Hc|eauto]]).
  assert (Hr : is_menu root).
  { clear - Hc. remember (m :: anc) as ctx. revert m anc Heqctx. induction Hc; intros; [assumption|eauto]. }
  assert (H2 : locate (cmd_id m) [] root = Some [root]).
  { apply locate_spec; [exact Hu|]. split; [constructor; exact Hr|]. exists root, []. auto. }
  congruence.
Qed.
Lemma ops_root_id os : forall w, cmd_id (w_root (apply_ops os w)) = cmd_id (w_root w).
Proof.
  induction os as [|o os IH]; intros w; [reflexivity|]. etransitivity; [apply (IH (apply_op w o))|].
  destruct o; cbn; rewrite ?set_enabled_id, ?remove_id; try reflexivity. destruct (relabel (w_next w) c). apply insert_cmd_id.
Qed.

Section Loop.
Context (E : env).
Lemma other_word m anc t args k s : unique_ids (w_root (l_w s)) -> chain (w_root (l_w s)) (m :: anc) -> In k (cmd_kids m) -> cmd_name k <> t ->
  l_exec E (t :: args) k s = LDone false s.
Proof.
  intros Hu Hc Hk Hn. unfold l_exec. assert (He : str_eqb (cmd_name k) t = false) by (destruct (str_eqb_spec (cmd_name k) t); [contradiction|reflexivity]).
  destruct k as [i n e d p pd h|i n e d pd h|i n e d p ks]; cbn [cmd_name] in He.
  - cbn [l_leaf]. destruct (negb e); [reflexivity|]. destruct (negb _); [reflexivity|]. rewrite He. reflexivity.
  - cbn [l_leaf]. destruct (negb e); [reflexivity|]. rewrite He. reflexivity.
  - assert (Hk' : chain (w_root (l_w s)) (CMenu i n e d p ks :: m :: anc)) by (constructor; [exact Hc|exact Hk|repeat eexists]).
    cbn [l_handle]. rewrite (now_chain _ Hu s _ _ eq_refl Hk' : menu_now i s = _). destruct (negb e); [reflexivity|]. rewrite He. reflexivity.
Qed.
Lemma loop_skip f m anc v s : unique_ids (w_root (l_w s)) -> chain (w_root (l_w s)) (m :: anc) -> version (cmd_id m) s = v ->
  forall l ks, incl l (cmd_kids m) -> (forall k, In k l -> f k s = LDone false s) ->
  l_loop f (cmd_id m) v (map cmd_id l ++ ks) s = l_loop f (cmd_id m) v ks s.
Proof.
  intros Hu Hc Hv. assert (Hnd : NoDup (kids_ids (cmd_kids m))).
  { pose proof (chain_nodup _ _ Hu Hc m anc eq_refl) as H. apply chain_hd in Hc as (i & n & e & d & pr & ks & ->).
    rewrite ids_menu in H. inversion H; assumption. }
  induction l as [|k l IH]; intros ks Hi Hf; [reflexivity|]. cbn [map app l_loop].
  rewrite (now_chain _ Hu s m anc eq_refl Hc). rewrite (find_kid _ Hnd k) by (apply Hi; left; reflexivity).
  rewrite (Hf k (or_introl eq_refl)). cbn [l_bind]. unfold intact. rewrite (now_chain _ Hu s m anc eq_refl Hc), Hv, Nat.eqb_refl.
  apply IH; [intros x Hx; apply Hi; right; exact Hx|intros x Hx; apply Hf; right; exact Hx].
Qed.
Lemma converts_all pars args vs : converts E pars args vs -> convert_all E pars args = COk vs /\ length args = length pars.
Proof.
  intros H. assert (Hl : length args = length pars) by (induction H; cbn; congruence). split; [|exact Hl]. apply convert_all_ok; assumption.
Qed.

Context (w : world) (m : cmd) (anc : list cmd) (before after : list cmd) (id : nat) (name d : str) (pars : list ptype) (pd : list str) (u : nat).
Context (args : list str) (vs : list value) (what : str).
Context (Hs : sound w) (Hc : chain (w_root w) (m :: anc)) (Hcur : cmd_id m = w_cur w) (Hen : cmd_en m = true).
Context (Hk : cmd_kids m = before ++ CFn id name true d pars pd (HUser u) :: after).
Context (Hb : forall k, In k before -> cmd_name k <> name) (Hcv : converts E pars args vs).
Context (Hx : call_end E u vs w = UThrow (XBadCast what)).

Lemma scan_reaches : exists s', l_w s' = call_left E u vs w /\
  (intact (w_cur w) 0 s' = true <-> left_alone (w_cur w) (call_ops E u vs w) w) /\
  live_scan E (name :: args) w =
  l_bind (if intact (w_cur w) 0 s' then l_loop (l_exec E (name :: args)) (w_cur w) 0 (map cmd_id after) s' else LUB)
    (fun s' => match menu_now (w_cur w) s' with
               | Some (_ :: p :: _) => l_handle E (name :: args) true (cmd_id p) s'
               | Some _ => LDone false s'
               | None => LUB
               end).
Proof.
  pose proof (proj1 Hs) as Hu. set (w1 := log (EvCall (w_sid w) u vs) w).
  exists (l_ops (call_ops E u vs w) (mkLive w1 [])). split; [rewrite l_ops_world; reflexivity|]. split.
  - assert (Hw1 : left_alone (w_cur w) (call_ops E u vs w) w1 <-> left_alone (w_cur w) (call_ops E u vs w) w).
    { assert (Hr : forall os a b, w_root a = w_root b -> w_next a = w_next b -> w_root (apply_ops os a) = w_root (apply_ops os b)).
      { clear. induction os as [|o os IH]; intros a b H1 H2; [exact H1|]. apply (IH (apply_op a o) (apply_op b o)).
        - destruct o; cbn; rewrite ?H1, ?H2; try reflexivity. destruct (relabel (w_next b) c). reflexivity.
        - destruct o; cbn; rewrite ?H1, ?H2; try reflexivity. destruct (relabel (w_next b) c). reflexivity. }
      split; intros (l & H); exists l; intros pre post E0; specialize (H pre post E0); [rewrite <- (Hr pre w1 w eq_refl eq_refl)|rewrite (Hr pre w1 w eq_refl eq_refl)]; exact H. }
    rewrite <- Hw1. change 0 with (version (w_cur w) (mkLive w1 [])). apply left_alone_iff; [exact Hs|].
    rewrite <- Hcur. apply (menu_in _ m anc); assumption.
  - unfold live_scan. pose proof (now_chain _ Hu (mkLive w []) m anc eq_refl Hc) as Hn. rewrite Hcur in Hn. rewrite Hn, Hen. cbn [negb].
    unfold l_scan. f_equal. rewrite Hk, map_app. change (version (w_cur w) (mkLive w [])) with 0. rewrite <- Hcur at 1.
    rewrite (loop_skip (l_exec E (name :: args)) m anc 0 (mkLive w []) Hu Hc eq_refl before).
    + cbn [map cmd_id l_loop]. rewrite Hcur, Hn.
      assert (Hnd : NoDup (kids_ids (cmd_kids m))).
      { pose proof (chain_nodup _ _ Hu Hc m anc eq_refl) as H. pose proof (chain_hd _ _ _ Hc) as (i & n & e & d' & pr & ks & ->).
        rewrite ids_menu in H. inversion H; assumption. }
      pose proof (find_kid _ Hnd (CFn id name true d pars pd (HUser u))) as Hf. cbn [cmd_id] in Hf.
      rewrite Hf by (rewrite Hk; apply in_elt). cbn [l_exec l_leaf negb length]. destruct (converts_all _ _ _ Hcv) as (Hca & Hlen).
      replace (Nat.eqb (S (length args)) (length pars + 1)) with true by (symmetry; apply Nat.eqb_eq; lia). cbn [negb].
      replace (str_eqb name name) with true by (destruct (str_eqb_spec name name); congruence). rewrite Hca.
      unfold l_call. cbn [l_w l_changed]. unfold call_end in Hx. change (w_sid (log (EvCall (w_sid w) u vs) w)) with (w_sid w).
      change (w_trace (log (EvCall (w_sid w) u vs) w)) with (w_trace w ++ [EvCall (w_sid w) u vs]). rewrite Hx. cbn [l_bind]. reflexivity.
    + rewrite Hk. intros x Hin. apply in_or_app. left. exact Hin.
    + intros k Hin. apply (other_word m anc); [exact Hu|exact Hc|rewrite Hk; apply in_or_app; left; exact Hin|apply Hb, Hin].
Qed.
Lemma scan_broken : ~ left_alone (w_cur w) (call_ops E u vs w) w -> live_scan E (name :: args) w = LUB.
Proof.
  intros Hl. destruct scan_reaches as (s' & _ & Hi & ->). destruct (intact (w_cur w) 0 s'); [|reflexivity]. exfalso. apply Hl, Hi. reflexivity.
Qed.
Lemma scan_goes_on : left_alone (w_cur w) (call_ops E u vs w) w -> after = [] -> m = w_root w ->
  exists s', live_scan E (name :: args) w = LDone false s' /\ l_w s' = call_left E u vs w.
Proof.
  intros Hl Ha Hm. destruct scan_reaches as (s' & Hw' & Hi & ->). rewrite (proj2 Hi Hl), Ha. cbn [map l_loop l_bind].
  assert (Hs' : sound (l_w s')) by (rewrite Hw'; apply next_ops; exact Hs).
  apply Hi in Hl. unfold intact in Hl. destruct (menu_now (w_cur w) s') as [ctx|] eqn:Hn; [|discriminate].
  pose proof (menu_now_chain _ _ _ Hn) as (Hch & m' & a & -> & Hid).
  assert (a = []) as ->.
  { apply (root_anc _ _ _ Hch (proj1 Hs')). rewrite Hid, <- Hcur, Hm, Hw'. symmetry. unfold call_left. rewrite ops_root_id. reflexivity. }
  exists s'. split; [reflexivity|exact Hw'].
Qed.
End Loop.
