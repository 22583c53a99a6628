(** * Proofs about menus as objects *)

From Verif Require Import Base FromStringModel StorageModel MenuModel SessionModel CompletionModel SessionSpec TreeProofs HeapModel HeapSpec.
Open Scope nat_scope.
Open Scope list_scope.

Lemma put_same i o h : put i o h i = o.
Proof. unfold put. rewrite Nat.eqb_refl. reflexivity. Qed.
Lemma put_other i o h j : j <> i -> put i o h j = h j.
Proof. intro H. unfold put. apply Nat.eqb_neq in H. rewrite H. reflexivity. Qed.

Lemma menus_of_ids c : menus_of c = menu_ids c.
Proof. induction c as [| |i n e d p ks IH] using cmd_ind2; try reflexivity. Qed.

Section Alone.
Context {al : list nat}.

Lemma rep_menu h par i n e d pr ks :
  rep al h par (CMenu i n e d pr ks) <-> h i = Some (BMenu n e d pr (if mem i al then None else par) (map cmd_id ks)) /\ Forall (rep al h (Some i)) ks.
Proof.
  cbn [rep]. apply and_iff_compat_l. induction ks as [|k ks IH].
  - split; auto.
  - rewrite Forall_cons_iff, <- IH. reflexivity.
Qed.

Lemma rep_ext c : forall h h' par, (forall i, In i (ids c) -> h' i = h i) -> rep al h par c -> rep al h' par c.
Proof.
  induction c as [i n e d p pd hh|i n e d pd hh|i n e d p ks IH] using cmd_ind2; intros h h' par H R.
  1,2: cbn [rep] in *; rewrite H by (left; reflexivity); exact R.
  rewrite rep_menu in *. destruct R as (R & K). split; [rewrite H by (left; reflexivity); exact R|].
  rewrite Forall_forall in *. intros k Hk. apply (IH k Hk h); [|auto].
  intros j Hj. apply H. rewrite ids_menu. right. apply in_kids_ids. eauto.
Qed.
Lemma rep_list_ext l h h' par : (forall i, In i (kids_ids l) -> h' i = h i) -> Forall (rep al h par) l -> Forall (rep al h' par) l.
Proof.
  rewrite !Forall_forall. intros H R k Hk. apply (rep_ext k h); [|auto]. intros j Hj. apply H. apply in_kids_ids. eauto.
Qed.
Lemma rep_live c : forall h par i, rep al h par c -> In i (ids c) -> h i <> None.
Proof.
  induction c as [i n e d p pd hh|i n e d pd hh|i n e d p ks IH] using cmd_ind2; intros h par j R Hj.
  1,2: cbn in Hj; destruct Hj as [<-|[]]; cbn in R; rewrite R; discriminate.
  apply rep_menu in R as (R & K). rewrite ids_menu in Hj. destruct Hj as [<-|Hj]; [rewrite R; discriminate|].
  apply in_kids_ids in Hj as (k & Hk & Hj). rewrite Forall_forall in IH, K. apply (IH k Hk h (Some i)); auto.
Qed.
(** Menus of the tree, in memory. *)
Lemma rep_is_menu c : forall h par m, rep al h par c -> In m (menu_ids c) -> exists n e d p par' cmds, h m = Some (BMenu n e d p par' cmds).
Proof.
  induction c as [i n e d p pd hh|i n e d pd hh|i n e d p ks IH] using cmd_ind2; intros h par m R Hm; try destruct Hm as [<-|Hm].
  1,2: destruct Hm.
  - apply rep_menu in R as (R & _). eauto 10.
  - apply rep_menu in R as (_ & K). apply in_flat_map in Hm as (k & Hk & Hm). rewrite Forall_forall in IH, K. eapply IH; eauto.
Qed.
Lemma rep_menu_is c : forall h par m n e d p par' cmds, rep al h par c -> In m (ids c) -> h m = Some (BMenu n e d p par' cmds) -> NoDup (ids c) -> In m (menu_ids c).
Proof.
  induction c as [i ni ei di pi pd hh|i ni ei di pd hh|i ni ei di pi ks IH] using cmd_ind2; intros h par m n e d p par' cmds R Hm Hh Hd.
  1,2: cbn in Hm; destruct Hm as [<-|[]]; cbn in R; congruence.
  apply rep_menu in R as (R & K). rewrite ids_menu in Hm. destruct Hm as [<-|Hm]; [left; reflexivity|right].
  apply in_kids_ids in Hm as (k & Hk & Hm). apply in_flat_map. exists k. split; [exact Hk|].
  rewrite Forall_forall in IH, K. eapply IH; eauto. eapply kid_nodup; eauto.
Qed.

(** ** Enabling *)
Lemma set_other i b h j : j <> i -> h_set i b h j = h j.
Proof. intro H. unfold h_set. destruct (h i) as [[]|]; try apply put_other; auto. Qed.
Lemma set_live i b h j : h_set i b h j <> None <-> h j <> None.
Proof.
  destruct (Nat.eq_dec j i) as [->|N]; [|rewrite set_other by exact N; reflexivity].
  unfold h_set. destruct (h i) as [[]|] eqn:E; rewrite ?put_same, ?E; split; intro; discriminate || contradiction.
Qed.
Lemma rep_set i b c : forall h par, rep al h par c -> rep al (h_set i b h) par (set_enabled i b c).
Proof.
  induction c as [j n e d p pd hh|j n e d pd hh|j n e d p ks IH] using cmd_ind2; intros h par R.
  - cbn [rep set_enabled] in *. destruct (Nat.eqb_spec j i) as [->|N]; [|rewrite set_other by exact N; exact R].
    unfold h_set. rewrite R. apply put_same.
  - cbn [rep set_enabled] in *. destruct (Nat.eqb_spec j i) as [->|N]; [|rewrite set_other by exact N; exact R].
    unfold h_set. rewrite R. apply put_same.
  - cbn [set_enabled]. rewrite rep_menu in *. destruct R as (R & K). split.
    + rewrite map_map. rewrite (map_ext (fun x => cmd_id (set_enabled i b x)) cmd_id) by apply set_enabled_id.
      destruct (Nat.eqb_spec j i) as [->|N]; [|rewrite set_other by exact N; exact R].
      unfold h_set. rewrite R. apply put_same.
    + rewrite Forall_forall in *. intros x Hx. apply in_map_iff in Hx as (k & <- & Hk). auto.
Qed.

(** ** Inserting *)
Definition h_link (m i : nat) (h : heap) : heap :=
  match h m with Some (BMenu n e d p par cmds) => put m (Some (BMenu n e d p par (cmds ++ [i]))) h | _ => h end.
Lemma link_other m i h j : j <> m -> h_link m i h j = h j.
Proof. intro H. unfold h_link. destruct (h m) as [[]|]; try reflexivity. apply put_other. exact H. Qed.
Lemma link_live m i h j : h_link m i h j <> None <-> h j <> None.
Proof.
  destruct (Nat.eq_dec j m) as [->|N]; [|rewrite link_other by exact N; reflexivity].
  unfold h_link. destruct (h m) as [[]|] eqn:E; rewrite ?put_same, ?E; split; intro; discriminate || contradiction.
Qed.
Lemma rep_insert m x c : forall h par, rep al h par c -> rep al (h_link m (cmd_id x) h) (Some m) x ->
  rep al (h_link m (cmd_id x) h) par (insert_cmd m x c).
Proof.
  induction c as [j n e d p pd hh|j n e d pd hh|j n e d p ks IH] using cmd_ind2; intros h par R X.
  - cbn [rep insert_cmd] in *. destruct (Nat.eq_dec j m) as [->|N]; [|rewrite link_other by exact N; exact R].
    unfold h_link. rewrite R. exact R.
  - cbn [rep insert_cmd] in *. destruct (Nat.eq_dec j m) as [->|N]; [|rewrite link_other by exact N; exact R].
    unfold h_link. rewrite R. exact R.
  - rewrite insert_menu. apply rep_menu in R as (R & K).
    assert (Q : Forall (rep al (h_link m (cmd_id x) h) (Some j)) (map (insert_cmd m x) ks)).
    { rewrite Forall_forall in *. intros y Hy. apply in_map_iff in Hy as (k & <- & Hk). auto. }
    assert (I : map cmd_id (map (insert_cmd m x) ks) = map cmd_id ks).
    { rewrite map_map. apply map_ext. intros []; reflexivity. }
    destruct (Nat.eqb_spec j m) as [->|N]; rewrite rep_menu; (split; [|]).
    + unfold h_link. rewrite R, put_same, map_app, I. reflexivity.
    + apply Forall_app. split; [exact Q|]. constructor; [exact X|constructor].
    + rewrite link_other, I by exact N. exact R.
    + exact Q.
Qed.

(** ** Destroying *)
Fixpoint depth (c : cmd) : nat :=
  S (match c with CMenu _ _ _ _ _ ks => (fix mx l := match l with [] => 0 | k :: l' => Nat.max (depth k) (mx l') end) ks | _ => 0 end).
Definition max_depth (l : list cmd) : nat := (fix mx l := match l with [] => 0 | k :: l' => Nat.max (depth k) (mx l') end) l.
Lemma depth_ids c : depth c <= length (ids c).
Proof.
  induction c as [j n e d p pd hh|j n e d pd hh|j n e d p ks IH] using cmd_ind2; try (cbn; lia).
  rewrite ids_menu. change (depth (CMenu j n e d p ks)) with (S (max_depth ks)). cbn [length]. apply le_n_S.
  induction IH as [|k l Hk Hl IHl]; [cbn; lia|]. change (max_depth (k :: l)) with (Nat.max (depth k) (max_depth l)).
  unfold kids_ids in *. cbn [flat_map]. rewrite app_length. lia.
Qed.

Definition freed (gone : list nat) (h h' : heap) : Prop := forall j, h' j = if in_dec Nat.eq_dec j gone then None else h j.
Lemma free_rep c : forall fuel h par, rep al h par c -> NoDup (ids c) -> depth c <= fuel ->
  exists h', h_free fuel (cmd_id c) h = Some h' /\ freed (ids c) h h'.
Proof.
  induction c as [j n e d p pd hh|j n e d pd hh|j n e d p ks IH] using cmd_ind2; intros fuel h par R D L;
    (destruct fuel as [|f]; [cbn in L; lia|]).
  1,2: cbn in R; cbn [h_free cmd_id]; rewrite R; eexists; (split; [reflexivity|]); intro i; unfold put;
    destruct (Nat.eqb_spec i j) as [->|N]; destruct (in_dec Nat.eq_dec _ _) as [[Q|[]]|Q]; try reflexivity;
    [destruct Q; left; reflexivity|symmetry in Q; contradiction].
  apply rep_menu in R as (R & K). cbn [h_free cmd_id]. rewrite R.
  change (depth (CMenu j n e d p ks)) with (S (max_depth ks)) in L. apply le_S_n in L.
  rewrite ids_menu in D. apply NoDup_cons_iff in D as (Dj & D).
  assert (G : exists h', fold_left (fun acc k => match acc with Some h1 => h_free f k h1 | None => None end) (map cmd_id ks) (Some h) = Some h' /\ freed (kids_ids ks) h h').
  { clear R Dj. revert h K D L. induction IH as [|k l Hk Hl IHl]; intros h K D L.
    - exists h. split; [reflexivity|]. intro i. destruct (in_dec _ _ _) as [[]|]; reflexivity.
    - change (max_depth (k :: l)) with (Nat.max (depth k) (max_depth l)) in L.
      apply Forall_cons_iff in K as (Kk & Kl). unfold kids_ids in D |- *. cbn [flat_map] in *. apply NoDup_app_iff in D as (D1 & D2 & D3).
      destruct (Hk f h (Some j) Kk D1 ltac:(lia)) as (h1 & E1 & F1). cbn [map fold_left]. rewrite E1.
      destruct (IHl h1) as (h2 & E2 & F2).
      + apply (rep_list_ext l h); [|exact Kl]. intros i Hi. rewrite F1. destruct (in_dec _ _ _) as [Q|Q]; [exfalso; exact (D3 _ Q Hi)|reflexivity].
      + exact D2.
      + lia.
      + exists h2. split; [exact E2|]. intro i. rewrite F2, F1.
        destruct (in_dec Nat.eq_dec i (kids_ids l)) as [Q|Q]; destruct (in_dec Nat.eq_dec i (ids k)) as [Q'|Q'];
          destruct (in_dec Nat.eq_dec i (ids k ++ flat_map ids l)) as [Q''|Q'']; try reflexivity; exfalso;
          rewrite in_app_iff in Q''; unfold kids_ids in Q; tauto. }
  destruct G as (h1 & -> & F). eexists. split; [reflexivity|]. intro i. rewrite ids_menu. unfold put.
  destruct (Nat.eqb_spec i j) as [->|N].
  - destruct (in_dec _ _ _) as [Q|Q]; [reflexivity|]. destruct Q. left. reflexivity.
  - rewrite F. destruct (in_dec Nat.eq_dec i (kids_ids ks)) as [Q|Q]; destruct (in_dec Nat.eq_dec i (j :: kids_ids ks)) as [Q'|Q']; try reflexivity; exfalso.
    + apply Q'. right. exact Q.
    + destruct Q' as [Q'|Q']; [symmetry in Q'|]; contradiction.
Qed.

(** ** Removing *)
Lemma erase_first x l1 l2 : ~ In x l1 -> erase x (l1 ++ x :: l2) = l1 ++ l2.
Proof.
  induction l1 as [|y l1 IH]; intro H; cbn [app erase].
  - rewrite Nat.eqb_refl. reflexivity.
  - destruct (Nat.eqb_spec y x) as [->|N]; [exfalso; apply H; left; reflexivity|]. rewrite IH; [reflexivity|]. intro Q. apply H. right. exact Q.
Qed.
Lemma erase_absent x l : ~ In x l -> erase x l = l.
Proof.
  induction l as [|y l IH]; intro H; [reflexivity|]. cbn [erase]. destruct (Nat.eqb_spec y x) as [->|N]; [exfalso; apply H; left; reflexivity|].
  rewrite IH; [reflexivity|]. intro Q. apply H. right. exact Q.
Qed.
Lemma remove_list_app id l1 l2 : ~ In id (kids_ids l1) -> remove_list id (l1 ++ l2) = l1 ++ remove_list id l2.
Proof.
  induction l1 as [|k l IH]; intro H; [reflexivity|]. unfold kids_ids in H. cbn [flat_map app] in *. rewrite in_app_iff in H. cbn [remove_list].
  destruct (Nat.eqb_spec (cmd_id k) id) as [<-|N]; [exfalso; apply H; left; apply ids_hd|].
  rewrite remove_absent by tauto. f_equal. apply IH. tauto.
Qed.
Lemma remove_list_absent id l : ~ In id (kids_ids l) -> remove_list id l = l.
Proof. intro H. rewrite <- (app_nil_r l) at 1. rewrite remove_list_app by exact H. cbn. apply app_nil_r. Qed.
Lemma heads_in l x : In x (map cmd_id l) -> In x (kids_ids l).
Proof. intro H. apply in_map_iff in H as (k & <- & Hk). apply in_kids_ids. exists k. split; [exact Hk|apply ids_hd]. Qed.

Lemma kid_strict c : forall h par m n e d p par' cmds id, rep al h par c -> NoDup (ids c) -> In m (ids c) ->
  h m = Some (BMenu n e d p par' cmds) -> In id cmds -> In id (ids c) /\ id <> cmd_id c.
Proof.
  induction c as [j nj ej dj pj pd hh|j nj ej dj pd hh|j nj ej dj pj ks IH] using cmd_ind2; intros h par m n e d p par' cmds id R D Hm Hh Hid.
  1,2: cbn in Hm; destruct Hm as [<-|[]]; cbn in R; congruence.
  apply rep_menu in R as (R & K). rewrite ids_menu in *. apply NoDup_cons_iff in D as (Dj & D).
  assert (G : In id (kids_ids ks)).
  { destruct Hm as [<-|Hm].
    - rewrite R in Hh. injection Hh as <- <- <- <- <- <-. apply heads_in. exact Hid.
    - apply in_kids_ids in Hm as (k & Hk & Hm). rewrite Forall_forall in IH, K.
      apply in_kids_ids. exists k. split; [exact Hk|]. eapply IH; eauto.
      apply in_split in Hk as (l1 & l2 & ->). rewrite kids_ids_app in D. apply NoDup_app_iff in D as (_ & D & _). cbn in D. apply NoDup_app_iff in D. apply D. }
  split; [right; exact G|]. cbn [cmd_id]. intros ->. contradiction.
Qed.

Lemma rep_remove id m n e d p par' cmds c : forall h par, rep al h par c -> NoDup (ids c) -> In m (ids c) ->
  h m = Some (BMenu n e d p par' cmds) -> In id cmds ->
  exists sub, cmd_id sub = id /\ rep al h (Some m) sub /\ ~ In m (ids sub) /\ Permutation (ids c) (ids sub ++ ids (remove_cmd id c)) /\
              rep al (put m (Some (BMenu n e d p par' (erase id cmds))) h) par (remove_cmd id c).
Proof.
  induction c as [j nj ej dj pj pd hh|j nj ej dj pd hh|j nj ej dj pj ks IH] using cmd_ind2; intros h par R D Hm Hh Hid.
  1,2: cbn in Hm; destruct Hm as [<-|[]]; cbn in R; congruence.
  apply rep_menu in R as (R & K). rewrite remove_menu. rewrite ids_menu in *. apply NoDup_cons_iff in D as (Dj & D).
  destruct (Nat.eq_dec m j) as [->|N].
  - rewrite R in Hh. injection Hh as <- <- <- <- <- <-.
    apply in_map_iff in Hid as (k & <- & Hk). apply in_split in Hk as (l1 & l2 & ->).
    pose proof D as D0. rewrite kids_ids_app in D. apply NoDup_app_iff in D as (D1 & D2 & D3).
    change (kids_ids (k :: l2)) with (ids k ++ kids_ids l2) in *. apply NoDup_app_iff in D2 as (D2 & D4 & D5).
    assert (A : ~ In (cmd_id k) (kids_ids l1)).
    { intro Q. apply (D3 _ Q). apply in_or_app. left. apply ids_hd. }
    rewrite remove_list_app by exact A. cbn [remove_list]. rewrite Nat.eqb_refl.
    apply Forall_app in K as (K1 & K2). apply Forall_cons_iff in K2 as (K2 & K3).
    exists k. split; [reflexivity|]. split; [exact K2|]. split.
    { intro Q. apply Dj. apply in_kids_ids. exists k. split; [apply in_or_app; right; left; reflexivity|exact Q]. }
    split.
    + rewrite ids_menu, !kids_ids_app. change (kids_ids (k :: l2)) with (ids k ++ kids_ids l2).
      rewrite <- Permutation_middle. constructor. rewrite Permutation_app_swap_app. reflexivity.
    + rewrite rep_menu. split.
      * rewrite put_same, !map_app. cbn [map]. rewrite erase_first; [reflexivity|]. intro Q. apply A. apply heads_in. exact Q.
      * apply (rep_list_ext _ h).
        -- intros i Hi. apply put_other. intros ->. apply Dj. rewrite kids_ids_app in *. change (kids_ids (k :: l2)) with (ids k ++ kids_ids l2).
           rewrite !in_app_iff in *. tauto.
        -- apply Forall_app. split; assumption.
  - destruct Hm as [Hm|Hm]; [symmetry in Hm; contradiction|]. apply in_kids_ids in Hm as (k & Hk & Hm).
    rewrite Forall_forall in IH. pose proof (IH k Hk) as IHk. clear IH.
    apply in_split in Hk as (l1 & l2 & ->). rewrite kids_ids_app in D. apply NoDup_app_iff in D as (D1 & D2 & D3).
    change (kids_ids (k :: l2)) with (ids k ++ kids_ids l2) in *. apply NoDup_app_iff in D2 as (D2 & D4 & D5).
    apply Forall_app in K as (K1 & K2). apply Forall_cons_iff in K2 as (K2 & K3).
    destruct (kid_strict k h (Some j) m n e d p par' cmds id K2 D2 Hm Hh Hid) as (S1 & S2).
    assert (A1 : ~ In id (kids_ids l1)) by (intro Q; apply (D3 _ Q); apply in_or_app; left; exact S1).
    assert (A2 : ~ In id (kids_ids l2)) by (intro Q; exact (D5 _ S1 Q)).
    rewrite remove_list_app by exact A1. cbn [remove_list].
    destruct (Nat.eqb_spec (cmd_id k) id) as [Q|_]; [symmetry in Q; contradiction|].
    fold (remove_list id). rewrite remove_list_absent by exact A2.
    destruct (IHk h (Some j) K2 D2 Hm Hh Hid) as (sub & B1 & B2 & B0 & B3 & B4).
    exists sub. split; [exact B1|]. split; [exact B2|]. split; [exact B0|]. split.
    + rewrite ids_menu, !kids_ids_app. change (kids_ids (k :: l2)) with (ids k ++ kids_ids l2).
      change (kids_ids (remove_cmd id k :: l2)) with (ids (remove_cmd id k) ++ kids_ids l2).
      rewrite <- Permutation_middle. constructor. rewrite (Permutation_app_swap_app (ids sub)). apply Permutation_app_head.
      rewrite app_assoc. apply Permutation_app_tail. exact B3.
    + rewrite rep_menu. split.
      * rewrite put_other by (intro Q; apply N; symmetry; exact Q). rewrite R, !map_app. cbn [map]. rewrite remove_id. reflexivity.
      * apply Forall_app. split; [|constructor].
        -- apply (rep_list_ext _ h); [|exact K1]. intros i Hi. apply put_other. intros ->. apply (D3 _ Hi). apply in_or_app. left. exact Hm.
        -- exact B4.
        -- apply (rep_list_ext _ h); [|exact K3]. intros i Hi. apply put_other. intros ->. exact (D5 _ Hm Hi).
Qed.

End Alone.

(** ** Lists of trees *)
Lemma menus_ids l x : In x (flat_map menus_of l) -> In x (kids_ids l).
Proof.
  intro H. apply in_flat_map in H as (k & Hk & H). rewrite menus_of_ids in H. apply in_kids_ids. exists k. split; [exact Hk|apply menu_ids_ids; exact H].
Qed.
Lemma list_nodup l k : NoDup (kids_ids l) -> In k l -> NoDup (ids k).
Proof. intros H Hk. apply in_split in Hk as (l1 & l2 & ->). rewrite kids_ids_app in H. apply NoDup_app_iff in H as (_ & H & _). cbn in H. apply NoDup_app_iff in H. apply H. Qed.
Lemma insert_list_ids m x l : NoDup (kids_ids l) -> In m (flat_map menus_of l) ->
  Permutation (kids_ids (map (insert_cmd m x) l)) (kids_ids l ++ ids x).
Proof.
  intros D H. apply in_flat_map in H as (k & Hk & H). rewrite menus_of_ids in H. pose proof (list_nodup _ _ D Hk) as Dk.
  apply in_split in Hk as (l1 & l2 & ->). rewrite kids_ids_app in D. apply NoDup_app_iff in D as (D1 & D2 & D3).
  change (kids_ids (k :: l2)) with (ids k ++ kids_ids l2) in *. apply NoDup_app_iff in D2 as (D2 & D4 & D5).
  pose proof (menu_ids_ids _ _ H) as H'.
  rewrite map_app. cbn [map]. rewrite !insert_map_absent.
  - rewrite !kids_ids_app. cbn. rewrite (insert_ids m x k Dk H). rewrite <- !app_assoc.
    apply Permutation_app_head. apply Permutation_app_head. apply Permutation_app_comm.
  - intro Q. exact (D5 _ H' Q).
  - intro Q. apply (D3 _ Q). apply in_or_app. left. exact H'.
Qed.
Lemma root_split m l c : NoDup (kids_ids l) -> find (is_root m) l = Some c ->
  exists l1 l2, l = l1 ++ c :: l2 /\ cmd_id c = m /\ filter (fun c => negb (is_root m c)) l = l1 ++ l2 /\ ~ In m (map cmd_id l1).
Proof.
  induction l as [|k l IH]; intros D H; [discriminate|]. cbn [find filter] in *. unfold is_root in *.
  change (kids_ids (k :: l)) with (ids k ++ kids_ids l) in D. apply NoDup_app_iff in D as (D1 & D2 & D3).
  destruct (Nat.eqb_spec (cmd_id k) m) as [E|N].
  - injection H as <-. exists [], l. split; [reflexivity|]. split; [exact E|]. cbn [negb app]. split; [|intros []].
    assert (A : forall x, In x l -> negb (Nat.eqb (cmd_id x) m) = true).
    { intros x Hx. destruct (Nat.eqb_spec (cmd_id x) m) as [E'|_]; [|reflexivity]. exfalso. apply (D3 (cmd_id k) (ids_hd k)).
      apply in_kids_ids. exists x. split; [exact Hx|]. rewrite E, <- E'. apply ids_hd. }
    clear -A. induction l as [|x l IH]; [reflexivity|]. cbn [filter]. rewrite A by (left; reflexivity). f_equal. apply IH. intros y Hy. apply A. right. exact Hy.
  - destruct (IH D2 H) as (l1 & l2 & -> & E & F & G). exists (k :: l1), l2. split; [reflexivity|]. split; [exact E|]. cbn [negb app map]. rewrite F. split; [reflexivity|].
    intros [Q|Q]; contradiction.
Qed.
Lemma root_find m l : In m (map cmd_id l) <-> exists c, find (is_root m) l = Some c.
Proof.
  induction l as [|k l IH]; cbn [map find].
  - split; [intros []|intros (c & H); discriminate].
  - unfold is_root at 1. destruct (Nat.eqb_spec (cmd_id k) m) as [E|N].
    + split; [eauto|]. intros _. left. exact E.
    + rewrite <- IH. split; [intros [Q|Q]; [contradiction|exact Q]|right; assumption].
Qed.
Lemma existsb_mem x l : existsb (Nat.eqb x) l = true <-> In x l.
Proof.
  rewrite existsb_exists. split.
  - intros (y & Hy & E). apply Nat.eqb_eq in E. subst y. exact Hy.
  - intro H. exists x. split; [exact H|apply Nat.eqb_refl].
Qed.
Lemma mem_in x l : mem x l = true <-> In x l.
Proof. unfold mem. destruct (in_dec _ _ _); split; intro; auto; discriminate. Qed.

(** ** The invariant *)
Definition handlers_ok (s : hstate) : Prop := forall c m, In (c, m) (s_hand s) ->
  c < s_next s /\ (s_heap s c <> None -> exists n e d p par cmds, s_heap s m = Some (BMenu n e d p par cmds) /\ In c cmds).
Definition alone_ok (f : forest) : Prop := forall i, In i (f_alone f) -> i < f_next f /\ ~ In i (map cmd_id (f_trees f)).
Definition hinv (s : hstate) (f : forest) : Prop :=
  represents s f /\ NoDup (all_ids f) /\ (forall i, In i (all_ids f) -> i < f_next f) /\ Forall is_menu (f_trees f) /\ handlers_ok s /\ alone_ok f.

Lemma insert_is_menu m x c : is_menu c -> is_menu (insert_cmd m x c).
Proof. intros (i & n & e & d & p & k & ->). rewrite insert_menu. unfold is_menu. eauto 10. Qed.
Lemma set_is_menu m b c : is_menu c -> is_menu (set_enabled m b c).
Proof. intros (i & n & e & d & p & k & ->). unfold is_menu. cbn. eauto 10. Qed.
Lemma remove_is_menu m c : is_menu c -> is_menu (remove_cmd m c).
Proof. intros (i & n & e & d & p & k & ->). unfold is_menu. rewrite remove_menu. eauto 10. Qed.
Lemma Forall_map_in {A B} (P : A -> Prop) (Q : B -> Prop) (f : A -> B) l : (forall x, In x l -> P x -> Q (f x)) -> Forall P l -> Forall Q (map f l).
Proof. intros H K. rewrite Forall_forall in *. intros y Hy. apply in_map_iff in Hy as (x & <- & Hx). auto. Qed.

Lemma insert_map_id m x l : map cmd_id (map (insert_cmd m x) l) = map cmd_id l.
Proof. rewrite map_map. apply map_ext. intros []; reflexivity. Qed.

Lemma hinv_init : hinv hs_init f_init.
Proof.
  split; [|split; [|split; [|split; [|split]]]].
  - split; [constructor|]. split; [|auto]. intro i. cbn. split; [intro H; congruence|intros []].
  - constructor.
  - intros i [].
  - constructor.
  - intros c m [].
  - intros i [].
Qed.

Lemma step_new n d p s f : hinv s f -> exists s', h_step (HNew n d p) s = Some s' /\ hinv s' (mkFor (f_trees f ++ [make_menu (f_next f) n d p []]) (S (f_next f)) (f_hand f) (f_alone f)).
Proof.
  intros ((R & L & O & Nx & Hn) & D & B & M & K & Y). eexists. split; [reflexivity|].
  assert (Fr : ~ In (s_next s) (all_ids f)) by (rewrite Nx; intro Q; apply B in Q; lia).
  assert (A : all_ids (mkFor (f_trees f ++ [make_menu (f_next f) n d p []]) (S (f_next f)) (f_hand f) (f_alone f)) = all_ids f ++ [s_next s]).
  { unfold all_ids. cbn [f_trees]. change (flat_map ids) with kids_ids. rewrite kids_ids_app, Nx. reflexivity. }
  split; [|split; [|split; [|split; [|split]]]].
  - split; [|split; [|split; [|split]]]; cbn [s_heap s_next s_owned s_hand f_trees f_next f_hand f_alone].
    + apply Forall_app. split.
      * apply (rep_list_ext _ (s_heap s)); [|exact R]. intros i Hi. apply put_other. intros ->. contradiction.
      * constructor; [|constructor]. unfold make_menu. rewrite rep_menu. split; [|constructor]. rewrite Nx, put_same. destruct (mem _ _); reflexivity.
    + intro i. rewrite A, in_app_iff, <- L. destruct (Nat.eq_dec i (s_next s)) as [->|N].
      * rewrite put_same. split; [intros _; right; left; reflexivity|discriminate].
      * rewrite put_other by exact N. split; [tauto|]. intros [Q|[Q|[]]]; [exact Q|]. symmetry in Q. contradiction.
    + rewrite map_app, O, Nx. reflexivity.
    + rewrite Nx. reflexivity.
    + exact Hn.
  - rewrite A. apply NoDup_app_iff. split; [exact D|]. split; [constructor; [intros []|constructor]|]. intros x Hx [Q|[]]. subst x. contradiction.
  - intros i Hi. rewrite A in Hi. cbn [f_next]. apply in_app_iff in Hi as [Hi|[<-|[]]]; [apply B in Hi; lia|lia].
  - cbn [f_trees]. apply Forall_app. split; [exact M|]. constructor; [|constructor]. unfold is_menu, make_menu. eauto 10.
  - intros c m Hc. cbn [s_hand s_next s_heap] in *. destruct (K c m Hc) as (K1 & K2). split; [lia|].
    rewrite put_other by lia. intro Q. destruct (K2 Q) as (n' & e & d' & p' & par & cmds & E & I). exists n', e, d', p', par, cmds. split; [|exact I].
    rewrite put_other; [exact E|]. intros ->. apply Fr. apply L. rewrite E. discriminate.
  - intros i Hi. cbn [f_alone f_next f_trees] in *. destruct (Y i Hi) as (Y1 & Y2). split; [lia|]. rewrite map_app. intro Q.
    apply in_app_iff in Q as [Q|[Q|[]]]; [contradiction|]. cbn in Q. lia.
Qed.


(** Inserting the objects of [x], already in memory, into the menu [m]. *)
Lemma link_inv {al} h m x trees : Forall (rep al h None) trees -> NoDup (kids_ids trees ++ ids x) -> In m (flat_map menus_of trees) ->
  rep al h (Some m) x ->
  Forall (rep al (h_link m (cmd_id x) h) None) (map (insert_cmd m x) trees).
Proof.
  intros R D Hm X. apply NoDup_app_iff in D as (D1 & D2 & D3).
  apply (Forall_map_in (rep al h None)); [|exact R]. intros k Hk Rk. apply rep_insert; [exact Rk|].
  apply (rep_ext x h); [|exact X]. intros i Hi. apply link_other. intros ->. apply (D3 m); [|exact Hi]. apply menus_ids. exact Hm.
Qed.
Lemma link_hand h m i c m' : (h c <> None -> exists n e d p par cmds, h m' = Some (BMenu n e d p par cmds) /\ In c cmds) ->
  h_link m i h c <> None -> exists n e d p par cmds, h_link m i h m' = Some (BMenu n e d p par cmds) /\ In c cmds.
Proof.
  intros H Q. apply link_live in Q. destruct (H Q) as (n & e & d & p & par & cmds & E & I).
  destruct (Nat.eq_dec m' m) as [->|N].
  - unfold h_link. rewrite E. rewrite put_same. do 6 eexists. split; [reflexivity|]. apply in_or_app. left. exact I.
  - rewrite link_other by exact N. eauto 10.
Qed.
Lemma menu_in_list {al} l h m : Forall (rep al h None) l -> In m (flat_map menus_of l) -> exists n e d p par cmds, h m = Some (BMenu n e d p par cmds).
Proof.
  intros R Hm. apply in_flat_map in Hm as (k & Hk & Hm). rewrite menus_of_ids in Hm. rewrite Forall_forall in R. eapply rep_is_menu; eauto.
Qed.

Lemma step_insert m l s f f' : hinv s f -> f_step (HInsert m l) f = Some f' -> exists s', h_step (HInsert m l) s = Some s' /\ hinv s' f'.
Proof.
  intros ((R & L & O & Nx & Hn) & D & B & M & K & Y) F. cbn [f_step] in F. destruct (mem m (all_menus f)) eqn:Em; [|discriminate].
  injection F as <-. apply mem_in in Em. cbn [h_step]. unfold all_menus in Em.
  destruct (menu_in_list _ _ _ R Em) as (n & e & d & p & par & cmds & Hm). rewrite Hm.
  assert (Fr : ~ In (s_next s) (all_ids f)) by (rewrite Nx; intro Q; apply B in Q; lia).
  assert (Ne : m <> s_next s) by (intros ->; apply Fr; apply menus_ids; exact Em).
  set (x := leaf_cmd (f_next f) l). assert (Ix : cmd_id x = s_next s) by (rewrite Nx; destruct l; reflexivity).
  assert (Ids : ids x = [s_next s]) by (rewrite Nx; destruct l; reflexivity).
  set (h0 := put (s_next s) (Some (leaf_obj l)) (s_heap s)).
  assert (H0m : h0 m = Some (BMenu n e d p par cmds)) by (unfold h0; rewrite put_other by exact Ne; exact Hm).
  assert (G : put m (Some (BMenu n e d p par (cmds ++ [s_next s]))) h0 = h_link m (cmd_id x) h0).
  { unfold h_link. rewrite H0m, Ix. reflexivity. }
  eexists. split; [reflexivity|]. fold h0. rewrite G.
  assert (R0 : Forall (rep (f_alone f) h0 None) (f_trees f)).
  { apply (rep_list_ext _ (s_heap s)); [|exact R]. intros i Hi. apply put_other. intros ->. contradiction. }
  assert (X0 : rep (f_alone f) h0 (Some m) x).
  { unfold h0, x. rewrite Nx. destruct l; cbn; apply put_same. }
  assert (D' : NoDup (kids_ids (f_trees f) ++ ids x)).
  { rewrite Ids. apply NoDup_app_iff. split; [exact D|]. split; [constructor; [intros []|constructor]|]. intros y Hy [Q|[]]. subst y. contradiction. }
  pose proof (insert_list_ids m x _ D Em) as P.
  split; [|split; [|split; [|split; [|split]]]].
  - split; [|split; [|split; [|split]]]; cbn [s_heap s_next s_owned s_hand f_trees f_next f_hand f_alone].
    + apply link_inv; assumption.
    + intro i. unfold all_ids. cbn [f_trees]. change (flat_map ids) with kids_ids. rewrite link_live. split.
      * intro Q. apply (Permutation_in _ (Permutation_sym P)). rewrite Ids. apply in_or_app.
        unfold h0 in Q. destruct (Nat.eq_dec i (s_next s)) as [->|N]; [right; left; reflexivity|]. rewrite put_other in Q by exact N. left. apply L. exact Q.
      * intro Q. apply (Permutation_in _ P) in Q. rewrite Ids in Q. unfold h0. destruct (Nat.eq_dec i (s_next s)) as [->|N]; [rewrite put_same; discriminate|].
        rewrite put_other by exact N. apply L. apply in_app_iff in Q as [Q|[Q|[]]]; [exact Q|]. symmetry in Q. contradiction.
    + rewrite insert_map_id. exact O.
    + rewrite Nx. reflexivity.
    + rewrite map_app, Hn, Nx. reflexivity.
  - unfold all_ids. cbn [f_trees]. apply (Permutation_NoDup (Permutation_sym P)). exact D'.
  - intros i Hi. unfold all_ids in Hi. cbn [f_trees f_next] in *. apply (Permutation_in _ P) in Hi. rewrite Ids in Hi.
    apply in_app_iff in Hi as [Hi|[<-|[]]]; [apply B in Hi; lia|lia].
  - cbn [f_trees]. apply (Forall_map_in is_menu); [|exact M]. intros. apply insert_is_menu. assumption.
  - intros c m' Hc. cbn [s_hand s_next s_heap] in *. apply in_app_iff in Hc as [Hc|[Hc|[]]].
    + destruct (K c m' Hc) as (K1 & K2). split; [lia|]. apply link_hand. unfold h0. rewrite put_other by lia. intro Q.
      destruct (K2 Q) as (n' & e' & d' & p' & par' & cmds' & E & I). exists n', e', d', p', par', cmds'. split; [|exact I].
      rewrite put_other; [exact E|]. intros ->. apply Fr. apply L. rewrite E. discriminate.
    + injection Hc as <- <-. split; [lia|]. intros _. unfold h_link. rewrite H0m, put_same. do 6 eexists. split; [reflexivity|].
      apply in_or_app. right. left. exact Ix.
  - intros i Hi. cbn [f_alone f_next f_trees] in *. destruct (Y i Hi) as (Y1 & Y2). split; [lia|]. rewrite insert_map_id. exact Y2.
Qed.

Lemma rep_reparent {al} h par par' x n e d p par0 cmds : ~ In (cmd_id x) al -> is_menu x -> NoDup (ids x) -> rep al h par x -> h (cmd_id x) = Some (BMenu n e d p par0 cmds) ->
  rep al (put (cmd_id x) (Some (BMenu n e d p par' cmds)) h) par' x.
Proof.
  intros A (i & n' & e' & d' & p' & ks & ->) D R E. cbn [cmd_id] in *. rewrite rep_menu in *. destruct R as (R & K).
  rewrite R in E. injection E as -> -> -> -> _ <-. split; [rewrite put_same; destruct (mem i al) eqn:Q; [apply mem_in in Q; contradiction|reflexivity]|]. rewrite ids_menu in D. apply NoDup_cons_iff in D as (D & _).
  apply (rep_list_ext _ h); [|exact K]. intros j Hj. apply put_other. intros ->. contradiction.
Qed.

Lemma step_insert_menu m x s f f' : hinv s f -> f_step (HInsertMenu m x) f = Some f' -> exists s', h_step (HInsertMenu m x) s = Some s' /\ hinv s' f'.
Proof.
  intros ((R & L & O & Nx & Hn) & D & B & M & K & Y) F. cbn [f_step] in F. destruct (find (is_root x) (f_trees f)) as [c|] eqn:Ec; [|discriminate].
  destruct (root_split _ _ _ D Ec) as (l1 & l2 & El & Ic & Er & N1). rewrite Er in F.
  destruct (mem m (flat_map menus_of (l1 ++ l2))) eqn:Em; [|discriminate]. injection F as <-. apply mem_in in Em.
  assert (Ow : existsb (Nat.eqb x) (s_owned s) = true).
  { apply existsb_mem. rewrite O. apply root_find. eauto. }
  assert (Hc : In c (f_trees f)) by (rewrite El; apply in_or_app; right; left; reflexivity).
  assert (Mc : is_menu c) by (rewrite Forall_forall in M; auto).
  assert (Rc : rep (f_alone f) (s_heap s) None c) by (rewrite Forall_forall in R; auto).
  assert (Dc : NoDup (ids c)) by (eapply list_nodup; eauto).
  pose proof D as D0. unfold all_ids in D. rewrite El in D. change (flat_map ids) with kids_ids in D. rewrite kids_ids_app in D.
  change (kids_ids (c :: l2)) with (ids c ++ kids_ids l2) in D.
  assert (P0 : Permutation (kids_ids (f_trees f)) (kids_ids (l1 ++ l2) ++ ids c)).
  { rewrite El, !kids_ids_app. change (kids_ids (c :: l2)) with (ids c ++ kids_ids l2). rewrite <- app_assoc.
    apply Permutation_app_head. apply Permutation_app_comm. }
  pose proof (Permutation_NoDup P0 D0) as D1.
  pose proof D1 as D2. apply NoDup_app_iff in D2 as (D2 & _ & D3).
  assert (Mn : ~ In m (ids c)) by (intro Q; exact (D3 _ (menus_ids _ _ Em) Q)).
  assert (Xm : m <> x) by (intros ->; apply Mn; rewrite <- Ic; apply ids_hd).
  assert (Rl : Forall (rep (f_alone f) (s_heap s) None) (l1 ++ l2)).
  { rewrite Forall_forall in *. intros k Hk. apply R. rewrite El. apply in_app_iff in Hk. apply in_or_app. destruct Hk; [left|right; right]; assumption. }
  destruct (menu_in_list _ _ _ Rl Em) as (n & e & d & p & par & cmds & Hm).
  assert (Hx : exists n e d p cmds, s_heap s (cmd_id c) = Some (BMenu n e d p None cmds)).
  { destruct Mc as (i' & n' & e' & d' & p' & ks & ->). apply rep_menu in Rc as (Rc & _). cbn [cmd_id]. destruct (mem i' _); eauto 10. }
  destruct Hx as (nx & ex & dx & px & cx & Hx). rewrite Ic in Hx.
  cbn [h_step]. rewrite Ow, Hx.
  set (h1 := put x (Some (BMenu nx ex dx px (Some m) cx)) (s_heap s)).
  assert (H1m : h1 m = Some (BMenu n e d p par cmds)) by (unfold h1; rewrite put_other by exact Xm; exact Hm).
  rewrite H1m. eexists. split; [reflexivity|].
  assert (G : put m (Some (BMenu n e d p par (cmds ++ [x]))) h1 = h_link m (cmd_id c) h1).
  { unfold h_link. rewrite H1m, Ic. reflexivity. }
  rewrite G.
  assert (R1 : Forall (rep (f_alone f) h1 None) (l1 ++ l2)).
  { apply (rep_list_ext _ (s_heap s)); [|exact Rl]. intros i Hi. apply put_other. intros ->. apply (D3 _ Hi). rewrite <- Ic. apply ids_hd. }
  assert (X1 : rep (f_alone f) h1 (Some m) c).
  { unfold h1. rewrite <- Ic. apply (rep_reparent _ None _ _ nx ex dx px None cx); try assumption; [|rewrite Ic; exact Hx]. intro Q. apply Y in Q as (_ & Q). apply Q. apply in_map. exact Hc. }
  assert (Lv : forall i, h1 i <> None <-> s_heap s i <> None).
  { intro i. unfold h1. destruct (Nat.eq_dec i x) as [->|N]; [rewrite put_same, Hx; split; discriminate|rewrite put_other by exact N; reflexivity]. }
  pose proof (insert_list_ids m c _ D2 Em) as P.
  assert (P1 : Permutation (kids_ids (map (insert_cmd m c) (l1 ++ l2))) (all_ids f)).
  { rewrite P. symmetry. exact P0. }
  split; [|split; [|split; [|split; [|split]]]].
  - split; [|split; [|split; [|split]]]; cbn [s_heap s_next s_owned s_hand f_trees f_next f_hand f_alone].
    + apply link_inv; assumption.
    + intro i. unfold all_ids at 1. cbn [f_trees]. change (flat_map ids) with kids_ids. rewrite link_live, Lv, L. split; apply Permutation_in; [symmetry|]; exact P1.
    + rewrite insert_map_id, O, El, !map_app. cbn [map]. rewrite Ic. apply erase_first. exact N1.
    + exact Nx.
    + rewrite map_app, Hn. reflexivity.
  - unfold all_ids. cbn [f_trees]. apply (Permutation_NoDup (Permutation_sym P1)). exact D0.
  - intros i Hi. unfold all_ids in Hi. cbn [f_trees f_next] in *. apply (Permutation_in _ P1) in Hi. apply B. exact Hi.
  - cbn [f_trees]. apply (Forall_map_in is_menu); [intros; apply insert_is_menu; assumption|].
    rewrite Forall_forall in *. intros k Hk. apply M. rewrite El. apply in_app_iff in Hk. apply in_or_app. destruct Hk; [left|right; right]; assumption.
  - intros c' m' Hc'. cbn [s_hand s_next s_heap] in *. apply in_app_iff in Hc' as [Hc'|[Hc'|[]]].
    + destruct (K c' m' Hc') as (K1 & K2). split; [exact K1|]. apply link_hand. rewrite Lv. intro Q.
      destruct (K2 Q) as (n' & e' & d' & p' & par' & cmds' & E & I). unfold h1.
      destruct (Nat.eq_dec m' x) as [->|N].
      * rewrite put_same. rewrite Hx in E. injection E as <- <- <- <- <- <-. eauto 10.
      * rewrite put_other by exact N. eauto 10.
    + injection Hc' as <- <-. split; [|].
      * rewrite Nx. apply B. apply L. rewrite Hx. discriminate.
      * intros _. unfold h_link. rewrite H1m, put_same. do 6 eexists. split; [reflexivity|].
        apply in_or_app. right. left. exact Ic.
  - intros i Hi. cbn [f_alone f_next f_trees] in *. destruct (Y i Hi) as (Y1 & Y2). split; [exact Y1|]. rewrite insert_map_id. intro Q. apply Y2.
    rewrite El, map_app. cbn [map]. rewrite map_app in Q. apply in_app_iff in Q. apply in_or_app. destruct Q; [left|right; right]; assumption.
Qed.

Lemma rep_alone_ext {al} al' c : forall h par, (forall i, In i (menus_of c) -> mem i al' = mem i al) -> rep al h par c -> rep al' h par c.
Proof.
  induction c as [j n e d p pd hh|j n e d pd hh|j n e d p ks IH] using cmd_ind2; intros h par H R; try exact R.
  apply rep_menu in R as (R & K). apply rep_menu. split; [rewrite H by (left; reflexivity); exact R|].
  rewrite Forall_forall in *. intros k Hk. apply (IH k Hk); [|auto]. intros i Hi. apply H. right. apply in_flat_map. eauto.
Qed.
Lemma rep_marked {al} h x : rep al h None x -> NoDup (ids x) -> forall par, rep (cmd_id x :: al) h par x.
Proof.
  intros R D par. destruct x as [j n e d p pd hh|j n e d pd hh|j n e d p ks]; try exact R.
  apply rep_menu in R as (R & K). apply rep_menu. cbn [cmd_id]. rewrite ids_menu in D. apply NoDup_cons_iff in D as (D & _). split.
  - assert (Q : mem j (j :: al) = true) by (apply mem_in; left; reflexivity). rewrite Q, R. destruct (mem j al); reflexivity.
  - rewrite Forall_forall in *. intros k Hk. apply (rep_alone_ext (al := al)); [|auto]. intros i Hi. unfold mem.
    destruct (in_dec _ i (j :: al)) as [[Q|Q]|Q]; destruct (in_dec _ i al) as [Q'|Q']; try reflexivity; try contradiction.
    + subst i. exfalso. apply D. apply in_kids_ids. exists k. split; [exact Hk|]. rewrite menus_of_ids in Hi. apply menu_ids_ids. exact Hi.
    + exfalso. apply Q. right. exact Q'.
Qed.

Lemma step_insert_cmd m x s f f' : hinv s f -> f_step (HInsertCmd m x) f = Some f' -> exists s', h_step (HInsertCmd m x) s = Some s' /\ hinv s' f'.
Proof.
  intros ((R & L & O & Nx & Hn) & D & B & M & K & Y) F. cbn [f_step] in F. destruct (find (is_root x) (f_trees f)) as [c|] eqn:Ec; [|discriminate].
  destruct (root_split _ _ _ D Ec) as (l1 & l2 & El & Ic & Er & N1). rewrite Er in F.
  destruct (mem m (flat_map menus_of (l1 ++ l2))) eqn:Em; [|discriminate]. injection F as <-. apply mem_in in Em.
  assert (Ow : existsb (Nat.eqb x) (s_owned s) = true).
  { apply existsb_mem. rewrite O. apply root_find. eauto. }
  assert (Hc : In c (f_trees f)) by (rewrite El; apply in_or_app; right; left; reflexivity).
  assert (Mc : is_menu c) by (rewrite Forall_forall in M; auto).
  assert (Rc : rep (f_alone f) (s_heap s) None c) by (rewrite Forall_forall in R; auto).
  assert (Dc : NoDup (ids c)) by (eapply list_nodup; eauto).
  pose proof D as D0. unfold all_ids in D. rewrite El in D. change (flat_map ids) with kids_ids in D. rewrite kids_ids_app in D.
  change (kids_ids (c :: l2)) with (ids c ++ kids_ids l2) in D.
  assert (P0 : Permutation (kids_ids (f_trees f)) (kids_ids (l1 ++ l2) ++ ids c)).
  { rewrite El, !kids_ids_app. change (kids_ids (c :: l2)) with (ids c ++ kids_ids l2). rewrite <- app_assoc.
    apply Permutation_app_head. apply Permutation_app_comm. }
  pose proof (Permutation_NoDup P0 D0) as D1.
  pose proof D1 as D2. apply NoDup_app_iff in D2 as (D2 & _ & D3).
  assert (Xc : In x (ids c)) by (rewrite <- Ic; apply ids_hd).
  assert (Rl : Forall (rep (x :: f_alone f) (s_heap s) None) (l1 ++ l2)).
  { rewrite Forall_forall in *. intros k Hk. apply (rep_alone_ext (al := f_alone f)).
    - intros i Hi. unfold mem. destruct (in_dec _ i (x :: f_alone f)) as [[Q|Q]|Q]; destruct (in_dec _ i (f_alone f)) as [Q'|Q']; try reflexivity; try contradiction.
      + subst i. exfalso. apply (D3 x); [|exact Xc]. apply in_kids_ids. exists k. split; [exact Hk|]. rewrite menus_of_ids in Hi. apply menu_ids_ids. exact Hi.
      + exfalso. apply Q. right. exact Q'.
    - apply R. rewrite El. apply in_app_iff in Hk. apply in_or_app. destruct Hk; [left|right; right]; assumption. }
  destruct (menu_in_list _ _ _ Rl Em) as (n & e & d & p & par & cmds & Hm).
  assert (Hx : exists n e d p par cmds, s_heap s x = Some (BMenu n e d p par cmds)).
  { rewrite <- Ic. destruct Mc as (i' & n' & e' & d' & p' & ks & ->). apply rep_menu in Rc as (Rc & _). cbn [cmd_id]. eauto 10. }
  destruct Hx as (nx & ex & dx & px & prx & cx & Hx).
  cbn [h_step]. rewrite Ow, Hx, Hm. eexists. split; [reflexivity|].
  assert (G : put m (Some (BMenu n e d p par (cmds ++ [x]))) (s_heap s) = h_link m (cmd_id c) (s_heap s)).
  { unfold h_link. rewrite Hm, Ic. reflexivity. }
  rewrite G.
  assert (X1 : rep (x :: f_alone f) (s_heap s) (Some m) c) by (rewrite <- Ic; apply rep_marked; assumption).
  pose proof (insert_list_ids m c _ D2 Em) as P.
  assert (P1 : Permutation (kids_ids (map (insert_cmd m c) (l1 ++ l2))) (all_ids f)).
  { rewrite P. symmetry. exact P0. }
  split; [|split; [|split; [|split; [|split]]]].
  - split; [|split; [|split; [|split]]]; cbn [s_heap s_next s_owned s_hand f_trees f_next f_hand f_alone].
    + apply link_inv; assumption.
    + intro i. unfold all_ids at 1. cbn [f_trees]. change (flat_map ids) with kids_ids. rewrite link_live, L. split; apply Permutation_in; [symmetry|]; exact P1.
    + rewrite insert_map_id, O, El, !map_app. cbn [map]. rewrite Ic. apply erase_first. exact N1.
    + exact Nx.
    + rewrite map_app, Hn. reflexivity.
  - unfold all_ids. cbn [f_trees]. apply (Permutation_NoDup (Permutation_sym P1)). exact D0.
  - intros i Hi. unfold all_ids in Hi. cbn [f_trees f_next] in *. apply (Permutation_in _ P1) in Hi. apply B. exact Hi.
  - cbn [f_trees]. apply (Forall_map_in is_menu); [intros; apply insert_is_menu; assumption|].
    rewrite Forall_forall in *. intros k Hk. apply M. rewrite El. apply in_app_iff in Hk. apply in_or_app. destruct Hk; [left|right; right]; assumption.
  - intros c' m' Hc'. cbn [s_hand s_next s_heap] in *. apply in_app_iff in Hc' as [Hc'|[Hc'|[]]].
    + destruct (K c' m' Hc') as (K1 & K2). split; [exact K1|]. apply link_hand. exact K2.
    + injection Hc' as <- <-. split; [|].
      * rewrite Nx. apply B. apply L. rewrite Hx. discriminate.
      * intros _. unfold h_link. rewrite Hm, put_same. do 6 eexists. split; [reflexivity|].
        apply in_or_app. right. left. exact Ic.
  - intros i Hi. cbn [f_alone f_next f_trees] in *. rewrite insert_map_id. destruct Hi as [<-|Hi].
    + split; [apply B, L; rewrite Hx; discriminate|]. intro Q. apply (D3 x); [|exact Xc]. apply heads_in. exact Q.
    + destruct (Y i Hi) as (Y1 & Y2). split; [exact Y1|]. intro Q. apply Y2.
      rewrite El, map_app. cbn [map]. rewrite map_app in Q. apply in_app_iff in Q. apply in_or_app. destruct Q; [left|right; right]; assumption.
Qed.

Lemma set_inv i b s f : hinv s f -> hinv (mkHS (h_set i b (s_heap s)) (s_next s) (s_owned s) (s_hand s)) (mkFor (map (set_enabled i b) (f_trees f)) (f_next f) (f_hand f) (f_alone f)).
Proof.
  intros ((R & L & O & Nx & Hn) & D & B & M & K & Y).
  assert (A : all_ids (mkFor (map (set_enabled i b) (f_trees f)) (f_next f) (f_hand f) (f_alone f)) = all_ids f).
  { unfold all_ids. cbn [f_trees]. rewrite flat_map_map. apply flat_map_ext_in. intros. apply set_enabled_ids. }
  split; [|split; [|split; [|split; [|split]]]].
  - split; [|split; [|split; [|split]]]; cbn [s_heap s_next s_owned s_hand f_trees f_next f_hand f_alone]; auto.
    + apply (Forall_map_in (rep (f_alone f) (s_heap s) None)); [|exact R]. intros. apply rep_set. assumption.
    + intro j. rewrite A, set_live. apply L.
    + rewrite map_map, O. apply map_ext. intro. symmetry. apply set_enabled_id.
  - rewrite A. exact D.
  - rewrite A. exact B.
  - cbn [f_trees]. apply (Forall_map_in is_menu); [|exact M]. intros. apply set_is_menu. assumption.
  - intros c m Hc. cbn [s_hand s_next s_heap] in *. destruct (K c m Hc) as (K1 & K2). split; [exact K1|]. rewrite set_live. intro Q.
    destruct (K2 Q) as (n & e & d & p & par & cmds & E & I). destruct (Nat.eq_dec m i) as [->|N].
    + unfold h_set. rewrite E, put_same. eauto 10.
    + rewrite set_other by exact N. eauto 10.
  - intros j Hj. cbn [f_alone f_next f_trees] in *. destruct (Y j Hj) as (Y1 & Y2). split; [exact Y1|]. rewrite map_map.
    rewrite (map_ext (fun x => cmd_id (set_enabled i b x)) cmd_id) by apply set_enabled_id. exact Y2.
Qed.
Lemma step_set m b s f f' : hinv s f -> f_step (HSet m b) f = Some f' -> exists s', h_step (HSet m b) s = Some s' /\ hinv s' f'.
Proof.
  intros H F. cbn [f_step] in F. destruct (mem m (all_menus f)) eqn:Em; [|discriminate]. injection F as <-. apply mem_in in Em.
  pose proof H as ((R & _) & _). destruct (menu_in_list _ _ _ R Em) as (n & e & d & p & par & cmds & Hm).
  cbn [h_step]. rewrite Hm. eexists. split; [reflexivity|]. apply set_inv. exact H.
Qed.
Lemma nth_error_fst (l : list (nat * nat)) k : nth_error (map fst l) k = option_map fst (nth_error l k).
Proof. revert k. induction l as [|x l IH]; intros [|k]; try reflexivity. apply IH. Qed.
Lemma step_hand_set k b s f f' : hinv s f -> f_step (HHandSet k b) f = Some f' -> exists s', h_step (HHandSet k b) s = Some s' /\ hinv s' f'.
Proof.
  intros H F. pose proof H as ((_ & _ & _ & _ & Hn) & _). cbn [f_step h_step] in *. rewrite <- Hn, nth_error_fst in F.
  destruct (nth_error (s_hand s) k) as [(c, m)|]; cbn [option_map fst] in F.
  - rewrite Hn in F. injection F as <-. eexists. split; [reflexivity|]. apply set_inv. exact H.
  - injection F as <-. exists s. split; [reflexivity|exact H].
Qed.

Lemma remove_list_map id l : ~ In id (map cmd_id l) -> remove_list id l = map (remove_cmd id) l.
Proof.
  induction l as [|k l IH]; intro H; [reflexivity|]. cbn [remove_list map] in *.
  destruct (Nat.eqb_spec (cmd_id k) id) as [E|N]; [destruct H; left; exact E|]. f_equal. apply IH. intro Q. apply H. right. exact Q.
Qed.
Lemma remove_map_absent id l : ~ In id (kids_ids l) -> map (remove_cmd id) l = l.
Proof.
  intro H. rewrite <- (map_id l) at 2. apply map_ext_in. intros k Hk. apply remove_absent. intro Q. apply H. apply in_kids_ids. eauto.
Qed.
Lemma in_erase x y l : y <> x -> In y l -> In y (erase x l).
Proof.
  intros N. induction l as [|z l IH]; intro H; [destruct H|]. cbn [erase]. destruct H as [->|H].
  - destruct (Nat.eqb_spec y x) as [E|_]; [contradiction|left; reflexivity].
  - destruct (Nat.eqb_spec z x); [exact H|right; auto].
Qed.
Lemma ids_bound l n : NoDup l -> (forall i, In i l -> i < n) -> length l <= n.
Proof. intros D B. rewrite <- (seq_length n 0). apply NoDup_incl_length; [exact D|]. intros i Hi. apply in_seq. apply B in Hi. lia. Qed.

Lemma step_hand_remove k s f f' : hinv s f -> f_step (HHandRemove k) f = Some f' -> exists s', h_step (HHandRemove k) s = Some s' /\ hinv s' f'.
Proof.
  intros H F. pose proof H as ((R & L & O & Nx & Hn) & D & B & M & K & Y). cbn [f_step h_step] in *. rewrite <- Hn, nth_error_fst in F.
  destruct (nth_error (s_hand s) k) as [(c, m)|] eqn:Ek; cbn [option_map fst] in F; injection F as <-; [|exists s; split; [reflexivity|exact H]].
  apply nth_error_In in Ek. destruct (K _ _ Ek) as (K1 & K2). rewrite Hn.
  destruct (s_heap s c) as [oc|] eqn:Ec.
  2:{ assert (A : ~ In c (kids_ids (f_trees f))) by (intro Q; apply L in Q; congruence).
      exists s. split; [destruct (s_heap s m) as [[]|]; reflexivity|]. rewrite remove_map_absent by exact A. destruct f; exact H. }
  destruct K2 as (n & e & d & p & par & cmds & Hm & I); [discriminate|]. rewrite Hm.
  assert (I' : existsb (Nat.eqb c) cmds = true) by (apply existsb_mem; exact I). rewrite I'.
  assert (Lm : In m (kids_ids (f_trees f))) by (apply L; rewrite Hm; discriminate).
  apply in_kids_ids in Lm as (t & Ht & Lm). pose proof (list_nodup _ _ D Ht) as Dt.
  assert (Rt : rep (f_alone f) (s_heap s) None t) by (rewrite Forall_forall in R; auto).
  destruct (rep_remove c m n e d p par cmds t _ _ Rt Dt Lm Hm I) as (sub & S1 & S2 & S0 & S3 & S4).
  set (h1 := put m (Some (BMenu n e d p par (erase c cmds))) (s_heap s)) in *.
  pose proof (Permutation_NoDup S3 Dt) as Ds. apply NoDup_app_iff in Ds as (Ds & Dr & Dx).
  assert (Hsub : forall i, In i (ids sub) -> In i (ids t)).
  { intros i Hi. apply (Permutation_in _ (Permutation_sym S3)). apply in_or_app. left. exact Hi. }
  assert (Bsub : depth sub <= s_next s).
  { etransitivity; [apply depth_ids|]. apply ids_bound; [exact Ds|]. intros i Hi. rewrite Nx. apply B. apply in_kids_ids. eauto. }
  destruct (free_rep (al := f_alone f) sub (s_next s) h1 (Some m)) as (h2 & E2 & F2); [|exact Ds|exact Bsub|].
  { apply (rep_ext sub (s_heap s)); [|exact S2]. intros i Hi. apply put_other. intros ->. contradiction. }
  rewrite S1 in E2. rewrite E2. eexists. split; [reflexivity|].
  assert (Cs : In c (ids sub)) by (rewrite <- S1; apply ids_hd).
  apply in_split in Ht as (l1 & l2 & El).
  unfold all_ids in D, B, L. change (flat_map ids) with kids_ids in D, B, L.
  rewrite El in R, L, D, B, O |- *. rewrite kids_ids_app in D, B, L. change (kids_ids (t :: l2)) with (ids t ++ kids_ids l2) in D, B, L.
  apply NoDup_app_iff in D as (D1 & D2 & D3). apply NoDup_app_iff in D2 as (_ & D4 & D5).
  assert (A1 : ~ In c (kids_ids l1)) by (intro Q; apply (D3 _ Q); apply in_or_app; left; auto).
  assert (A2 : ~ In c (kids_ids l2)) by (intro Q; exact (D5 _ (Hsub _ Cs) Q)).
  rewrite map_app. cbn [map]. rewrite !remove_map_absent by assumption.
  assert (P : Permutation (kids_ids (l1 ++ t :: l2)) (ids sub ++ kids_ids (l1 ++ remove_cmd c t :: l2))).
  { rewrite !kids_ids_app. change (kids_ids (t :: l2)) with (ids t ++ kids_ids l2). change (kids_ids (remove_cmd c t :: l2)) with (ids (remove_cmd c t) ++ kids_ids l2).
    rewrite (Permutation_app_swap_app (ids sub)). apply Permutation_app_head. rewrite app_assoc. apply Permutation_app_tail. exact S3. }
  assert (DP : NoDup (ids sub ++ kids_ids (l1 ++ remove_cmd c t :: l2))).
  { apply (Permutation_NoDup P). rewrite kids_ids_app. change (kids_ids (t :: l2)) with (ids t ++ kids_ids l2).
    apply NoDup_app_iff. split; [exact D1|]. split; [apply NoDup_app_iff; auto|exact D3]. }
  pose proof DP as DQ. apply NoDup_app_iff in DQ as (_ & DQ & DX).
  apply Forall_app in R as (R1 & R2). apply Forall_cons_iff in R2 as (R2 & R3).
  split; [|split; [|split; [|split; [|split]]]].
  - split; [|split; [|split; [|split]]]; cbn [s_heap s_next s_owned s_hand f_trees f_next f_hand f_alone]; auto.
    + apply (rep_list_ext _ h1).
      * intros i Hi. rewrite F2. destruct (in_dec _ _ _) as [Q|Q]; [exfalso; exact (DX _ Q Hi)|reflexivity].
      * apply Forall_app. split; [|constructor; [exact S4|]]; (eapply rep_list_ext; [|eassumption]); intros i Hi; apply put_other; intros ->.
        -- apply (D3 _ Hi). apply in_or_app. left. exact Lm.
        -- exact (D5 _ Lm Hi).
    + intro i. unfold all_ids. cbn [f_trees]. change (flat_map ids) with kids_ids. rewrite F2.
      assert (Q1 : h1 i <> None <-> In i (kids_ids (l1 ++ t :: l2))).
      { rewrite kids_ids_app. change (kids_ids (t :: l2)) with (ids t ++ kids_ids l2). rewrite <- L. unfold h1.
        destruct (Nat.eq_dec i m) as [->|N]; [rewrite put_same, Hm; split; discriminate|rewrite put_other by exact N; reflexivity]. }
      destruct (in_dec _ _ _) as [Q|Q].
      * split; [intro X; contradiction X; reflexivity|]. intro Q2. exfalso. exact (DX _ Q Q2).
      * rewrite Q1. split; intro Q2.
        -- apply (Permutation_in _ P) in Q2. apply in_app_iff in Q2 as [Q2|Q2]; [contradiction|exact Q2].
        -- apply (Permutation_in _ (Permutation_sym P)). apply in_or_app. right. exact Q2.
    + rewrite O, !map_app. cbn [map]. rewrite remove_id. reflexivity.
  - unfold all_ids. cbn [f_trees]. exact DQ.
  - intros i Hi. unfold all_ids in Hi. cbn [f_trees f_next] in *. apply B. change (ids t ++ kids_ids l2) with (kids_ids (t :: l2)). rewrite <- kids_ids_app.
    apply (Permutation_in _ (Permutation_sym P)). apply in_or_app. right. exact Hi.
  - cbn [f_trees]. rewrite El in M. apply Forall_app in M as (M1 & M2). apply Forall_cons_iff in M2 as (M2 & M3). apply Forall_app. split; [exact M1|].
    constructor; [apply remove_is_menu; exact M2|exact M3].
  - intros c' m' Hc'. cbn [s_hand s_next s_heap] in *. destruct (K c' m' Hc') as (J1 & J2). split; [exact J1|]. rewrite !F2.
    destruct (in_dec Nat.eq_dec c' (ids sub)) as [Q|Q]; [intro X; contradiction X; reflexivity|]. intro X.
    assert (X' : s_heap s c' <> None).
    { unfold h1 in X. destruct (Nat.eq_dec c' m) as [->|N]; [rewrite Hm; discriminate|rewrite put_other in X by exact N; exact X]. }
    destruct (J2 X') as (n' & e' & d' & p' & par' & cmds' & E & I2).
    destruct (in_dec Nat.eq_dec m' (ids sub)) as [Q'|Q'].
    + exfalso. apply Q. eapply kid_strict; eauto.
    + unfold h1. destruct (Nat.eq_dec m' m) as [->|N].
      * rewrite put_same. rewrite Hm in E. injection E as <- <- <- <- <- <-. do 6 eexists. split; [reflexivity|]. apply in_erase; [|exact I2]. intros ->. contradiction.
      * rewrite put_other by exact N. eauto 10.
  - intros i Hi. cbn [f_alone f_next f_trees] in *. destruct (Y i Hi) as (Y1 & Y2). split; [exact Y1|]. rewrite El in Y2.
    rewrite map_app in *. cbn [map] in *. rewrite remove_id. exact Y2.
Qed.

Lemma step_destroy m s f f' : hinv s f -> f_step (HDestroy m) f = Some f' -> exists s', h_step (HDestroy m) s = Some s' /\ hinv s' f'.
Proof.
  intros ((R & L & O & Nx & Hn) & D & B & M & K & Y) F. cbn [f_step h_step] in *.
  destruct (existsb (is_root m) (f_trees f)) eqn:Ex; [|discriminate]. injection F as <-.
  assert (Ow : In m (map cmd_id (f_trees f))).
  { apply existsb_exists in Ex as (c & Hc & E). apply Nat.eqb_eq in E. rewrite <- E. apply in_map. exact Hc. }
  destruct (proj1 (root_find _ _) Ow) as (c & Ec). destruct (root_split _ _ _ D Ec) as (l1 & l2 & El & Ic & Er & N1). rewrite Er.
  rewrite <- O in Ow. apply existsb_mem in Ow. rewrite Ow.
  assert (Hc : In c (f_trees f)) by (rewrite El; apply in_or_app; right; left; reflexivity).
  assert (Rc : rep (f_alone f) (s_heap s) None c) by (rewrite Forall_forall in R; auto).
  pose proof (list_nodup _ _ D Hc) as Dc.
  destruct (free_rep c (s_next s) (s_heap s) None Rc Dc) as (h2 & E2 & F2).
  { etransitivity; [apply depth_ids|]. apply ids_bound; [exact Dc|]. intros i Hi. rewrite Nx. apply B. apply in_kids_ids. eauto. }
  rewrite Ic in E2. rewrite E2. eexists. split; [reflexivity|].
  assert (P : Permutation (all_ids f) (ids c ++ kids_ids (l1 ++ l2))).
  { unfold all_ids. rewrite El. change (flat_map ids) with kids_ids. rewrite !kids_ids_app. change (kids_ids (c :: l2)) with (ids c ++ kids_ids l2).
    apply Permutation_app_swap_app. }
  pose proof (Permutation_NoDup P D) as DP. apply NoDup_app_iff in DP as (_ & DQ & DX).
  split; [|split; [|split; [|split; [|split]]]].
  - split; [|split; [|split; [|split]]]; cbn [s_heap s_next s_owned s_hand f_trees f_next f_hand f_alone]; auto.
    + apply (rep_list_ext _ (s_heap s)).
      * intros i Hi. rewrite F2. destruct (in_dec _ _ _) as [Q|Q]; [exfalso; exact (DX _ Q Hi)|reflexivity].
      * rewrite Forall_forall in *. intros k Hk. apply R. rewrite El. apply in_app_iff in Hk. apply in_or_app. destruct Hk; [left|right; right]; assumption.
    + intro i. unfold all_ids at 1. cbn [f_trees]. change (flat_map ids) with kids_ids. rewrite F2. destruct (in_dec _ _ _) as [Q|Q].
      * split; [intro X; contradiction X; reflexivity|]. intro Q2. exfalso. exact (DX _ Q Q2).
      * rewrite L. split; intro Q2.
        -- apply (Permutation_in _ P) in Q2. apply in_app_iff in Q2 as [Q2|Q2]; [contradiction|exact Q2].
        -- apply (Permutation_in _ (Permutation_sym P)). apply in_or_app. right. exact Q2.
    + rewrite O, El, !map_app. cbn [map]. rewrite Ic. apply erase_first. exact N1.
  - exact DQ.
  - intros i Hi. apply B. apply (Permutation_in _ (Permutation_sym P)). apply in_or_app. right. exact Hi.
  - cbn [f_trees]. rewrite Forall_forall in *. intros k Hk. apply M. rewrite El. apply in_app_iff in Hk. apply in_or_app. destruct Hk; [left|right; right]; assumption.
  - intros c' m' Hc'. cbn [s_hand s_next s_heap] in *. destruct (K c' m' Hc') as (J1 & J2). split; [exact J1|]. rewrite !F2.
    destruct (in_dec Nat.eq_dec c' (ids c)) as [Q|Q]; [intro X; contradiction X; reflexivity|]. intro X.
    destruct (J2 X) as (n' & e' & d' & p' & par' & cmds' & E & I2).
    destruct (in_dec Nat.eq_dec m' (ids c)) as [Q'|Q'].
    + exfalso. apply Q. eapply kid_strict; eauto.
    + eauto 10.
  - intros i Hi. cbn [f_alone f_next f_trees] in *. destruct (Y i Hi) as (Y1 & Y2). split; [exact Y1|]. intro Q. apply Y2.
    rewrite El, map_app. cbn [map]. rewrite map_app in Q. apply in_app_iff in Q. apply in_or_app. destruct Q; [left|right; right]; assumption.
Qed.

Lemma step_inv o s f f' : hinv s f -> f_step o f = Some f' -> exists s', h_step o s = Some s' /\ hinv s' f'.
Proof.
  intros H F. destruct o.
  - cbn [f_step] in F. injection F as <-. apply step_new. exact H.
  - eapply step_insert; eauto.
  - eapply step_insert_menu; eauto.
  - eapply step_insert_cmd; eauto.
  - eapply step_set; eauto.
  - eapply step_hand_set; eauto.
  - eapply step_hand_remove; eauto.
  - eapply step_destroy; eauto.
Qed.
Lemma run_inv os : forall s f f', hinv s f -> f_run os f = Some f' -> exists s', h_run os s = Some s' /\ hinv s' f'.
Proof.
  induction os as [|o os IH]; intros s f f' H F; cbn [f_run h_run] in *.
  - injection F as <-. eauto.
  - destruct (f_step o f) as [f1|] eqn:E; [|discriminate]. destruct (step_inv o s f f1 H E) as (s1 & -> & H1). eapply IH; eauto.
Qed.

(** ** What the forest refuses *)
Lemma find_none_not_root m l : find (is_root m) l = None -> ~ In m (map cmd_id l).
Proof. intros H Q. apply root_find in Q as (c & E). congruence. Qed.
Lemma menu_live_in {al} l h m n e d p par cmds : Forall (rep al h None) l -> NoDup (kids_ids l) -> In m (kids_ids l) ->
  h m = Some (BMenu n e d p par cmds) -> In m (flat_map menus_of l).
Proof.
  intros R D Hm E. apply in_kids_ids in Hm as (k & Hk & Hm). apply in_flat_map. exists k. split; [exact Hk|]. rewrite menus_of_ids.
  rewrite Forall_forall in R. eapply rep_menu_is; eauto. eapply list_nodup; eauto.
Qed.
Lemma step_none o s f : hinv s f -> f_step o f = None ->
  h_step o s = None \/ exists m x c, (o = HInsertMenu m x \/ o = HInsertCmd m x) /\ In c (f_trees f) /\ cmd_id c = x /\ In m (menus_of c).
Proof.
  intros ((R & L & O & Nx & Hn) & D & B & M & K & Y) F.
  assert (NM : forall m, mem m (all_menus f) = false -> match s_heap s m with Some (BMenu _ _ _ _ _ _) => False | _ => True end).
  { intros m Em. destruct (s_heap s m) as [[]|] eqn:E; try exact Logic.I. enough (In m (all_menus f)) by (apply mem_in in H; congruence).
    refine (menu_live_in _ _ _ _ _ _ _ _ _ R D _ E); apply L; rewrite E; discriminate. }
  destruct o as [n d p|m l|m x|m x|m b|k b|k|m]; cbn [f_step h_step] in *.
  - discriminate.
  - destruct (mem m (all_menus f)) eqn:Em; [discriminate|]. specialize (NM m Em). left. destruct (s_heap s m) as [[]|]; tauto || reflexivity.
  - destruct (find (is_root x) (f_trees f)) as [c|] eqn:Ec.
    + destruct (root_split _ _ _ D Ec) as (l1 & l2 & El & Ic & Er & N1). rewrite Er in F.
      destruct (mem m (flat_map menus_of (l1 ++ l2))) eqn:Em; [discriminate|].
      assert (Hc : In c (f_trees f)) by (rewrite El; apply in_or_app; right; left; reflexivity).
      destruct (in_dec Nat.eq_dec m (menus_of c)) as [Q|Q]; [right; exists m, x, c; auto|left].
      destruct (existsb (Nat.eqb x) (s_owned s)); [|reflexivity].
      destruct (s_heap s x) as [[| |nx ex dx px parx cx]|] eqn:Ex; try reflexivity.
      assert (Xm : m <> x).
      { intros ->. apply Q. rewrite Forall_forall in M. destruct (M c Hc) as (i & n & e & d & p & ks & E). subst c. left. exact Ic. }
      rewrite put_other by exact Xm. destruct (s_heap s m) as [[]|] eqn:E; try reflexivity. exfalso.
      assert (A : In m (all_menus f)) by (refine (menu_live_in _ _ _ _ _ _ _ _ _ R D _ E); apply L; rewrite E; discriminate).
      unfold all_menus in A. rewrite El in A. rewrite flat_map_app in A. cbn [flat_map] in A.
      enough (mem m (flat_map menus_of (l1 ++ l2)) = true) by congruence. apply mem_in. rewrite flat_map_app. rewrite !in_app_iff in *. tauto.
    + left. destruct (existsb (Nat.eqb x) (s_owned s)) eqn:E; [|reflexivity]. apply existsb_mem in E. rewrite O in E. apply find_none_not_root in Ec. contradiction.
  - destruct (find (is_root x) (f_trees f)) as [c|] eqn:Ec.
    + destruct (root_split _ _ _ D Ec) as (l1 & l2 & El & Ic & Er & N1). rewrite Er in F.
      destruct (mem m (flat_map menus_of (l1 ++ l2))) eqn:Em; [discriminate|].
      assert (Hc : In c (f_trees f)) by (rewrite El; apply in_or_app; right; left; reflexivity).
      destruct (in_dec Nat.eq_dec m (menus_of c)) as [Q|Q]; [right; exists m, x, c; auto|left].
      destruct (existsb (Nat.eqb x) (s_owned s)); [|reflexivity].
      destruct (s_heap s x) as [[| |nx ex dx px parx cx]|] eqn:Ex; try reflexivity.
      destruct (s_heap s m) as [[]|] eqn:E; try reflexivity. exfalso.
      assert (A : In m (all_menus f)) by (refine (menu_live_in _ _ _ _ _ _ _ _ _ R D _ E); apply L; rewrite E; discriminate).
      unfold all_menus in A. rewrite El in A. rewrite flat_map_app in A. cbn [flat_map] in A.
      enough (mem m (flat_map menus_of (l1 ++ l2)) = true) by congruence. apply mem_in. rewrite flat_map_app. rewrite !in_app_iff in *. tauto.
    + left. destruct (existsb (Nat.eqb x) (s_owned s)) eqn:E; [|reflexivity]. apply existsb_mem in E. rewrite O in E. apply find_none_not_root in Ec. contradiction.
  - destruct (mem m (all_menus f)) eqn:Em; [discriminate|]. specialize (NM m Em). left. destruct (s_heap s m) as [[]|]; tauto || reflexivity.
  - destruct (nth_error (f_hand f) k); discriminate.
  - destruct (nth_error (f_hand f) k); discriminate.
  - destruct (existsb (is_root m) (f_trees f)) eqn:E; [discriminate|]. left.
    destruct (existsb (Nat.eqb m) (s_owned s)) eqn:E'; [|reflexivity]. apply existsb_mem in E'. rewrite O in E'.
    apply in_map_iff in E' as (c & Ic & Hc). enough (existsb (is_root m) (f_trees f) = true) by congruence. apply existsb_exists. exists c.
    split; [exact Hc|]. apply Nat.eqb_eq. exact Ic.
Qed.

(** ** Handlers of commands that are gone *)
Lemma set_dead i b h : h i = None -> h_set i b h = h.
Proof. intro H. unfold h_set. rewrite H. reflexivity. Qed.
Lemma handler_dead s k c m : nth_error (s_hand s) k = Some (c, m) -> s_heap s c = None ->
  (forall b, h_step (HHandSet k b) s = Some s) /\ h_step (HHandRemove k) s = Some s.
Proof.
  intros E H. cbn [h_step]. rewrite E, H. split; [|reflexivity]. intro b. rewrite set_dead by exact H. destruct s; reflexivity.
Qed.
Lemma ids_gone os : forall s f f' i, hinv s f -> f_run os f = Some f' -> i < f_next f -> ~ In i (all_ids f) -> ~ In i (all_ids f').
Proof.
  induction os as [|o os IH]; intros s f f' i H F Li Hi; cbn [f_run] in F.
  - injection F as <-. exact Hi.
  - destruct (f_step o f) as [f1|] eqn:E; [|discriminate]. destruct (step_inv o s f f1 H E) as (s1 & Es & H1).
    assert (G : f_next f <= f_next f1 /\ ~ In i (all_ids f1)).
    { destruct H as ((R & L & O & Nx & Hn) & D & B & M & K & Y). clear IH F Es H1. unfold all_ids in *. change (flat_map ids) with kids_ids in *.
      destruct o as [n d p|m l|m x|m x|m b|k b|k|m]; cbn [f_step] in E.
      - injection E as <-. cbn [f_next f_trees]. split; [lia|]. rewrite kids_ids_app, in_app_iff. intros [Q|[Q|[]]]; [contradiction|]. cbn in Q. lia.
      - destruct (mem m (all_menus f)) eqn:Em; [|discriminate]. injection E as <-. cbn [f_next f_trees]. split; [lia|]. apply mem_in in Em. intro Q.
        apply (Permutation_in _ (insert_list_ids m _ _ D Em)) in Q. apply in_app_iff in Q as [Q|Q]; [contradiction|].
        destruct l; cbn in Q; destruct Q as [Q|[]]; lia.
      - destruct (find (is_root x) (f_trees f)) as [c|] eqn:Ec; [|discriminate]. destruct (root_split _ _ _ D Ec) as (l1 & l2 & El & Ic & Er & N1). rewrite Er in E.
        destruct (mem m (flat_map menus_of (l1 ++ l2))) eqn:Em; [|discriminate]. injection E as <-. cbn [f_next f_trees]. split; [lia|]. apply mem_in in Em.
        rewrite El in D, Hi. rewrite kids_ids_app in D, Hi. change (kids_ids (c :: l2)) with (ids c ++ kids_ids l2) in D, Hi.
        apply NoDup_app_iff in D as (D1 & D2 & D3). apply NoDup_app_iff in D2 as (D2 & D4 & D5). intro Q.
        apply (Permutation_in _ (insert_list_ids m c (l1 ++ l2) ltac:(rewrite kids_ids_app; apply NoDup_app_iff; split; [exact D1|split; [exact D4|]]; intros y Hy Hy'; apply (D3 y Hy); apply in_or_app; right; exact Hy') Em)) in Q.
        rewrite kids_ids_app in Q. rewrite !in_app_iff in *. tauto.
      - destruct (find (is_root x) (f_trees f)) as [c|] eqn:Ec; [|discriminate]. destruct (root_split _ _ _ D Ec) as (l1 & l2 & El & Ic & Er & N1). rewrite Er in E.
        destruct (mem m (flat_map menus_of (l1 ++ l2))) eqn:Em; [|discriminate]. injection E as <-. cbn [f_next f_trees]. split; [lia|]. apply mem_in in Em.
        rewrite El in D, Hi. rewrite kids_ids_app in D, Hi. change (kids_ids (c :: l2)) with (ids c ++ kids_ids l2) in D, Hi.
        apply NoDup_app_iff in D as (D1 & D2 & D3). apply NoDup_app_iff in D2 as (D2 & D4 & D5). intro Q.
        apply (Permutation_in _ (insert_list_ids m c (l1 ++ l2) ltac:(rewrite kids_ids_app; apply NoDup_app_iff; split; [exact D1|split; [exact D4|]]; intros y Hy Hy'; apply (D3 y Hy); apply in_or_app; right; exact Hy') Em)) in Q.
        rewrite kids_ids_app in Q. rewrite !in_app_iff in *. tauto.
      - destruct (mem m (all_menus f)); [|discriminate]. injection E as <-. cbn [f_next f_trees]. split; [lia|].
        unfold kids_ids. rewrite flat_map_map, (flat_map_ext_in _ ids) by (intros; apply set_enabled_ids). exact Hi.
      - destruct (nth_error (f_hand f) k); injection E as <-; cbn [f_next f_trees]; (split; [lia|]); [|exact Hi].
        unfold kids_ids. rewrite flat_map_map, (flat_map_ext_in _ ids) by (intros; apply set_enabled_ids). exact Hi.
      - destruct (nth_error (f_hand f) k); injection E as <-; cbn [f_next f_trees]; (split; [lia|]); [|exact Hi].
        intro Q. apply in_kids_ids in Q as (y & Hy & Q). apply in_map_iff in Hy as (t & <- & Ht). apply Hi. apply in_kids_ids. exists t.
        split; [exact Ht|]. eapply remove_ids_in. exact Q.
      - destruct (existsb (is_root m) (f_trees f)); [|discriminate]. injection E as <-. cbn [f_next f_trees]. split; [lia|].
        intro Q. apply in_kids_ids in Q as (t & Ht & Q). apply filter_In in Ht as (Ht & _). apply Hi. apply in_kids_ids. eauto. }
    apply (IH s1 f1 f' i H1 F); [lia|apply G].
Qed.

(** ** Using the objects is using the trees *)
Lemma rep_menu0 h par i n e d pr ks :
  rep [] h par (CMenu i n e d pr ks) <-> h i = Some (BMenu n e d pr par (map cmd_id ks)) /\ Forall (rep [] h (Some i)) ks.
Proof. exact (rep_menu (al := []) h par i n e d pr ks). Qed.
Section Use.
Context (h : heap) (root : cmd) (RR : rep [] h None root).

(** The parent of a menu of the chain. *)
Definition up_ptr (anc : list cmd) : option nat := match anc with [] => None | p :: _ => Some (cmd_id p) end.
Lemma chain_rep ctx : chain root ctx -> exists m anc, ctx = m :: anc /\ is_menu m /\ rep [] h (up_ptr anc) m.
Proof.
  intro C. induction C as [M|k p anc C IH Hk M].
  - exists root, []. auto.
  - destruct IH as (m & anc' & E & Mm & R). injection E as <- <-. exists k, (p :: anc). split; [reflexivity|]. split; [exact M|].
    destruct Mm as (i & n & e & d & pp & ks & ->). apply rep_menu0 in R as (_ & R). rewrite Forall_forall in R. apply R. exact Hk.
Qed.
Lemma chain_anc m p anc : chain root (m :: p :: anc) -> chain root (p :: anc).
Proof. intro C. inversion C; subst; assumption. Qed.

Context (E : env) (bi : hid -> list value -> world -> hres).
Lemma try_rep par (g : nat -> world -> eres) (f : cmd -> world -> eres) ks :
  Forall (rep [] h par) ks -> (forall k w, In k ks -> rep [] h par k -> g (cmd_id k) w = f k w) ->
  forall w, h_try g (map cmd_id ks) w = try_all f ks w.
Proof.
  intros R H. induction R as [|k l Hk Hl IH]; intro w; [reflexivity|]. cbn [map h_try try_all].
  rewrite H by (try (left; reflexivity); exact Hk). assert (J : forall w1, h_try g (map cmd_id l) w1 = try_all f l w1).
  { apply IH. intros k' w' Hk' R'. apply H; [right; exact Hk'|exact R']. }
  destruct (f k w) as [[] w1|x w1| |]; cbn [e_bind]; auto.
Qed.
Lemma handle_rep toks : forall up m anc w, chain root (m :: anc) -> h_handle E bi h toks up (cmd_id m) w = handle E bi toks up (m :: anc) w.
Proof.
  induction toks as [|t rest IH]; intros up m anc w C; destruct (chain_rep _ C) as (m' & anc' & Eq & M & R); injection Eq as <- <-;
    destruct M as (i & n & e & d & p & ks & ->); apply rep_menu0 in R as (R & K); cbn [h_handle handle cmd_id]; rewrite R; [reflexivity|].
  destruct (negb e); [reflexivity|]. destruct (_ || _); [|reflexivity]. destruct rest as [|t' rest]; [reflexivity|].
  rewrite (try_rep (Some i) _ (fun k w1 => match k with CMenu _ _ _ _ _ _ => handle E bi (t' :: rest) false (k :: CMenu i n e d p ks :: anc) w1 | _ => exec_leaf E bi k (t' :: rest) w1 end) ks K).
  - destruct (try_all _ _ _) as [[] w1|x w1| |]; cbn [e_bind]; try reflexivity.
    destruct anc as [|a anc]; cbn [up_ptr]; [reflexivity|]. apply IH. eapply chain_anc. exact C.
  - intros k w1 Hk Rk. destruct k as [j nj ej dj pj pdj hj|j nj ej dj pdj hj|j nj ej dj pj kj]; cbn [cmd_id].
    1,2: cbn in Rk; rewrite Rk; reflexivity.
    assert (M : is_menu (CMenu j nj ej dj pj kj)) by (unfold is_menu; eauto 10).
    pose proof Rk as Rk0. apply rep_menu0 in Rk0 as (Rj & _). rewrite Rj. apply (IH false (CMenu j nj ej dj pj kj)). apply chain_sub; assumption.
Qed.
Lemma scan_rep toks m anc w : chain root (m :: anc) -> h_scan E bi h toks (cmd_id m) w = scan E bi toks (m :: anc) w.
Proof.
  intro C. destruct (chain_rep _ C) as (m' & anc' & Eq & M & R). injection Eq as <- <-. destruct M as (i & n & e & d & p & ks & ->).
  apply rep_menu0 in R as (R & K). unfold h_scan, scan. cbn [cmd_id cmd_en cmd_kids]. rewrite R. destruct (negb e); [reflexivity|].
  rewrite (try_rep (Some i) _ (exec E bi toks (CMenu i n e d p ks :: anc)) ks K).
  - destruct (try_all _ _ _) as [[] w1|x w1| |]; cbn [e_bind]; try reflexivity.
    destruct anc as [|a anc]; cbn [up_ptr]; [reflexivity|]. apply handle_rep. eapply chain_anc. exact C.
  - intros k w1 Hk Rk. destruct k as [j nj ej dj pj pdj hj|j nj ej dj pdj hj|j nj ej dj pj kj]; cbn [cmd_id exec].
    1,2: cbn in Rk; rewrite Rk; reflexivity.
    assert (M : is_menu (CMenu j nj ej dj pj kj)) by (unfold is_menu; eauto 10).
    pose proof Rk as Rk0. apply rep_menu0 in Rk0 as (Rj & _). rewrite Rj. apply (handle_rep toks false (CMenu j nj ej dj pj kj)). apply chain_sub; assumption.
Qed.

Lemma help_rep par ks : Forall (rep [] h par) ks -> h_help_lines h (map cmd_id ks) = Some (flat_map help_line ks).
Proof.
  intro R. induction R as [|k l Hk Hl IH]; [reflexivity|]. cbn [map h_help_lines flat_map]. rewrite IH.
  destruct k as [j nj ej dj pj pdj hj|j nj ej dj pdj hj|j nj ej dj pj kj]; cbn [cmd_id].
  1,2: cbn in Hk; rewrite Hk; reflexivity.
  apply rep_menu0 in Hk as (Hk & _). rewrite Hk. reflexivity.
Qed.
Lemma main_help_rep m anc : chain root (m :: anc) -> h_main_help h (cmd_id m) = Some (main_help (m :: anc)).
Proof.
  intro C. destruct (chain_rep _ C) as (m' & anc' & Eq & M & R). injection Eq as <- <-. destruct M as (i & n & e & d & p & ks & ->).
  apply rep_menu0 in R as (R & K). unfold h_main_help, main_help. cbn [cmd_id cmd_en cmd_kids]. rewrite R. destruct (negb e); [reflexivity|].
  rewrite (help_rep (Some i)) by exact K. destruct anc as [|a anc]; cbn [up_ptr]; [reflexivity|].
  destruct (chain_rep _ (chain_anc _ _ _ C)) as (a' & anc' & Eq & _ & Ra). injection Eq as <- <-.
  change [cmd_id a] with (map cmd_id [a]). rewrite (help_rep (up_ptr anc)) by (constructor; [exact Ra|constructor]).
  cbn [flat_map]. rewrite app_nil_r. reflexivity.
Qed.

Context (P : platform).
Lemma each_rep par (g : nat -> gres) (f : cmd -> gres) ks :
  Forall (rep [] h par) ks -> (forall k, In k ks -> rep [] h par k -> g (cmd_id k) = f k) ->
  h_each g (map cmd_id ks) = g_all f ks.
Proof.
  intros R H. induction R as [|k l Hk Hl IH]; [reflexivity|]. cbn [map h_each g_all].
  rewrite H by (try (left; reflexivity); exact Hk). f_equal. apply IH. intros k' Hk' R'. apply H; [right; exact Hk'|exact R'].
Qed.
Lemma completion_rep fuel : forall up line m anc, chain root (m :: anc) -> h_completion P h fuel up line (cmd_id m) = menu_completion P fuel up line (m :: anc).
Proof.
  induction fuel as [|fuel IH]; intros up line m anc C; [reflexivity|].
  destruct (chain_rep _ C) as (m' & anc' & Eq & M & R). injection Eq as <- <-. destruct M as (i & n & e & d & p & ks & ->).
  pose proof R as R0. apply rep_menu0 in R as (R & K). cbn [h_completion menu_completion cmd_id]. rewrite R.
  assert (G : forall rest,
    h_each (fun k => match h k with None => GUB | Some (BMenu _ _ _ _ _ _) => h_completion P h fuel false rest k | Some o => GOk (name_completion (plain k o) rest) end) (map cmd_id ks)
    = g_all (fun k => match k with CMenu _ _ _ _ _ _ => menu_completion P fuel false rest (k :: CMenu i n e d p ks :: anc) | _ => GOk (name_completion k rest) end) ks).
  { intro rest. apply (each_rep (Some i)); [exact K|]. intros k Hk Rk.
    destruct k as [j nj ej dj pj pdj hj|j nj ej dj pdj hj|j nj ej dj pj kj]; cbn [cmd_id].
    1,2: cbn in Rk; rewrite Rk; reflexivity.
    assert (M : is_menu (CMenu j nj ej dj pj kj)) by (unfold is_menu; eauto 10).
    pose proof Rk as Rk0. apply rep_menu0 in Rk0 as (Rj & _). rewrite Rj. apply (IH false rest (CMenu j nj ej dj pj kj)). apply chain_sub; assumption. }
  assert (U : forall rest, match up_ptr anc with None => GOk [] | Some a => h_completion P h fuel true rest a end
                         = match anc with [] => GOk [] | _ :: _ => menu_completion P fuel true rest anc end).
  { intro rest. destruct anc as [|a anc]; cbn [up_ptr]; [reflexivity|]. apply IH. eapply chain_anc. exact C. }
  destruct (starts_with n line).
  - destruct (trim_left P _) as [rest|]; [|reflexivity]. rewrite G, U. reflexivity.
  - destruct (up && _).
    + destruct (trim_left P _) as [rest|]; [|reflexivity]. rewrite G, U. reflexivity.
    + reflexivity.
Qed.
Lemma completions_rep fuel line m anc : chain root (m :: anc) -> h_completions P h fuel line (cmd_id m) = menu_completions P fuel line (m :: anc).
Proof.
  intro C. destruct (chain_rep _ C) as (m' & anc' & Eq & M & R). injection Eq as <- <-. destruct M as (i & n & e & d & p & ks & ->).
  apply rep_menu0 in R as (R & K). unfold h_completions, menu_completions. cbn [cmd_id cmd_kids]. rewrite R. f_equal.
  - apply (each_rep (Some i)); [exact K|]. intros k Hk Rk.
    destruct k as [j nj ej dj pj pdj hj|j nj ej dj pdj hj|j nj ej dj pj kj]; cbn [cmd_id].
    1,2: cbn in Rk; rewrite Rk; reflexivity.
    assert (M : is_menu (CMenu j nj ej dj pj kj)) by (unfold is_menu; eauto 10).
    pose proof Rk as Rk0. apply rep_menu0 in Rk0 as (Rj & _). rewrite Rj. apply (completion_rep fuel false line (CMenu j nj ej dj pj kj)). apply chain_sub; assumption.
  - destruct anc as [|a anc]; cbn [up_ptr]; [reflexivity|]. apply completion_rep. eapply chain_anc. exact C.
Qed.
Lemma prompt_rep m anc : chain root (m :: anc) -> h_prompt h (cmd_id m) = match m with CMenu _ _ _ _ p _ => Some p | _ => None end.
Proof.
  intro C. destruct (chain_rep _ C) as (m' & anc' & Eq & M & R). injection Eq as <- <-. destruct M as (i & n & e & d & p & ks & ->).
  apply rep_menu0 in R as (R & K). unfold h_prompt. cbn [cmd_id]. rewrite R. reflexivity.
Qed.
End Use.

(** ** For the properties *)
Lemma hand_step o s s' k x : h_step o s = Some s' -> nth_error (s_hand s) k = Some x -> nth_error (s_hand s') k = Some x.
Proof.
  intros H N.
  assert (A : forall l, nth_error (s_hand s ++ l) k = Some x).
  { intro l. rewrite nth_error_app1; [exact N|]. apply nth_error_Some. congruence. }
  destruct o as [n d p|m l|m y|m y|m b|j b|j|m]; cbn [h_step] in H.
  - injection H as <-. exact N.
  - destruct (s_heap s m) as [[]|]; try discriminate. injection H as <-. apply A.
  - destruct (existsb _ _); [|discriminate]. destruct (s_heap s y) as [[]|]; try discriminate. destruct (put _ _ _ _) as [[]|]; try discriminate. injection H as <-. apply A.
  - destruct (existsb _ _); [|discriminate]. destruct (s_heap s y) as [[]|]; try discriminate. destruct (s_heap s m) as [[]|]; try discriminate. injection H as <-. apply A.
  - destruct (s_heap s m) as [[]|]; try discriminate. injection H as <-. exact N.
  - destruct (nth_error (s_hand s) j) as [(c & m)|]; injection H as <-; exact N.
  - destruct (nth_error (s_hand s) j) as [(c & m)|]; [|injection H as <-; exact N].
    destruct (s_heap s c); [|injection H as <-; exact N]. destruct (s_heap s m) as [[]|]; try (injection H as <-; exact N).
    destruct (existsb _ _); [|injection H as <-; exact N]. destruct (h_free _ _ _); [|discriminate]. injection H as <-. exact N.
  - destruct (existsb _ _); [|discriminate]. destruct (h_free _ _ _); [|discriminate]. injection H as <-. exact N.
Qed.
Lemma hand_run os : forall s s' k x, h_run os s = Some s' -> nth_error (s_hand s) k = Some x -> nth_error (s_hand s') k = Some x.
Proof.
  induction os as [|o os IH]; intros s s' k x H N; cbn [h_run] in H; [injection H as <-; exact N|].
  destruct (h_step o s) as [s1|] eqn:E; [|discriminate]. eapply IH; [exact H|]. eapply hand_step; eauto.
Qed.
Lemma f_run_app a b f : f_run (a ++ b) f = match f_run a f with Some f' => f_run b f' | None => None end.
Proof. revert f. induction a as [|o a IH]; intro f; [reflexivity|]. cbn [app f_run]. destruct (f_step o f); [apply IH|reflexivity]. Qed.
Lemma h_run_app a b s : h_run (a ++ b) s = match h_run a s with Some s' => h_run b s' | None => None end.
Proof. revert s. induction a as [|o a IH]; intro s; [reflexivity|]. cbn [app h_run]. destruct (h_step o s); [apply IH|reflexivity]. Qed.

Lemma built os f : f_run os f_init = Some f -> exists s, h_run os hs_init = Some s /\ represents s f.
Proof. intro F. destruct (run_inv os _ _ _ hinv_init F) as (s & E & H & _). eauto. Qed.
Lemma built_exact os o f : f_run os f_init = Some f -> f_run (os ++ [o]) f_init = None ->
  h_run (os ++ [o]) hs_init = None \/ exists m x c, (o = HInsertMenu m x \/ o = HInsertCmd m x) /\ In c (f_trees f) /\ cmd_id c = x /\ In m (menus_of c).
Proof.
  intros F G. destruct (run_inv os _ _ _ hinv_init F) as (s & E & H). rewrite f_run_app, F in G. rewrite h_run_app, E. cbn [f_run h_run] in *.
  destruct (f_step o f) as [f1|] eqn:Eo; [discriminate|]. destruct (step_none o s f H Eo) as [->|Q]; auto.
Qed.
Lemma released os f s : f_run os f_init = Some f -> h_run os hs_init = Some s -> s_owned s = [] -> forall i, s_heap s i = None.
Proof.
  intros F E O i. destruct (run_inv os _ _ _ hinv_init F) as (s0 & E0 & (R & L & O' & _) & _). rewrite E in E0. injection E0 as <-.
  rewrite O in O'. symmetry in O'. apply map_eq_nil in O'. destruct (s_heap s i) eqn:Q; [|reflexivity]. exfalso.
  assert (A : In i (all_ids f)) by (apply L; congruence). unfold all_ids in A. rewrite O' in A. destruct A.
Qed.
Lemma gone os os' f s k c m : f_run (os ++ os') f_init = Some f -> h_run os hs_init = Some s ->
  nth_error (s_hand s) k = Some (c, m) -> s_heap s c = None ->
  exists s', h_run (os ++ os') hs_init = Some s' /\ s_heap s' c = None /\
             (forall b, h_step (HHandSet k b) s' = Some s') /\ h_step (HHandRemove k) s' = Some s'.
Proof.
  intros F E N Q. rewrite f_run_app in F. destruct (f_run os f_init) as [f0|] eqn:F0; [|discriminate].
  destruct (run_inv os _ _ _ hinv_init F0) as (s0 & E0 & H). rewrite E in E0. injection E0 as <-.
  destruct (run_inv os' _ _ _ H F) as (s' & E' & H'). exists s'. split; [rewrite h_run_app, E; exact E'|].
  assert (D : s_heap s' c = None).
  { pose proof H as ((_ & L & _ & Nx & _) & _ & _ & _ & K & _). destruct H' as ((_ & L' & _) & _).
    destruct (s_heap s' c) eqn:X; [|reflexivity]. exfalso. apply (ids_gone os' s f0 f c H F).
    - rewrite <- Nx. apply nth_error_In in N. apply (K _ _ N).
    - intro Y. apply L in Y. congruence.
    - apply L'. congruence. }
  split; [exact D|]. eapply handler_dead; [|exact D]. eapply hand_run; eauto.
Qed.

(** ** Menus inserted as commands *)
Lemma rep_plain {al} h root : rep al h None root -> (forall i, In i (menus_of root) -> In i al -> i = cmd_id root) -> NoDup (ids root) -> rep [] h None root.
Proof.
  intros R H D. destruct root as [j n e d p pd hh|j n e d pd hh|j n e d p ks]; try exact R.
  apply rep_menu in R as (R & K). apply rep_menu0. split; [rewrite R; destruct (mem j al); reflexivity|].
  rewrite ids_menu in D. apply NoDup_cons_iff in D as (D & _).
  rewrite Forall_forall in *. intros k Hk. apply (rep_alone_ext (al := al)); [|auto]. intros i Hi.
  destruct (mem i al) eqn:Q; [|reflexivity]. apply mem_in in Q. exfalso.
  assert (Hj : In i (menus_of (CMenu j n e d p ks))) by (right; apply in_flat_map; eauto).
  specialize (H i Hj Q). cbn [cmd_id] in H. subst i. apply D. apply in_kids_ids. exists k. split; [exact Hk|].
  rewrite menus_of_ids in Hi. apply menu_ids_ids. exact Hi.
Qed.
Lemma rep_no_alone {al} h root : rep al h None root -> (forall i, In i (menus_of root) -> ~ In i al) -> rep [] h None root.
Proof.
  intros R H. apply (rep_alone_ext (al := al)); [|exact R]. intros i Hi. destruct (mem i al) eqn:Q; [|reflexivity]. apply mem_in in Q.
  exfalso. exact (H i Hi Q).
Qed.
Lemma chain_rep_in {al} h t : rep al h None t -> forall ctx, chain t ctx -> exists m anc, ctx = m :: anc /\ is_menu m /\ rep al h (up_ptr anc) m.
Proof.
  intros RR ctx C. induction C as [M|k p anc C IH Hk M].
  - exists t, []. auto.
  - destruct IH as (m & anc' & E & Mm & R). injection E as <- <-. exists k, (p :: anc). split; [reflexivity|]. split; [exact M|].
    destruct Mm as (i & n & e & d & pp & ks & ->). apply rep_menu in R as (_ & R). rewrite Forall_forall in R. apply R. exact Hk.
Qed.
Lemma alone_rep {al} h par o : rep al h par o -> In (cmd_id o) al -> rep al h None o.
Proof.
  intros R H. destruct o as [j n e d p pd hh|j n e d pd hh|j n e d p ks]; try exact R.
  apply rep_menu in R as (R & K). apply rep_menu. split; [|exact K]. apply mem_in in H. cbn [cmd_id] in H. rewrite H in *. exact R.
Qed.
Lemma chain_nodup t ctx : NoDup (ids t) -> chain t ctx -> exists m anc, ctx = m :: anc /\ NoDup (ids m).
Proof.
  intros D C. induction C as [M|k p anc C IH Hk M]; [eauto|]. destruct IH as (m & anc' & E & Dm). injection E as <- <-. exists k, (p :: anc). split; [reflexivity|].
  destruct p as [j n e d q pd hh|j n e d pd hh|j n e d q ks]; cbn [cmd_kids] in Hk; try destruct Hk. eapply kid_nodup; eauto.
Qed.
(** The objects of a menu of [c]. *)
Lemma rep_menu_obj {al} h c : forall par i, rep al h par c -> In i (menus_of c) ->
  exists n e d p parent cmds, h i = Some (BMenu n e d p parent cmds) /\
    (parent = None \/ parent = par \/ exists q, parent = Some q /\ In q (menus_of c)) /\
    (forall k, In k cmds -> In k (menus_of c) \/ exists o, h k = Some o /\ forall a b c d e f, o <> BMenu a b c d e f).
Proof.
  induction c as [j n e d p pd hh|j n e d pd hh|j n e d p ks IH] using cmd_ind2; intros par i R Hi.
  1,2: destruct Hi.
  apply rep_menu in R as (R & K). destruct Hi as [<-|Hi].
  - do 6 eexists. split; [exact R|]. split; [destruct (mem j al); auto|]. intros k Hk. apply in_map_iff in Hk as (c & <- & Hc).
    rewrite Forall_forall in K. specialize (K c Hc). destruct c as [j' n' e' d' p' pd hh|j' n' e' d' pd hh|j' n' e' d' p' ks']; cbn [cmd_id].
    + right. eexists. split; [exact K|]. discriminate.
    + right. eexists. split; [exact K|]. discriminate.
    + left. right. apply in_flat_map. eexists. split; [exact Hc|]. left. reflexivity.
  - apply in_flat_map in Hi as (c & Hc & Hi). rewrite Forall_forall in IH, K. destruct (IH c Hc (Some j) i (K c Hc) Hi) as (n' & e' & d' & p' & par' & cmds & E & P & Q).
    assert (Sub : forall x, In x (menus_of c) -> In x (menus_of (CMenu j n e d p ks))) by (intros x Hx; right; apply in_flat_map; eauto).
    exists n', e', d', p', par', cmds. split; [exact E|]. split.
    + destruct P as [P|[P|(q & P & Hq)]]; [left; exact P| |]; right; right; [exists j|exists q]; (split; [exact P|]); [left; reflexivity|auto].
    + intros k Hk. destruct (Q k Hk) as [Q'|Q']; auto.
Qed.

Lemma ops_cur os : forall w, w_cur (apply_ops os w) = w_cur w.
Proof. induction os as [|o os IH]; intro w; [reflexivity|]. cbn [apply_ops fold_left]. change (fold_left apply_op os) with (apply_ops os). rewrite IH. destruct o; cbn [apply_op]; try reflexivity. destruct (relabel _ _); reflexivity. Qed.
Definition e_cur (T : list nat) (w : world) (r : eres) : Prop :=
  match r with EDone _ w' | EExc _ w' => w_cur w' = w_cur w \/ In (w_cur w') T | _ => True end.
Lemma e_cur_bind T w r g : e_cur T w r -> (forall w1, e_cur T w1 (g w1)) -> e_cur T w (e_bind r g).
Proof.
  intros H G. destruct r as [[] w1|x w1| |]; cbn [e_bind]; try exact H. specialize (G w1). cbn in H.
  destruct (g w1) as [b w2|x w2| |]; cbn in *; try exact G; (destruct G as [->|G]; [exact H|right; exact G]).
Qed.
Lemma leaf_cur E T c toks w : e_cur T w (exec_leaf E no_builtin c toks w).
Proof.
  destruct c as [j n e d p pd hh|j n e d pd hh|j n e d p ks]; cbn [exec_leaf].
  - destruct (negb e); [left; reflexivity|]. destruct (negb _); [left; reflexivity|]. destruct toks as [|t args]; [exact Logic.I|].
    destruct (str_eqb n t); [|left; reflexivity]. destruct (convert_all E p args) as [vs| |]; [|left; reflexivity|exact Logic.I].
    destruct hh as [u| | | |]; cbn [run_fn no_builtin]; try exact Logic.I. unfold call_user; cbv zeta.
    destruct (ur_end _) as [|[]]; try destruct (existsb is_tree_op _); try exact Logic.I; left; rewrite ops_cur; reflexivity.
  - destruct (negb e); [left; reflexivity|]. destruct toks as [|t args]; [exact Logic.I|]. destruct (str_eqb n t); [|left; reflexivity].
    destruct hh as [u| | | |]; cbn [run_free]; try exact Logic.I. unfold call_user; cbv zeta. destruct (ur_end _); left; rewrite ops_cur; reflexivity.
  - left. reflexivity.
Qed.
Section Trapped.
Context (E : env) (h : heap) (T : list nat).
Hypothesis Closed : forall i, In i T -> exists n e d p parent cmds, h i = Some (BMenu n e d p parent cmds) /\
    (parent = None \/ exists q, parent = Some q /\ In q T) /\
    (forall k, In k cmds -> In k T \/ exists o, h k = Some o /\ forall a b c d e f, o <> BMenu a b c d e f).
Lemma try_cur g l : (forall k w, In k l -> e_cur T w (g k w)) -> forall w, e_cur T w (h_try g l w).
Proof.
  induction l as [|k l IH]; intros H w; [left; reflexivity|]. cbn [h_try]. apply e_cur_bind; [apply H; left; reflexivity|].
  apply IH. intros. apply H. right. assumption.
Qed.
Lemma exec_cur rest cmds : (forall k, In k cmds -> In k T \/ exists o, h k = Some o /\ forall a b c d e f, o <> BMenu a b c d e f) ->
  (forall k w, In k T -> e_cur T w (h_handle E no_builtin h rest false k w)) ->
  forall k w, In k cmds -> e_cur T w (match h k with
                                     | None => EUB
                                     | Some (BMenu _ _ _ _ _ _) => h_handle E no_builtin h rest false k w
                                     | Some o => exec_leaf E no_builtin (plain k o) rest w
                                     end).
Proof.
  intros H G k w Hk. destruct (H k Hk) as [Q|(o & Q & N)].
  - destruct (h k) as [[]|]; [apply leaf_cur|apply leaf_cur|apply G, Q|exact Logic.I].
  - rewrite Q. destruct o; [apply leaf_cur|apply leaf_cur|]. exfalso. eapply N. reflexivity.
Qed.
Lemma handle_cur toks : forall up i w, In i T -> e_cur T w (h_handle E no_builtin h toks up i w).
Proof.
  induction toks as [|t rest IH]; intros up i w Hi; destruct (Closed i Hi) as (n & e & d & p & parent & cmds & Eq & P & Q); cbn [h_handle]; rewrite Eq;
    (destruct (negb e); [left; reflexivity|]); [exact Logic.I|]. destruct (_ || _); [|left; reflexivity].
  destruct rest as [|t' rest]; [right; exact Hi|]. apply e_cur_bind.
  - apply try_cur. apply exec_cur; [exact Q|]. intros. apply IH. assumption.
  - intro w1. destruct P as [->|(q & -> & Hq)]; [left; reflexivity|]. apply IH. exact Hq.
Qed.
Lemma scan_cur toks i w : In i T -> e_cur T w (h_scan E no_builtin h toks i w).
Proof.
  intro Hi. destruct (Closed i Hi) as (n & e & d & p & parent & cmds & Eq & P & Q). unfold h_scan. rewrite Eq. destruct (negb e); [left; reflexivity|]. apply e_cur_bind.
  - apply try_cur. apply exec_cur; [exact Q|]. intros. apply handle_cur. assumption.
  - intro w1. destruct P as [->|(q & -> & Hq)]; [left; reflexivity|]. apply handle_cur. exact Hq.
Qed.
End Trapped.

(** ** For the properties *)
Lemma alone_run os : forall f f', f_run os f = Some f' -> forall i, In i (f_alone f') <-> In i (as_commands os) \/ In i (f_alone f).
Proof.
  induction os as [|o os IH]; intros f f' F i; cbn [f_run] in F.
  - injection F as <-. cbn. tauto.
  - destruct (f_step o f) as [f1|] eqn:Eo; [|discriminate]. rewrite (IH f1 f' F i).
    assert (G : In i (f_alone f1) <-> In i (as_commands [o]) \/ In i (f_alone f)).
    { destruct o as [n d p|m l|m x|m x|m b|k b|k|m]; cbn [f_step] in Eo.
      - injection Eo as <-. cbn. tauto.
      - destruct (mem m _); [|discriminate]. injection Eo as <-. cbn. tauto.
      - destruct (find _ _); [|discriminate]. destruct (mem m _); [|discriminate]. injection Eo as <-. cbn. tauto.
      - destruct (find _ _); [|discriminate]. destruct (mem m _); [|discriminate]. injection Eo as <-. cbn. tauto.
      - destruct (mem m _); [|discriminate]. injection Eo as <-. cbn. tauto.
      - destruct (nth_error _ _); injection Eo as <-; cbn; tauto.
      - destruct (nth_error _ _); injection Eo as <-; cbn; tauto.
      - destruct (existsb _ _); [|discriminate]. injection Eo as <-. cbn. tauto. }
    rewrite G. change (o :: os) with ([o] ++ os). unfold as_commands. rewrite flat_map_app, in_app_iff. tauto.
Qed.

(** A menu [o] of a tree that was inserted as a command. *)
Section Held.
Context (os : list hop) (f : forest) (s : hstate) (t o : cmd) (anc : list cmd).
Context (F : f_run os f_init = Some f) (Es : h_run os hs_init = Some s) (Ht : In t (f_trees f)) (C : chain t (o :: anc)) (Ho : In (cmd_id o) (as_commands os)).
Lemma held_rep : rep (f_alone f) (s_heap s) None o /\ NoDup (ids o) /\ is_menu o.
Proof.
  destruct (run_inv os _ _ _ hinv_init F) as (s0 & E0 & (R & _) & D & _). rewrite Es in E0. injection E0 as <-.
  rewrite Forall_forall in R. destruct (chain_rep_in _ t (R t Ht) _ C) as (m & a & Eq & M & Ro). injection Eq as <- <-.
  destruct (chain_nodup t _ (list_nodup _ _ D Ht) C) as (m & a & Eq & Dm). injection Eq as <- <-.
  split; [|split; assumption]. eapply alone_rep; [exact Ro|]. apply (alone_run os _ _ F). left. exact Ho.
Qed.
Lemma held_plain : (forall i, In i (menus_of o) -> In i (as_commands os) -> i = cmd_id o) -> rep [] (s_heap s) None o.
Proof.
  intro H. destruct held_rep as (R & D & _). apply (rep_plain (al := f_alone f)); [exact R| |exact D]. intros i Hi Q. apply H; [exact Hi|].
  apply (alone_run os _ _ F) in Q. destruct Q as [Q|[]]. exact Q.
Qed.
Lemma held_trapped E toks w : In (w_cur w) (menus_of o) ->
  match h_scan E no_builtin (s_heap s) toks (w_cur w) w with EDone _ w' | EExc _ w' => In (w_cur w') (menus_of o) | _ => True end.
Proof.
  intro H. destruct held_rep as (R & _ & _). assert (G : e_cur (menus_of o) w (h_scan E no_builtin (s_heap s) toks (w_cur w) w)).
  { apply scan_cur; [|exact H]. intros i Hi. destruct (rep_menu_obj _ o None i R Hi) as (n & e & d & p & par & cmds & Eq & P & Q).
    exists n, e, d, p, par, cmds. split; [exact Eq|]. split; [|exact Q]. destruct P as [P|[P|P]]; auto. }
  destruct (h_scan _ _ _ _ _ _) as [b w'|x w'| |]; cbn in G; try exact Logic.I; (destruct G as [->|G]; [exact H|exact G]).
Qed.
End Held.

Lemma which_alone os f s : f_run os f_init = Some f -> h_run os hs_init = Some s ->
  forall t m anc, In t (f_trees f) -> chain t (m :: anc) ->
  exists n e d p par cmds, s_heap s (cmd_id m) = Some (BMenu n e d p par cmds) /\
    (par = None <-> anc = [] \/ In (cmd_id m) (as_commands os)) /\
    (forall q, par = Some q -> exists a anc', anc = a :: anc' /\ cmd_id a = q).
Proof.
  intros F Es t m anc Ht C. destruct (run_inv os _ _ _ hinv_init F) as (s0 & E0 & (R & _) & _). rewrite Es in E0. injection E0 as <-.
  rewrite Forall_forall in R. destruct (chain_rep_in _ t (R t Ht) _ C) as (m' & a & Eq & M & Ro). injection Eq as <- <-.
  destruct M as (i & n & e & d & p & ks & ->). apply rep_menu in Ro as (Ro & _). cbn [cmd_id]. do 6 eexists. split; [exact Ro|].
  assert (A : In i (as_commands os) <-> mem i (f_alone f) = true).
  { rewrite mem_in, (alone_run os _ _ F). cbn. tauto. }
  rewrite A. destruct (mem i (f_alone f)) eqn:Q.
  - split; [tauto|]. discriminate.
  - destruct anc as [|b anc]; cbn [up_ptr].
    + split; [tauto|]. discriminate.
    + split; [split; [discriminate|intros [H|H]; discriminate]|]. intros q H. injection H as <-. eauto.
Qed.
