(** * Proofs about menu trees *)

From Verif Require Import Base MenuModel SessionModel ResolveSpec SessionSpec.
Open Scope nat_scope.
Open Scope list_scope.

Section Ind.
Context (P : cmd -> Prop)
  (Hfn : forall i n e d p pd h, P (CFn i n e d p pd h))
  (Hfree : forall i n e d pd h, P (CFree i n e d pd h))
  (Hmenu : forall i n e d p ks, Forall P ks -> P (CMenu i n e d p ks)).
Fixpoint cmd_ind2 (c : cmd) : P c :=
  match c with
  | CFn i n e d p pd h => Hfn i n e d p pd h
  | CFree i n e d pd h => Hfree i n e d pd h
  | CMenu i n e d p ks =>
      Hmenu i n e d p ks
        ((fix go l : Forall P l := match l with [] => Forall_nil P | k :: l' => Forall_cons k (cmd_ind2 k) (go l') end) ks)
  end.
End Ind.

(** ** Lists *)
Lemma NoDup_app_iff {A} (l m : list A) :
  NoDup (l ++ m) <-> NoDup l /\ NoDup m /\ (forall x, In x l -> ~ In x m).
Proof.
  induction l as [|x l IH]; cbn.
  - split; [intros H; repeat split; auto; constructor|tauto].
  - rewrite !NoDup_cons_iff, IH, in_app_iff. split.
    + intros (Hn & Hl & Hm & Hd). repeat split; auto. intros y [<-|Hy]; auto.
    + intros ((Hn & Hl) & Hm & Hd). repeat split; auto. intros [H|H]; [auto|]. apply (Hd x); auto.
Qed.

Definition kids_ids (l : list cmd) : list nat := flat_map ids l.
Lemma ids_menu i n e d p ks : ids (CMenu i n e d p ks) = i :: kids_ids ks.
Proof. reflexivity. Qed.
Lemma ids_hd c : In (cmd_id c) (ids c).
Proof. destruct c; left; reflexivity. Qed.
Lemma in_kids_ids x l : In x (kids_ids l) <-> exists k, In k l /\ In x (ids k).
Proof. apply in_flat_map. Qed.
Lemma kids_ids_app l m : kids_ids (l ++ m) = kids_ids l ++ kids_ids m.
Proof. apply flat_map_app. Qed.
Lemma kid_nodup i n e d p ks k : NoDup (ids (CMenu i n e d p ks)) -> In k ks -> NoDup (ids k).
Proof.
  rewrite ids_menu, NoDup_cons_iff. intros (_ & H) Hin.
  apply in_split in Hin as (l1 & l2 & ->). rewrite kids_ids_app, NoDup_app_iff in H. destruct H as (_ & H & _).
  cbn in H. rewrite NoDup_app_iff in H. tauto.
Qed.

(** ** [locate] *)
Definition locate_list (id : nat) (anc : list cmd) := fix go (l : list cmd) : option (list cmd) :=
  match l with [] => None | k :: l' => match locate id anc k with Some p => Some p | None => go l' end end.
Lemma locate_menu id anc i n e d p ks :
  locate id anc (CMenu i n e d p ks) =
  if Nat.eqb i id then Some (CMenu i n e d p ks :: anc)
  else locate_list id (CMenu i n e d p ks :: anc) ks.
Proof. reflexivity. Qed.

Lemma locate_list_some id anc l ctx : locate_list id anc l = Some ctx ->
  exists k, In k l /\ locate id anc k = Some ctx.
Proof.
  induction l as [|k l IH]; cbn; [discriminate|].
  destruct (locate id anc k) eqn:Hk.
  - intros H. injection H as <-. exists k. auto.
  - intros H. destruct (IH H) as (k' & Hin & Hk'). exists k'. auto.
Qed.

Lemma locate_in c : forall id anc ctx, locate id anc c = Some ctx -> In id (ids c).
Proof.
  induction c as [i n e d p pd h|i n e d pd h|i n e d p ks IH] using cmd_ind2; intros id anc ctx H; try discriminate.
  rewrite locate_menu in H. rewrite ids_menu. destruct (Nat.eqb_spec i id) as [->|Hn]; [left; reflexivity|].
  apply locate_list_some in H as (k & Hin & Hk). right. apply in_kids_ids. exists k. split; [exact Hin|].
  rewrite Forall_forall in IH. eapply IH; eassumption.
Qed.

Lemma locate_chain root c : forall id anc ctx, (is_menu c -> chain root (c :: anc)) -> locate id anc c = Some ctx ->
  chain root ctx /\ exists m r, ctx = m :: r /\ cmd_id m = id.
Proof.
  induction c as [i n e d p pd h|i n e d pd h|i n e d p ks IH] using cmd_ind2; intros id anc ctx Hc H; try discriminate.
  rewrite locate_menu in H. assert (Hm : is_menu (CMenu i n e d p ks)) by (repeat eexists).
  destruct (Nat.eqb_spec i id) as [->|Hn].
  - injection H as <-. split; [auto|]. repeat eexists.
  - apply locate_list_some in H as (k & Hin & Hk). rewrite Forall_forall in IH.
    apply (IH k Hin) in Hk; [exact Hk|]. intros Hmk. apply chain_sub; auto.
Qed.

(** The same chains, from the root down. *)
Inductive down : cmd -> list cmd -> list cmd -> Prop :=
| down_here c anc : is_menu c -> down c anc (c :: anc)
| down_kid c anc k ctx : is_menu c -> In k (cmd_kids c) -> down k (c :: anc) ctx -> down c anc ctx.

Lemma down_snoc c anc m r k : down c anc (m :: r) -> In k (cmd_kids m) -> is_menu k -> down c anc (k :: m :: r).
Proof.
  intros H. remember (m :: r) as ctx eqn:Hc. revert m r Hc.
  induction H as [c anc Hm|c anc k' ctx Hm Hin Hd IH]; intros m r Hc Hk Hmk.
  - injection Hc as <- <-. eapply down_kid; eauto. constructor. exact Hmk.
  - eapply down_kid; eauto.
Qed.
Lemma chain_down root ctx : chain root ctx -> down root [] ctx.
Proof. intros H. induction H as [H|k p anc H IH Hin Hk]; [constructor; exact H|]. apply down_snoc; auto. Qed.

Lemma down_id c anc m r : down c anc (m :: r) -> In (cmd_id m) (ids c).
Proof.
  intros H. remember (m :: r) as ctx eqn:Hc. revert m r Hc.
  induction H as [c anc Hm|c anc k' ctx Hm Hin Hd IH]; intros m r Hc.
  - injection Hc as <- <-. apply ids_hd.
  - destruct Hm as (i & n & e & d & p & ks & ->). rewrite ids_menu. right. apply in_kids_ids.
    exists k'. split; [exact Hin|]. eapply IH. exact Hc.
Qed.

Lemma locate_list_found id anc l1 k l2 ctx : ~ In id (kids_ids l1) -> locate id anc k = Some ctx ->
  locate_list id anc (l1 ++ k :: l2) = Some ctx.
Proof.
  intros H Hk. induction l1 as [|x l1 IH]; cbn.
  - rewrite Hk. reflexivity.
  - destruct (locate id anc x) eqn:Hx.
    + exfalso. apply H. apply locate_in in Hx. cbn. apply in_or_app. left. exact Hx.
    + apply IH. intros Hin. apply H. cbn. apply in_or_app. right. exact Hin.
Qed.

Lemma down_locate c anc ctx : down c anc ctx -> NoDup (ids c) -> forall m r, ctx = m :: r ->
  locate (cmd_id m) anc c = Some ctx.
Proof.
  intros H. induction H as [c anc Hm|c anc k ctx Hm Hin Hd IH]; intros Hnd m r Hc.
  - injection Hc as <- <-. destruct Hm as (i & n & e & d & p & ks & ->).
    rewrite locate_menu. cbn. rewrite Nat.eqb_refl. reflexivity.
  - destruct Hm as (i & n & e & d & p & ks & ->). cbn in Hin.
    pose proof (kid_nodup _ _ _ _ _ _ _ Hnd Hin) as Hk.
    pose proof (IH Hk m r Hc) as Hl. rewrite Hc in Hd. apply down_id in Hd.
    rewrite locate_menu. rewrite ids_menu, NoDup_cons_iff in Hnd. destruct Hnd as (Hi & Hnd).
    destruct (Nat.eqb_spec i (cmd_id m)) as [->|Hn].
    + exfalso. apply Hi. apply in_kids_ids. exists k. auto.
    + apply in_split in Hin as (l1 & l2 & ->). apply locate_list_found; [|exact Hl].
      intros Hin. rewrite kids_ids_app, NoDup_app_iff in Hnd. destruct Hnd as (_ & _ & Hnd).
      apply (Hnd _ Hin). cbn. apply in_or_app. left. exact Hd.
Qed.

Lemma locate_spec root id ctx : unique_ids root ->
  (locate id [] root = Some ctx <-> chain root ctx /\ exists m anc, ctx = m :: anc /\ cmd_id m = id).
Proof.
  intros Hu. split.
  - apply locate_chain. intros Hm. constructor. exact Hm.
  - intros (Hc & m & anc & -> & <-). eapply down_locate; [|exact Hu|reflexivity]. apply chain_down. exact Hc.
Qed.

Lemma in_menu_locate w ctx : unique_ids (w_root w) -> in_menu w ctx -> locate (w_cur w) [] (w_root w) = Some ctx.
Proof. intros Hu (Hc & H). apply locate_spec; auto. Qed.
Lemma locate_in_menu w ctx : locate (w_cur w) [] (w_root w) = Some ctx -> in_menu w ctx.
Proof. intros H. eapply locate_chain in H; [exact H|]. intros Hm. constructor. exact Hm. Qed.
Lemma in_menu_unique w ctx ctx' : unique_ids (w_root w) -> in_menu w ctx -> in_menu w ctx' -> ctx = ctx'.
Proof. intros Hu H H'. apply in_menu_locate in H, H'; auto. congruence. Qed.

(** ** Menus of a tree *)
Fixpoint menu_ids (c : cmd) : list nat :=
  match c with CMenu i _ _ _ _ ks => i :: flat_map menu_ids ks | _ => [] end.

Lemma menu_ids_locate c : forall anc id, In id (menu_ids c) <-> exists ctx, locate id anc c = Some ctx.
Proof.
  induction c as [i n e d p pd h|i n e d pd h|i n e d p ks IH] using cmd_ind2; intros anc id.
  1,2: cbn; split; [intros []|intros (? & H); discriminate].
  cbn [menu_ids]. rewrite locate_menu. destruct (Nat.eqb_spec i id) as [->|Hn].
  - split; [eauto|]. left. reflexivity.
  - cbn [In]. rewrite in_flat_map. rewrite Forall_forall in IH. split.
    + intros [?|(k & Hin & Hk)]; [congruence|]. apply (IH k Hin (CMenu i n e d p ks :: anc)) in Hk as (ctx & Hk).
      clear - Hin Hk. induction ks as [|x ks IHk]; [destruct Hin|]. cbn.
      destruct (locate id (CMenu i n e d p (x :: ks) :: anc) x) as [ctx'|] eqn:Hx; [eauto|].
      destruct Hin as [->|Hin]; [congruence|].
      assert (Hgen : forall A l k, In k l -> (exists c, locate id A k = Some c) -> exists c, locate_list id A l = Some c).
      { clear. intros A l k. induction l as [|y l IH]; intros [] (c & Hc); cbn.
        - subst. rewrite Hc. eauto.
        - destruct (locate id A y); eauto. }
      eapply Hgen; eauto.
    + intros (ctx & H). right. apply locate_list_some in H as (k & Hin & Hk). exists k. split; [exact Hin|].
      apply (IH k Hin (CMenu i n e d p ks :: anc)). eauto.
Qed.

Lemma menu_ids_ids c x : In x (menu_ids c) -> In x (ids c).
Proof.
  intros H. apply (menu_ids_locate c []) in H as (ctx & H). eapply locate_in. exact H.
Qed.
Lemma live_spec w : live w <-> In (w_cur w) (menu_ids (w_root w)).
Proof.
  rewrite (menu_ids_locate _ []). split.
  - intros (ctx & Hc & m & anc & -> & Hm). apply (menu_ids_locate _ []).
    rewrite <- Hm. apply chain_down in Hc. clear Hm.
    remember (m :: anc) as ctx eqn:Hctx. remember [] as a0 eqn:Ha. clear Ha. revert m anc Hctx.
    induction Hc as [c a Hm|c a k ctx Hm Hin Hd IH]; intros m anc Hctx.
    + injection Hctx as <- <-. destruct Hm as (i & n & e & d & p & ks & ->). left. reflexivity.
    + destruct Hm as (i & n & e & d & p & ks & ->). cbn. right. apply in_flat_map. exists k. split; [exact Hin|].
      eapply IH. exact Hctx.
  - intros (ctx & H). exists ctx. apply locate_in_menu. exact H.
Qed.

(** ** Enabling and disabling *)
Lemma set_enabled_id id b c : cmd_id (set_enabled id b c) = cmd_id c.
Proof. destruct c; reflexivity. Qed.
Lemma flat_map_map {A B C} (f : B -> list C) (g : A -> B) l : flat_map f (map g l) = flat_map (fun x => f (g x)) l.
Proof. induction l as [|x l IH]; cbn; [reflexivity|]. rewrite IH. reflexivity. Qed.
Lemma flat_map_ext_in {A B} (f g : A -> list B) l : (forall x, In x l -> f x = g x) -> flat_map f l = flat_map g l.
Proof.
  intros H. induction l as [|x l IH]; cbn; [reflexivity|].
  rewrite (H x) by (left; reflexivity). rewrite IH; [reflexivity|]. intros y Hy. apply H. right. exact Hy.
Qed.
Lemma map_flat_map {A B C} (f : B -> C) (g : A -> list B) l : map f (flat_map g l) = flat_map (fun x => map f (g x)) l.
Proof. induction l as [|x l IH]; cbn; [reflexivity|]. rewrite map_app, IH. reflexivity. Qed.

Lemma set_enabled_ids id b c : ids (set_enabled id b c) = ids c.
Proof.
  induction c as [i n e d p pd h|i n e d pd h|i n e d p ks IH] using cmd_ind2; try reflexivity.
  cbn [set_enabled]. rewrite !ids_menu. f_equal. unfold kids_ids. rewrite flat_map_map.
  apply flat_map_ext_in. intros k Hk. rewrite Forall_forall in IH. auto.
Qed.
Lemma set_enabled_menus id b c : menu_ids (set_enabled id b c) = menu_ids c.
Proof.
  induction c as [i n e d p pd h|i n e d pd h|i n e d p ks IH] using cmd_ind2; try reflexivity.
  cbn [set_enabled menu_ids]. f_equal. rewrite flat_map_map.
  apply flat_map_ext_in. intros k Hk. rewrite Forall_forall in IH. auto.
Qed.

Lemma set_enabled_flat id b c : forall above, flat above (set_enabled id b c) = map (flip id b) (flat above c).
Proof.
  induction c as [i n e d p pd h|i n e d pd h|i n e d p ks IH] using cmd_ind2; intros above.
  - cbn. unfold flip. cbn. destruct (Nat.eqb i id); reflexivity.
  - cbn. unfold flip. cbn. destruct (Nat.eqb i id); reflexivity.
  - cbn [set_enabled flat map]. f_equal.
    + unfold flip. cbn. destruct (Nat.eqb i id); reflexivity.
    + rewrite flat_map_map, map_flat_map. apply flat_map_ext_in. intros k Hk.
      rewrite Forall_forall in IH. auto.
Qed.

Lemma set_enabled_absent id b c : ~ In id (ids c) -> set_enabled id b c = c.
Proof.
  induction c as [i n e d p pd h|i n e d pd h|i n e d p ks IH] using cmd_ind2; intros H; cbn.
  - destruct (Nat.eqb_spec i id) as [->|]; [|reflexivity]. destruct H. left. reflexivity.
  - destruct (Nat.eqb_spec i id) as [->|]; [|reflexivity]. destruct H. left. reflexivity.
  - rewrite ids_menu in H. destruct (Nat.eqb_spec i id) as [->|]; [destruct H; left; reflexivity|].
    f_equal. rewrite <- (map_id ks) at 2. apply map_ext_in. intros k Hk. rewrite Forall_forall in IH.
    apply IH; [exact Hk|]. intros Hin. apply H. right. apply in_kids_ids. eauto.
Qed.

(** ** Removing *)
Definition remove_list (id : nat) := fix go (l : list cmd) : list cmd :=
  match l with
  | [] => []
  | k :: l' => if Nat.eqb (cmd_id k) id then l' else remove_cmd id k :: go l'
  end.
Lemma remove_menu id i n e d p ks :
  remove_cmd id (CMenu i n e d p ks) = CMenu i n e d p (remove_list id ks).
Proof. reflexivity. Qed.

Lemma remove_absent_list id l : Forall (fun c => ~ In id (ids c) -> remove_cmd id c = c) l ->
  ~ In id (kids_ids l) -> remove_list id l = l.
Proof.
  intros H. induction H as [|k l Hk Hl IH]; intros Hn; [reflexivity|]. cbn.
  destruct (Nat.eqb_spec (cmd_id k) id) as [He|He].
  - exfalso. apply Hn. cbn. apply in_or_app. left. rewrite <- He. apply ids_hd.
  - cbn in Hn. rewrite in_app_iff in Hn. rewrite Hk, IH; tauto.
Qed.
Lemma remove_absent id c : ~ In id (ids c) -> remove_cmd id c = c.
Proof.
  induction c as [i n e d p pd h|i n e d pd h|i n e d p ks IH] using cmd_ind2; intros H; try reflexivity.
  rewrite remove_menu. f_equal. apply remove_absent_list; [exact IH|].
  intros Hin. apply H. rewrite ids_menu. right. exact Hin.
Qed.
Lemma remove_id id c : cmd_id (remove_cmd id c) = cmd_id c.
Proof. destruct c; reflexivity. Qed.

(** Ids after removal: a part of the ids before. *)
Lemma remove_ids_in id c : forall x, In x (ids (remove_cmd id c)) -> In x (ids c).
Proof.
  induction c as [i n e d p pd h|i n e d pd h|i n e d p ks IH] using cmd_ind2; intros x H; try exact H.
  rewrite remove_menu, ids_menu in H. rewrite ids_menu. destruct H as [H|H]; [left; exact H|right].
  induction IH as [|k l Hk Hl IHl]; [exact H|]. cbn in H.
  destruct (Nat.eqb (cmd_id k) id).
  - cbn. apply in_or_app. right. exact H.
  - cbn in H |- *. apply in_app_or in H as [H|H]; apply in_or_app; [left; auto|right; auto].
Qed.
Lemma remove_nodup id c : NoDup (ids c) -> NoDup (ids (remove_cmd id c)).
Proof.
  induction c as [i n e d p pd h|i n e d pd h|i n e d p ks IH] using cmd_ind2; intros H; try exact H.
  rewrite remove_menu, ids_menu. rewrite ids_menu in H. apply NoDup_cons_iff in H as (Hi & H).
  assert (Hin : forall x, In x (kids_ids (remove_list id ks)) -> In x (kids_ids ks)).
  { intros x Hx. pose proof (remove_ids_in id (CMenu i n e d p ks) x) as Hr.
    rewrite remove_menu, !ids_menu in Hr. specialize (Hr (or_intror Hx)).
    destruct Hr as [<-|Hr]; [|exact Hr]. exfalso.
    clear - Hi Hx. induction ks as [|k ks IHk]; [destruct Hx|]. cbn in Hx.
    destruct (Nat.eqb (cmd_id k) id).
    - apply Hi. cbn. apply in_or_app. right. exact Hx.
    - cbn in Hx, Hi. rewrite in_app_iff in Hx, Hi. destruct Hx as [Hx|Hx]; [|tauto].
      apply remove_ids_in in Hx. tauto. }
  constructor; [auto|].
  clear Hi Hin. induction IH as [|k l Hk Hl IHl]; [exact H|]. cbn in *.
  apply NoDup_app_iff in H as (H1 & H2 & H3).
  destruct (Nat.eqb (cmd_id k) id); [exact H2|]. cbn. apply NoDup_app_iff. split; [auto|]. split; [auto|].
  intros x Hx Hx2. apply remove_ids_in in Hx. apply (H3 x Hx).
  clear - Hx2. induction l as [|y l IH]; [exact Hx2|]. cbn in Hx2 |- *.
  destruct (Nat.eqb (cmd_id y) id); [apply in_or_app; right; exact Hx2|].
  cbn in Hx2. apply in_app_or in Hx2 as [H|H]; apply in_or_app; [left; eapply remove_ids_in; exact H|right; auto].
Qed.

(** With unique ids, exactly the command and what it contains go. *)
Lemma untouched_above id c : forall above, In id above -> filter (untouched id) (flat above c) = [].
Proof.
  induction c as [i n e d p pd h|i n e d pd h|i n e d p ks IH] using cmd_ind2; intros above Hin.
  1,2: cbn; unfold untouched; cbn; assert (existsb (Nat.eqb id) above = true) as ->
    by (apply existsb_exists; exists id; split; [exact Hin|apply Nat.eqb_refl]); rewrite orb_true_r; reflexivity.
  cbn [flat filter]. unfold untouched at 1. cbn [fst snd label_id existsb].
  assert (existsb (Nat.eqb id) above = true) as -> by (apply existsb_exists; exists id; split; [exact Hin|apply Nat.eqb_refl]).
  rewrite orb_true_r. cbn [negb].
  induction IH as [|k l Hk Hl IHl]; [reflexivity|]. cbn. rewrite filter_app, IHl, (Hk (i :: above)) by (right; exact Hin).
  reflexivity.
Qed.
Lemma untouched_absent id c : forall above, ~ In id (ids c) -> ~ In id above ->
  filter (untouched id) (flat above c) = flat above c.
Proof.
  assert (Hx : forall i above, i <> id -> ~ In id above -> existsb (Nat.eqb id) (i :: above) = false).
  { intros i above Hi Ha. apply not_true_is_false. intros H. apply existsb_exists in H as (x & [->|Hin] & He).
    - apply Nat.eqb_eq in He. congruence.
    - apply Nat.eqb_eq in He. subst. tauto. }
  induction c as [i n e d p pd h|i n e d pd h|i n e d p ks IH] using cmd_ind2; intros above Hn Ha.
  1,2: cbn [flat filter]; unfold untouched; cbn [fst snd label_id]; rewrite Hx;
    [reflexivity|intros ->; apply Hn; left; reflexivity|exact Ha].
  rewrite ids_menu in Hn. cbn [flat filter]. unfold untouched at 1. cbn [fst snd label_id].
  rewrite Hx; [|intros ->; apply Hn; left; reflexivity|exact Ha]. cbn [negb]. f_equal.
  assert (Hi : i <> id) by (intros ->; apply Hn; left; reflexivity).
  assert (Hk : ~ In id (kids_ids ks)) by (intros H; apply Hn; right; exact H). clear Hn.
  induction IH as [|k l Hkk Hl IHl]; [reflexivity|]. cbn in Hk |- *. rewrite in_app_iff in Hk.
  rewrite filter_app, Hkk, IHl; [reflexivity|tauto|tauto|]. intros [|]; tauto.
Qed.
Lemma filter_flat_map {A B} (f : B -> bool) (g : A -> list B) l :
  filter f (flat_map g l) = flat_map (fun x => filter f (g x)) l.
Proof. induction l as [|x l IH]; cbn; [reflexivity|]. rewrite filter_app, IH. reflexivity. Qed.

Lemma remove_flat id c : forall above, NoDup (ids c) -> cmd_id c <> id -> ~ In id above ->
  flat above (remove_cmd id c) = filter (untouched id) (flat above c).
Proof.
  induction c as [i n e d p pd h|i n e d pd h|i n e d p ks IH] using cmd_ind2; intros above Hnd Hid Ha.
  1,2: cbn [remove_cmd]; symmetry; apply untouched_absent; [intros [Hx|[]]; apply Hid; exact Hx|exact Ha].
  rewrite remove_menu. cbn [flat filter]. unfold untouched at 1. cbn [fst snd label_id existsb].
  cbn in Hid. assert (Hd0 : Nat.eqb id i = false) by (apply Nat.eqb_neq; congruence). rewrite Hd0. cbn [orb].
  assert (existsb (Nat.eqb id) above = false) as ->.
  { apply not_true_is_false. intros H. apply existsb_exists in H as (x & Hin & He). apply Nat.eqb_eq in He. subst. tauto. }
  cbn [negb]. f_equal. rewrite ids_menu in Hnd. apply NoDup_cons_iff in Hnd as (Hi & Hnd).
  assert (Ha' : ~ In id (i :: above)) by (intros [|]; tauto).
  clear Hi. induction IH as [|k l Hk Hl IHl]; [reflexivity|]. cbn in Hnd |- *.
  apply NoDup_app_iff in Hnd as (H1 & H2 & H3). rewrite filter_app.
  destruct (Nat.eqb_spec (cmd_id k) id) as [He|He].
  - assert (filter (untouched id) (flat (i :: above) k) = []) as ->.
    { subst id. clear - Ha'. destruct k as [j n e d p pd h|j n e d pd h|j n e d p ks]; cbn [cmd_id] in *.
      - cbn. unfold untouched. cbn. rewrite Nat.eqb_refl. reflexivity.
      - cbn. unfold untouched. cbn. rewrite Nat.eqb_refl. reflexivity.
      - cbn [flat filter]. unfold untouched at 1. cbn [fst snd label_id existsb]. rewrite Nat.eqb_refl. cbn [orb negb].
        rewrite filter_flat_map.
        induction ks as [|y ks IH]; [reflexivity|]. cbn. rewrite untouched_above by (left; reflexivity). exact IH. }
    cbn. rewrite filter_flat_map. symmetry. apply flat_map_ext_in. intros y Hy.
    apply untouched_absent; [|exact Ha']. intros Hin. apply (H3 id); [rewrite <- He; apply ids_hd|].
    apply in_kids_ids. eauto.
  - cbn [flat_map]. rewrite Hk by assumption. f_equal. apply IHl. exact H2.
Qed.

(** Removing something that contains no menu of interest. *)
Lemma remove_menus id c : ~ In id (menu_ids c) -> menu_ids (remove_cmd id c) = menu_ids c.
Proof.
  induction c as [i n e d p pd h|i n e d pd h|i n e d p ks IH] using cmd_ind2; intros H; try reflexivity.
  rewrite remove_menu. cbn [menu_ids] in *. f_equal.
  assert (Hk : ~ In id (flat_map menu_ids ks)) by (intros Hin; apply H; right; exact Hin). clear H.
  induction IH as [|k l Hkk Hl IHl]; [reflexivity|]. cbn in Hk |- *. rewrite in_app_iff in Hk.
  destruct (Nat.eqb_spec (cmd_id k) id) as [He|He].
  - destruct k; cbn in *; [reflexivity|reflexivity|]. exfalso. apply Hk. left. left. exact He.
  - cbn. rewrite Hkk, IHl; tauto.
Qed.

(** ** Inserting *)
Definition relabel_list := fix go (n : nat) (l : list cmd) : list cmd * nat :=
  match l with
  | [] => ([], n)
  | k :: l' => let (k', n1) := relabel n k in let (r, n2) := go n1 l' in (k' :: r, n2)
  end.
Lemma relabel_menu n i nm e d p ks :
  relabel n (CMenu i nm e d p ks) = let (ks', n') := relabel_list (S n) ks in (CMenu n nm e d p ks', n').
Proof. reflexivity. Qed.

Lemma relabel_ids c : forall n, let (c', n') := relabel n c in
  n < n' /\ ids c' = seq n (n' - n).
Proof.
  induction c as [i nm e d p pd h|i nm e d pd h|i nm e d p ks IH] using cmd_ind2; intros n.
  1,2: cbn [relabel ids cmd_id]; replace (S n - n) with 1 by lia; split; [lia|reflexivity].
  rewrite relabel_menu.
  assert (H : forall m, let (l', m') := relabel_list m ks in m <= m' /\ kids_ids l' = seq m (m' - m)).
  { induction IH as [|k l Hk Hl IHl]; intros m; cbn.
    - rewrite Nat.sub_diag. split; [lia|reflexivity].
    - specialize (Hk m). destruct (relabel m k) as (k', n1). specialize (IHl n1).
      destruct (relabel_list n1 l) as (l', n2). destruct Hk as (Hk1 & Hk2), IHl as (Hl1 & Hl2).
      split; [lia|]. cbn. rewrite Hk2. unfold kids_ids in Hl2. rewrite Hl2.
      replace (n2 - m) with ((n1 - m) + (n2 - n1)) by lia. rewrite seq_app. do 2 f_equal. lia. }
  specialize (H (S n)). destruct (relabel_list (S n) ks) as (ks', n'). destruct H as (H1 & H2).
  split; [lia|]. rewrite ids_menu, H2. replace (n' - n) with (S (n' - S n)) by lia. reflexivity.
Qed.

Lemma insert_absent pid x c : ~ In pid (menu_ids c) -> insert_cmd pid x c = c.
Proof.
  induction c as [i n e d p pd h|i n e d pd h|i n e d p ks IH] using cmd_ind2; intros H; try reflexivity.
  cbn [insert_cmd menu_ids] in *. destruct (Nat.eqb_spec i pid) as [->|Hn]; [destruct H; left; reflexivity|].
  f_equal. rewrite <- (map_id ks) at 2. apply map_ext_in. intros k Hk. rewrite Forall_forall in IH.
  apply IH; [exact Hk|]. intros Hin. apply H. right. apply in_flat_map. eauto.
Qed.
Lemma insert_menu pid x i n e d p ks :
  insert_cmd pid x (CMenu i n e d p ks) =
  CMenu i n e d p (if Nat.eqb i pid then map (insert_cmd pid x) ks ++ [x] else map (insert_cmd pid x) ks).
Proof. reflexivity. Qed.
Lemma insert_map_absent pid x ks : ~ In pid (kids_ids ks) -> map (insert_cmd pid x) ks = ks.
Proof.
  intros H. rewrite <- (map_id ks) at 2. apply map_ext_in. intros k Hk. apply insert_absent.
  intros Hin. apply H. apply in_kids_ids. exists k. split; [exact Hk|]. apply menu_ids_ids. exact Hin.
Qed.

Lemma insert_ids pid x c : NoDup (ids c) -> In pid (menu_ids c) ->
  Permutation (ids (insert_cmd pid x c)) (ids c ++ ids x).
Proof.
  induction c as [i n e d p pd h|i n e d pd h|i n e d p ks IH] using cmd_ind2; intros Hnd Hin; try destruct Hin.
  - subst i. rewrite insert_menu, Nat.eqb_refl. rewrite ids_menu in Hnd. apply NoDup_cons_iff in Hnd as (Hi & Hnd).
    rewrite insert_map_absent by exact Hi. rewrite !ids_menu, kids_ids_app. cbn. rewrite app_nil_r. reflexivity.
  - rewrite insert_menu. pose proof Hnd as Hnd0. rewrite ids_menu in Hnd. apply NoDup_cons_iff in Hnd as (Hi & Hnd).
    assert (Hpk : In pid (kids_ids ks)).
    { apply in_flat_map in H as (k & Hk & H). apply in_kids_ids. exists k. split; [exact Hk|apply menu_ids_ids; exact H]. }
    destruct (Nat.eqb_spec i pid) as [->|Hn]; [tauto|].
    rewrite !ids_menu. cbn. constructor. clear Hi Hpk Hnd0.
    induction IH as [|k l Hk Hl IHl]; [destruct H|]. cbn in *. apply NoDup_app_iff in Hnd as (H1 & H2 & H3).
    apply in_app_or in H as [H|H].
    + assert (Hl' : ~ In pid (kids_ids l)) by (apply H3; apply menu_ids_ids; exact H).
      rewrite insert_map_absent by exact Hl'. rewrite (Hk H1 H).
      rewrite <- !app_assoc. apply Permutation_app_head. apply Permutation_app_comm.
    + assert (Hkp : ~ In pid (menu_ids k)).
      { intros Hx. apply menu_ids_ids in Hx. apply (H3 _ Hx). apply in_flat_map in H as (y & Hy & H).
        apply in_kids_ids. exists y. split; [exact Hy|apply menu_ids_ids; exact H]. }
      rewrite insert_absent by exact Hkp. rewrite (IHl H2 H). rewrite app_assoc. reflexivity.
Qed.

Lemma insert_menus_mono pid x c : forall y, In y (menu_ids c) -> In y (menu_ids (insert_cmd pid x c)).
Proof.
  induction c as [i n e d p pd h|i n e d pd h|i n e d p ks IH] using cmd_ind2; intros y H; try exact H.
  rewrite insert_menu. cbn [menu_ids] in *. destruct H as [H|H]; [left; exact H|right].
  assert (Hm : In y (flat_map menu_ids (map (insert_cmd pid x) ks))).
  { rewrite flat_map_map. apply in_flat_map in H as (k & Hk & H). apply in_flat_map. exists k. split; [exact Hk|].
    rewrite Forall_forall in IH. auto. }
  destruct (Nat.eqb i pid); [|exact Hm]. rewrite flat_map_app. apply in_or_app. left. exact Hm.
Qed.
Lemma insert_menus_in pid x c : forall y, In y (menu_ids (insert_cmd pid x c)) -> In y (menu_ids c) \/ In y (menu_ids x).
Proof.
  induction c as [i n e d p pd h|i n e d pd h|i n e d p ks IH] using cmd_ind2; intros y H; try (left; exact H).
  rewrite insert_menu in H. cbn [menu_ids] in *. destruct H as [H|H]; [left; left; exact H|].
  assert (Hm : In y (flat_map menu_ids (map (insert_cmd pid x) ks)) -> In y (flat_map menu_ids ks) \/ In y (menu_ids x)).
  { rewrite flat_map_map. intros Hy. apply in_flat_map in Hy as (k & Hk & Hy). rewrite Forall_forall in IH.
    apply (IH k Hk) in Hy as [Hy|Hy]; [left; apply in_flat_map; eauto|right; exact Hy]. }
  destruct (Nat.eqb i pid).
  - rewrite flat_map_app in H. apply in_app_or in H as [H|H]; [cbn [In]; tauto|]. cbn in H. rewrite app_nil_r in H. tauto.
  - cbn [In]. tauto.
Qed.

(** The inserted command appears in its menu, after everything it contained. *)
Lemma flat_hd c : forall above y, In y (flat above c) ->
  hd_error (fst y) = hd_error above \/ exists i, hd_error (fst y) = Some i /\ In i (ids c).
Proof.
  induction c as [i n e d p pd h|i n e d pd h|i n e d p ks IH] using cmd_ind2; intros above y H.
  1,2: destruct H as [<-|[]]; left; reflexivity.
  destruct H as [<-|H]; [left; reflexivity|]. right. apply in_flat_map in H as (k & Hk & H).
  rewrite Forall_forall in IH. apply (IH k Hk) in H as [H|(j & H & Hj)].
  - exists i. split; [exact H|left; reflexivity].
  - exists j. split; [exact H|]. rewrite ids_menu. right. apply in_kids_ids. eauto.
Qed.

Lemma insert_flat pid x c : forall above, NoDup (ids c) -> In pid (menu_ids c) ->
  exists l1 up l l2, flat above c = l1 ++ l2 /\
    flat above (insert_cmd pid x c) = l1 ++ flat (pid :: up) x ++ l2 /\
    In (up, l) l1 /\ label_id l = pid /\
    Forall (fun y => hd_error (fst y) <> Some pid) l2.
Proof.
  induction c as [i n e d p pd h|i n e d pd h|i n e d p ks IH] using cmd_ind2; intros above Hnd Hin; try destruct Hin.
  - subst i. rewrite insert_menu, Nat.eqb_refl. rewrite ids_menu in Hnd. apply NoDup_cons_iff in Hnd as (Hi & Hnd).
    rewrite insert_map_absent by exact Hi. cbn [flat]. rewrite flat_map_app. cbn. rewrite app_nil_r.
    exists ((above, LMenu pid n e d p) :: flat_map (flat (pid :: above)) ks), above, (LMenu pid n e d p), [].
    rewrite !app_nil_r. split; [reflexivity|]. split; [reflexivity|]. split; [left; reflexivity|].
    split; [reflexivity|constructor].
  - rewrite insert_menu. rewrite ids_menu in Hnd. apply NoDup_cons_iff in Hnd as (Hi & Hnd).
    assert (Hpk : In pid (kids_ids ks)).
    { apply in_flat_map in H as (k & Hk & H). apply in_kids_ids. exists k. split; [exact Hk|apply menu_ids_ids; exact H]. }
    destruct (Nat.eqb_spec i pid) as [->|Hn]; [tauto|]. clear Hpk Hi.
    cbn [flat].
    enough (HH : exists l1 up l l2, flat_map (flat (i :: above)) ks = l1 ++ l2 /\
      flat_map (flat (i :: above)) (map (insert_cmd pid x) ks) = l1 ++ flat (pid :: up) x ++ l2 /\
      In (up, l) l1 /\ label_id l = pid /\ Forall (fun y => hd_error (fst y) <> Some pid) l2).
    { destruct HH as (l1 & up & l & l2 & -> & -> & H1 & H2 & H3).
      exists ((above, LMenu i n e d p) :: l1), up, l, l2. split; [reflexivity|]. split; [reflexivity|].
      split; [right; exact H1|]. auto. }
    induction IH as [|k ks Hk Hks IHk]; [destruct H|]. cbn in H, Hnd |- *.
    apply NoDup_app_iff in Hnd as (N1 & N2 & N3). apply in_app_or in H as [H|H].
    + destruct (Hk (i :: above) N1 H) as (l1 & up & l & l2 & -> & -> & H1 & H2 & H3).
      assert (Hno : ~ In pid (kids_ids ks)) by (apply N3, menu_ids_ids; exact H).
      rewrite insert_map_absent by exact Hno.
      exists l1, up, l, (l2 ++ flat_map (flat (i :: above)) ks). rewrite <- !app_assoc.
      do 4 (split; [auto|]). apply Forall_app. split; [exact H3|]. apply Forall_forall.
      intros y Hy. apply in_flat_map in Hy as (k' & Hk' & Hy). apply flat_hd in Hy as [->|(j & -> & Hj)].
      * cbn. congruence.
      * intros He. injection He as ->. apply Hno. apply in_kids_ids. eauto.
    + destruct (IHk N2 H) as (l1 & up & l & l2 & -> & -> & H1 & H2 & H3).
      assert (Hno : ~ In pid (menu_ids k)).
      { intros Hx. apply menu_ids_ids in Hx. apply (N3 _ Hx). apply in_flat_map in H as (y & Hy & H).
        apply in_kids_ids. exists y. split; [exact Hy|apply menu_ids_ids; exact H]. }
      rewrite insert_absent by exact Hno.
      exists (flat (i :: above) k ++ l1), up, l, l2. rewrite <- !app_assoc.
      do 2 (split; [reflexivity|]). split; [apply in_or_app; right; exact H1|]. auto.
Qed.
