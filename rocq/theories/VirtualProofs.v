(** * Proofs about menus with commands of any class *)

From Coq Require Import Sorted.
From Verif Require Import Base FromStringModel PrefixSpec MenuModel SessionModel CompletionModel ResolveSpec CompletionSpec CompletionProofs VirtualModel VirtualSpec.
Open Scope nat_scope.
Open Scope list_scope.

Section Virtual.
Context {W : Type} (enter : nat -> W -> W).
Notation vcmd := (vcmd W).
Notation handle := (v_handle enter).

(** ** The readings, listed in order *)
Definition push {B} (i : nat) (x : list nat * B) : list nat * B := (i :: fst x, snd x).
Fixpoint number {A B} (f : A -> list (list nat * B)) (i : nat) (l : list A) : list (list nat * B) :=
  match l with [] => [] | k :: l' => map (push i) (f k) ++ number f (S i) l' end.
Definition matches (name : str) (up : bool) (t : str) : bool := str_eqb name t || (up && str_eqb (lit "..") t).

Section Level.
Context (rec : list str -> bool -> list vcmd -> list (list nat * vtarget (W := W))).
Definition of_kid (toks : list str) (ctx : list vcmd) (k : vcmd) : list (list nat * vtarget (W := W)) :=
  match k with VObj o => [([], VOffer o toks)] | VMenu _ _ _ _ _ _ _ => rec toks false (below k ctx) end.
Definition listed (toks : list str) (ctx : list vcmd) : list (list nat * vtarget) :=
  match ctx with
  | [] => []
  | m :: anc =>
      if v_en m then number (of_kid toks ctx) 0 (v_kids m)
        ++ map (push (length (v_kids m))) (match anc with [] => [] | _ => rec toks true anc end)
      else []
  end.
End Level.
Fixpoint level (toks : list str) (up : bool) (ctx : list vcmd) {struct toks} : list (list nat * vtarget (W := W)) :=
  match toks, ctx with
  | t :: rest, VMenu id name true _ _ _ _ :: _ =>
      if matches name up t then match rest with [] => [([], VEnter id)] | _ => listed (level) rest ctx end else []
  | _, _ => []
  end.
Definition readings (toks : list str) (ctx : list vcmd) := listed level toks ctx.

(** ** Trying them is what menus do *)
Notation go l w := (tried enter (map snd l) w).
Lemma tried_app l1 l2 w : tried enter (l1 ++ l2) w = v_bind (tried enter l1 w) (tried enter l2).
Proof.
  revert w; induction l1 as [|[o ws|id] l1 IH]; intros w; cbn; [reflexivity| |reflexivity].
  destruct (o_exec o ws w) as [[|] w'|x w'| |]; cbn; try reflexivity. apply IH.
Qed.
Lemma map_push {B} i (l : list (list nat * B)) : map snd (map (push i) l) = map snd l.
Proof. rewrite map_map. reflexivity. Qed.
Lemma go_number (f : vcmd -> list (list nat * vtarget)) g i l w : (forall k w, In k l -> go (f k) w = g k w) ->
  go (number f i l) w = v_try g l w.
Proof.
  revert i w; induction l as [|k l IH]; intros i w H; [reflexivity|].
  cbn [number v_try]. rewrite map_app, tried_app, map_push, (H k w) by (left; reflexivity).
  destruct (g k w) as [[|] w'|x w'| |]; cbn; try reflexivity. apply IH. intros; apply H; right; assumption.
Qed.
Lemma go_listed toks ctx w :
  (forall up ctx w, handle toks up ctx w = go (level toks up ctx) w) ->
  go (listed level toks ctx) w = v_scan enter toks ctx w.
Proof.
  intros H. destruct ctx as [|m anc]; [reflexivity|]. unfold listed, v_scan.
  destruct (v_en m); cbn [negb]; [|reflexivity].
  rewrite map_app, tried_app, map_push.
  rewrite (go_number _ (fun k w1 => match k with
                                 | VObj o => o_exec o toks w1
                                 | VMenu _ _ _ _ _ _ _ => handle toks false (below k (m :: anc)) w1
                                 end)).
  - destruct (v_try _ (v_kids m) w) as [[|] w'|x w'| |]; cbn; try reflexivity.
    destruct anc; [reflexivity|]. symmetry. apply H.
  - intros k w1 _. destruct k as [o|]; cbn [of_kid].
    + cbn. destruct (o_exec o toks w1) as [[|] ?|? ?| |]; reflexivity.
    + symmetry. apply H.
Qed.
Lemma handle_level toks : toks <> [] -> forall up ctx w, handle toks up ctx w = go (level toks up ctx) w.
Proof.
  induction toks as [|t rest IH]; [congruence|]. intros _ up ctx w.
  destruct ctx as [|[o|id name en d p l kids] anc]; [reflexivity|reflexivity|].
  cbn [v_handle level]. destruct en; cbn [negb]; [|reflexivity]. unfold matches.
  destruct (str_eqb name t || (up && str_eqb (lit "..") t)); [|reflexivity].
  destruct rest as [|t' rest]; [reflexivity|].
  rewrite go_listed by (apply IH; discriminate). reflexivity.
Qed.
Lemma scan_readings toks ctx w : toks <> [] -> v_scan enter toks ctx w = go (readings toks ctx) w.
Proof. intros H. symmetry. apply go_listed, handle_level, H. Qed.

(** ** They are in order *)
Lemma sorted_app (l1 l2 : list (list nat)) : StronglySorted before l1 -> StronglySorted before l2 ->
  (forall a b, In a l1 -> In b l2 -> before a b) -> StronglySorted before (l1 ++ l2).
Proof.
  intros H1 H2 H. induction H1 as [|a l1 H1 IH Ha]; [exact H2|]. cbn. constructor.
  - apply IH. intros; apply H; [right|]; assumption.
  - apply Forall_app; split; [exact Ha|]. apply Forall_forall. intros b Hb. apply H; [left; reflexivity|exact Hb].
Qed.
Lemma sorted_push {B} i (l : list (list nat * B)) : StronglySorted before (map fst l) -> StronglySorted before (map fst (map (push i) l)).
Proof.
  induction l as [|x l IH]; cbn; intros H; [constructor|]. apply StronglySorted_inv in H as (H & Hx). constructor; [apply IH, H|].
  rewrite Forall_forall in *. intros y Hy. apply in_map_iff in Hy as (z & <- & Hz). apply in_map_iff in Hz as (u & <- & Hu).
  cbn. apply before_tl, Hx, in_map, Hu.
Qed.
Lemma in_push {B} i (l : list (list nat * B)) p : In p (map fst (map (push i) l)) -> exists q, p = i :: q.
Proof. intros H. apply in_map_iff in H as (z & <- & Hz). apply in_map_iff in Hz as (u & <- & Hu). cbn. eauto. Qed.
Lemma in_number {A B} (f : A -> list (list nat * B)) i l p : In p (map fst (number f i l)) ->
  exists j q, p = j :: q /\ i <= j < i + length l.
Proof.
  revert i; induction l as [|k l IH]; intros i H; [destruct H|]. cbn [number] in H. rewrite map_app in H. apply in_app_or in H as [H|H].
  - apply in_push in H as (q & ->). exists i, q. cbn. split; [reflexivity|lia].
  - apply IH in H as (j & q & -> & Hj). exists j, q. cbn. split; [reflexivity|lia].
Qed.
Lemma sorted_number {A B} (f : A -> list (list nat * B)) i l : (forall k, In k l -> StronglySorted before (map fst (f k))) ->
  StronglySorted before (map fst (number f i l)).
Proof.
  revert i; induction l as [|k l IH]; intros i H; cbn [number]; [constructor|]. rewrite map_app. apply sorted_app.
  - apply sorted_push, H. left; reflexivity.
  - apply IH. intros; apply H; right; assumption.
  - intros a b Ha Hb. apply in_push in Ha as (q & ->). apply in_number in Hb as (j & r & -> & Hj). apply before_hd. lia.
Qed.
Lemma sorted_listed toks ctx : (forall up ctx, StronglySorted before (map fst (level toks up ctx))) ->
  StronglySorted before (map fst (listed level toks ctx)).
Proof.
  intros H. destruct ctx as [|m anc]; [constructor|]. cbn [listed]. destruct (v_en m); [|constructor].
  rewrite map_app. apply sorted_app.
  - apply sorted_number. intros [o|] _; cbn [of_kid]; [repeat constructor|apply H].
  - apply sorted_push. destruct anc; [constructor|apply H].
  - intros a b Ha Hb. apply in_number in Ha as (j & r & -> & Hj). apply in_push in Hb as (q & ->). apply before_hd. lia.
Qed.
Lemma sorted_level toks : forall up ctx, StronglySorted before (map fst (level toks up ctx)).
Proof.
  induction toks as [|t rest IH]; intros up ctx; [constructor|]. cbn [level].
  destruct ctx as [|[o|id name en d p l kids] anc]; try constructor. destruct en; [|constructor].
  destruct (matches name up t); [|constructor]. destruct rest as [|t' rest]; [repeat constructor|]. apply sorted_listed, IH.
Qed.

(** ** They are all *)
Lemma number_in {A B} (f : A -> list (list nat * B)) i l p t : In (p, t) (number f i l) <->
  exists j k q, p = i + j :: q /\ nth_error l j = Some k /\ In (q, t) (f k).
Proof.
  revert i; induction l as [|x l IH]; intros i; cbn [number].
  - split; [intros []|]. intros ([|j] & k & q & _ & H & _); discriminate.
  - rewrite in_app_iff, IH, in_map_iff. split.
    + intros [((q & t') & H & Hin)|(j & k & q & -> & Hn & Hin)].
      * unfold push in H. cbn in H. injection H as <- <-. exists 0, x, q. rewrite Nat.add_0_r. auto.
      * exists (S j), k, q. rewrite Nat.add_succ_comm. auto.
    + intros ([|j] & k & q & -> & Hn & Hin).
      * left. injection Hn as ->. exists (q, t). rewrite Nat.add_0_r. auto.
      * right. exists j, k, q. rewrite Nat.add_succ_comm. auto.
Qed.
Lemma matches_spec name up t : matches name up t = true <-> t = name \/ (up = true /\ t = lit "..").
Proof.
  unfold matches. rewrite orb_true_iff, andb_true_iff, !str_eqb_eq. intuition congruence.
Qed.
Lemma level_in toks up ctx p t : In (p, t) (level toks up ctx) <->
  exists id name d pr l kids anc w rest, ctx = VMenu id name true d pr l kids :: anc /\ toks = w :: rest /\
    (w = name \/ (up = true /\ w = lit "..")) /\
    ((rest = [] /\ p = [] /\ t = VEnter id) \/ (rest <> [] /\ In (p, t) (readings rest ctx))).
Proof.
  split.
  - destruct toks as [|w rest]; [intros []|]. cbn [level].
    destruct ctx as [|[o|id name [|] d pr l kids] anc]; try (intros []; fail).
    destruct (matches name up w) eqn:Hm; [|intros []]. apply matches_spec in Hm. intros H.
    exists id, name, d, pr, l, kids, anc, w, rest. repeat split; auto.
    destruct rest as [|w' rest].
    + destruct H as [H|[]]. injection H as <- <-. auto.
    + right. split; [discriminate|exact H].
  - intros (id & name & d & pr & l & kids & anc & w & rest & -> & -> & Hm & H). cbn [level].
    apply matches_spec in Hm. rewrite Hm. destruct H as [(-> & -> & ->)|(Hr & H)]; [left; reflexivity|].
    destruct rest; [congruence|exact H].
Qed.
Lemma vreading_words ctx toks p t : vreading (W := W) ctx toks p t -> toks <> [].
Proof. intros H; destruct H; [assumption|discriminate..]. Qed.
Lemma readings_sound toks : toks <> [] -> forall ctx p t, In (p, t) (readings toks ctx) -> vreading ctx toks p t.
Proof.
  induction toks as [|w0 rest0 IH]; [congruence|]. intros Hne ctx p t H.
  destruct ctx as [|m anc]; [destruct H|]. unfold readings in H. cbn [listed] in H. destruct (v_en m) eqn:Hen; [|destruct H].
  apply in_app_or in H as [H|H].
  - apply number_in in H as (j & k & q & -> & Hn & Hin). cbn [Nat.add].
    destruct k as [o|id name en d pr l kids]; cbn [of_kid] in Hin.
    + destruct Hin as [Hin|[]]. injection Hin as <- <-. apply vr_object; assumption.
    + apply level_in in Hin as (id' & name' & d' & pr' & l' & kids' & anc' & w & rest & Hc & Ht & Hm & H).
      injection Ht as <- <-. destruct Hm as [->|(Hf & _)]; [|discriminate].
      destruct l; cbn [below] in Hc; injection Hc as -> -> -> -> -> <- -> <-.
      * destruct H as [(-> & -> & ->)|(Hr & H)]; [eapply vr_menu; eassumption|].
        eapply vr_in_menu; [eassumption..|]. apply IH; assumption.
      * destruct H as [(-> & -> & ->)|(Hr & H)]; [eapply vr_menu; eassumption|].
        eapply vr_in_orphan; [eassumption..|]. apply IH; assumption.
  - apply in_map_iff in H as ((q & t') & Hp & Hin). unfold push in Hp. cbn in Hp. injection Hp as <- <-.
    destruct anc as [|a anc]; [destruct Hin|].
    apply level_in in Hin as (id' & name' & d' & pr' & l' & kids' & anc' & w & rest & Hc & Ht & Hm & H).
    injection Ht as <- <-. injection Hc as -> ->.
    assert (Hm' : w0 = name' \/ w0 = lit "..") by tauto.
    destruct H as [(-> & -> & ->)|(Hr & H)]; [apply vr_parent; assumption|].
    apply vr_in_parent; [assumption..|]. apply IH; assumption.
Qed.
Lemma readings_complete ctx toks p t : vreading ctx toks p t -> In (p, t) (readings toks ctx).
Proof.
  assert (Hkid : forall m anc toks i k q t, v_en m = true -> nth_error (v_kids m) i = Some k -> In (q, t) (of_kid level toks (m :: anc) k) ->
    In (i :: q, t) (readings toks (m :: anc))).
  { intros m anc ts i k q u He Hn Hin. unfold readings. cbn [listed]. rewrite He. apply in_or_app; left.
    apply number_in. exists i, k, q. auto. }
  assert (Hup : forall m a anc toks q t, v_en m = true -> In (q, t) (level toks true (a :: anc)) ->
    In (length (v_kids m) :: q, t) (readings toks (m :: a :: anc))).
  { intros m a anc ts q u He Hin. unfold readings. cbn [listed]. rewrite He. apply in_or_app; right.
    apply in_map_iff. exists (q, u). auto. }
  induction 1 as [m anc i o toks He Hn Ht|m anc i id name d pr l kids He Hn|m anc i id name en d pr kids rest path t He Hn Hr IH
    |m anc i id name en d pr kids rest path t He Hn Hr IH|m anc id name d pr l kids word He Hw|m anc id name en d pr l kids word rest path t He Hw Hr IH].
  - eapply Hkid; [eassumption..|]. left; reflexivity.
  - eapply Hkid; [eassumption..|]. cbn [of_kid]. apply level_in.
    exists id, name, d, pr, l, kids. destruct l; cbn [below]; do 3 eexists; (split; [reflexivity|]); auto 6.
  - eapply Hkid; [eassumption..|]. cbn [of_kid below]. apply level_in.
    destruct en; [|inversion Hr; discriminate].
    exists id, name, d, pr, true, kids. do 3 eexists. split; [reflexivity|]. split; [reflexivity|]. split; [left; reflexivity|].
    right. split; [exact (vreading_words _ _ _ _ Hr)|exact IH].
  - eapply Hkid; [eassumption..|]. cbn [of_kid below]. apply level_in.
    destruct en; [|inversion Hr; discriminate].
    exists id, name, d, pr, false, kids. do 3 eexists. split; [reflexivity|]. split; [reflexivity|]. split; [left; reflexivity|].
    right. split; [exact (vreading_words _ _ _ _ Hr)|exact IH].
  - apply Hup; [assumption|]. apply level_in. exists id, name, d, pr, l, kids. do 3 eexists. split; [reflexivity|]. split; [reflexivity|].
    split; [destruct Hw; auto|]. left. auto.
  - apply Hup; [assumption|]. apply level_in. destruct en; [|inversion Hr; discriminate].
    exists id, name, d, pr, l, kids. do 3 eexists. split; [reflexivity|]. split; [reflexivity|].
    split; [destruct Hw; auto|]. right. split; [exact (vreading_words _ _ _ _ Hr)|exact IH].
Qed.
Lemma scan_tried toks ctx w : toks <> [] ->
  exists l, all_readings ctx toks l /\ v_scan enter toks ctx w = tried enter (map snd l) w.
Proof.
  intros H. exists (readings toks ctx). split; [split|].
  - apply sorted_listed, sorted_level.
  - intros p t. split; [apply readings_sound, H|apply readings_complete].
  - apply scan_readings, H.
Qed.
(** The list is the only one. *)
Lemma before_irrefl a : ~ before a a.
Proof. induction a as [|x a IH]; intros H; inversion H; subst; [lia|auto]. Qed.
Lemma before_trans a b c : before a b -> before b c -> before a c.
Proof.
  intros H; revert c; induction H as [i j a b Hij|i a b H IH]; intros c Hc; inversion Hc; subst.
  - apply before_hd; lia.
  - apply before_hd; assumption.
  - apply before_hd; assumption.
  - apply before_tl, IH. assumption.
Qed.
Lemma sorted_same {B} (l1 l2 : list (list nat * B)) : StronglySorted before (map fst l1) -> StronglySorted before (map fst l2) ->
  (forall x, In x l1 <-> In x l2) -> l1 = l2.
Proof.
  revert l2; induction l1 as [|x l1 IH]; intros [|y l2] H1 H2 H.
  - reflexivity.
  - destruct (proj2 (H y) (or_introl eq_refl)).
  - destruct (proj1 (H x) (or_introl eq_refl)).
  - cbn in H1, H2. apply StronglySorted_inv in H1 as (H1 & Hx). apply StronglySorted_inv in H2 as (H2 & Hy).
    rewrite Forall_forall in Hx, Hy.
    assert (Hxy : x = y).
    { destruct (proj1 (H x) (or_introl eq_refl)) as [->|Hin]; [reflexivity|].
      destruct (proj2 (H y) (or_introl eq_refl)) as [->|Hin']; [reflexivity|].
      exfalso. eapply before_irrefl, before_trans; [apply Hx|apply Hy]; apply in_map; eassumption. }
    subst y. f_equal. apply IH; [assumption..|]. intros z. split; intros Hz.
    + destruct (proj1 (H z) (or_intror Hz)) as [->|Hin]; [|exact Hin].
      exfalso. apply (before_irrefl (fst z)), Hx, in_map, Hz.
    + destruct (proj2 (H z) (or_intror Hz)) as [->|Hin]; [|exact Hin].
      exfalso. apply (before_irrefl (fst z)), Hy, in_map, Hz.
Qed.
Lemma all_readings_unique ctx toks l1 l2 : all_readings (W := W) ctx toks l1 -> all_readings ctx toks l2 -> l1 = l2.
Proof.
  intros (S1 & H1) (S2 & H2). apply sorted_same; [assumption..|]. intros (p, t). rewrite H1, H2. tauto.
Qed.
Lemma scan_all toks ctx w l : toks <> [] -> all_readings ctx toks l -> v_scan enter toks ctx w = tried enter (map snd l) w.
Proof.
  intros Hn H. destruct (scan_tried toks ctx w Hn) as (l' & H' & ->). rewrite (all_readings_unique _ _ _ _ H H'). reflexivity.
Qed.

(** ** Menus without a parent *)
Lemma kid_menus m k : In k (v_kids m) -> incl (v_menus (W := W) k) (v_menus m).
Proof. destruct m as [o|]; [intros []|]. cbn. intros H x Hx. right. apply in_flat_map. eauto. Qed.
Lemma reading_within ctx toks p t : vreading ctx toks p t -> forall id, t = VEnter id ->
  forall M, (forall c, In c ctx -> incl (v_menus (W := W) c) M) -> In id M.
Proof.
  induction 1 as [m anc i o toks He Hn Ht|m anc i id name d pr l kids He Hn|m anc i id name en d pr kids rest path t He Hn Hr IH
    |m anc i id name en d pr kids rest path t He Hn Hr IH|m anc id name d pr l kids word He Hw|m anc id name en d pr l kids word rest path t He Hw Hr IH];
    intros id' Et M HM.
  - discriminate.
  - injection Et as <-. apply (HM m (or_introl eq_refl)). apply (kid_menus m _ (nth_error_In _ _ Hn)). left; reflexivity.
  - apply (IH id' Et). intros c [<-|Hc]; [|apply HM, Hc]. intros x Hx. apply (HM m (or_introl eq_refl)). apply (kid_menus m _ (nth_error_In _ _ Hn)), Hx.
  - apply (IH id' Et). intros c [<-|[]]. intros x Hx. apply (HM m (or_introl eq_refl)). apply (kid_menus m _ (nth_error_In _ _ Hn)), Hx.
  - injection Et as <-. apply (HM (VMenu id name true d pr l kids)); [right; left; reflexivity|left; reflexivity].
  - apply (IH id' Et). intros c Hc. apply HM. right. exact Hc.
Qed.
Lemma inside_menus m ctx : inside (W := W) m ctx -> forall c, In c ctx -> incl (v_menus c) (v_menus m).
Proof.
  induction 1 as [|c anc k H IH Hk]; intros x Hx.
  - destruct Hx as [<-|[]]. apply incl_refl.
  - assert (Hi : incl (v_menus k) (v_menus m)).
    { intros y Hy. apply (IH c (or_introl eq_refl)), (kid_menus c k Hk), Hy. }
    destruct k as [o|id name en d pr [|] kids]; cbn [below] in Hx.
    + destruct Hx as [<-|[]]. exact Hi.
    + destruct Hx as [<-|Hx]; [exact Hi|exact (IH x Hx)].
    + destruct Hx as [<-|[]]. exact Hi.
Qed.
Lemma orphan_within m ctx toks p id : inside m ctx -> vreading ctx toks p (VEnter id) -> In id (v_menus (W := W) m).
Proof. intros Hi H. eapply reading_within; [exact H|reflexivity|]. apply inside_menus, Hi. Qed.

(** ** Commands that decline everything *)
Section Prune.
Context (f : object W -> bool).
Hypothesis Hf : forall o, f o = true -> inert o.
Notation pr := (prune f).
Lemma prune_below k ctx : below (pr k) (map pr ctx) = map pr (below k ctx).
Proof. destruct k as [o|id name en d p [|] kids]; reflexivity. Qed.
Lemma try_prune g g' l w : (forall o w, g (VObj o) w = g' (VObj o) w) -> (forall o w, f o = true -> g' (VObj o) w = VDone false w) ->
  (forall k w, (forall o, k <> VObj o) -> g (pr k) w = g' k w) ->
  v_try g (filter (kept f) (map pr l)) w = v_try g' l w.
Proof.
  intros H1 H2 H3. revert w; induction l as [|k l IH]; intros w; [reflexivity|]. cbn [map filter].
  destruct k as [o|id name en d p lk kids]; cbn [kept prune].
  - destruct (f o) eqn:Ho; cbn [negb].
    + rewrite IH. cbn [v_try]. rewrite (H2 o w Ho). reflexivity.
    + cbn [v_try]. rewrite H1.
      destruct (g' (VObj o) w) as [[|] ?|? ?| |]; cbn; try reflexivity. apply IH.
  - cbn [v_try]. rewrite <- (H3 (VMenu id name en d p lk kids)) by discriminate. cbn [prune].
    destruct (g _ w) as [[|] ?|? ?| |]; cbn [v_bind]; try reflexivity. apply IH.
Qed.
Lemma handle_prune toks : forall up ctx w, handle toks up (map pr ctx) w = handle toks up ctx w.
Proof.
  induction toks as [|t rest IH]; intros up ctx w.
  - destruct ctx as [|[o|id name en d p l kids] anc]; reflexivity.
  - destruct ctx as [|[o|id name en d p l kids] anc]; [reflexivity|reflexivity|].
    change (map pr (VMenu id name en d p l kids :: anc)) with (VMenu id name en d p l (filter (kept f) (map pr kids)) :: map pr anc).
    cbn [v_handle]. destruct en; cbn [negb]; [|reflexivity].
    destruct (str_eqb name t || (up && str_eqb (lit "..") t)); [|reflexivity].
    destruct rest as [|t' rest]; [reflexivity|].
    change (VMenu id name true d p l (filter (kept f) (map pr kids)) :: map pr anc) with (map pr (VMenu id name true d p l kids :: anc)).
    rewrite (try_prune _ (fun k w1 => match k with
                                 | VObj o => o_exec o (t' :: rest) w1
                                 | VMenu _ _ _ _ _ _ _ => handle (t' :: rest) false (below k (VMenu id name true d p l kids :: anc)) w1
                                 end)).
    + destruct (v_try _ kids w) as [[|] w'|x w'| |]; cbn; try reflexivity. destruct anc as [|a anc]; [reflexivity|]. apply (IH true (a :: anc)).
    + reflexivity.
    + intros o w1 Ho. apply (Hf o Ho).
    + intros k w1 Hk. destruct k as [o|id' name' en' d' p' l' kids']; [destruct (Hk o eq_refl)|].
      rewrite prune_below. apply IH.
Qed.
Lemma scan_prune toks ctx w : v_scan enter toks (map pr ctx) w = v_scan enter toks ctx w.
Proof.
  destruct ctx as [|[o|id name en d p l kids] anc]; [reflexivity|reflexivity|].
  unfold v_scan. change (map pr (VMenu id name en d p l kids :: anc)) with (VMenu id name en d p l (filter (kept f) (map pr kids)) :: map pr anc).
  cbn [v_en v_kids]. destruct en; cbn [negb]; [|reflexivity].
  change (VMenu id name true d p l (filter (kept f) (map pr kids)) :: map pr anc) with (map pr (VMenu id name true d p l kids :: anc)).
  rewrite (try_prune _ (fun k w1 => match k with
                               | VObj o => o_exec o toks w1
                               | VMenu _ _ _ _ _ _ _ => handle toks false (below k (VMenu id name true d p l kids :: anc)) w1
                               end)).
  - destruct (v_try _ kids w) as [[|] w'|x w'| |]; cbn; try reflexivity. destruct anc as [|a anc]; [reflexivity|]. apply (handle_prune toks true (a :: anc)).
  - reflexivity.
  - intros o w1 Ho. apply (Hf o Ho).
  - intros k w1 Hk. destruct k as [o|id' name' en' d' p' l' kids']; [destruct (Hk o eq_refl)|].
    rewrite prune_below. apply handle_prune.
Qed.
Lemma help_prune ctx : v_main_help (map pr ctx) = v_main_help ctx.
Proof.
  assert (Hk : forall k, v_help (pr k) = v_help k) by (intros [o|]; reflexivity).
  destruct ctx as [|[o|id name en d p l kids] anc]; [reflexivity|reflexivity|].
  change (map pr (VMenu id name en d p l kids :: anc)) with (VMenu id name en d p l (filter (kept f) (map pr kids)) :: map pr anc).
  cbn [v_main_help v_en v_kids]. destruct en; cbn [negb]; [|reflexivity]. f_equal.
  - induction kids as [|k kids IH]; [reflexivity|]. cbn [map filter]. replace (kept f (pr k)) with (kept f k) by (destruct k; reflexivity). destruct (kept f k) eqn:E; cbn [map flat_map]; rewrite IH.
    + rewrite Hk. reflexivity.
    + destruct k as [o|]; [|discriminate]. cbn in E. apply negb_false_iff in E. cbn. rewrite (proj1 (proj2 (Hf o E))). reflexivity.
  - destruct anc; [reflexivity|]. apply Hk.
Qed.
Section Comp.
Context (P : platform).
Lemma all_prune (g g' : vcmd -> gres) l : (forall o, g (VObj o) = g' (VObj o)) -> (forall o, f o = true -> g' (VObj o) = GOk []) ->
  (forall k, (forall o, k <> VObj o) -> g (pr k) = g' k) ->
  v_all g (filter (kept f) (map pr l)) = v_all g' l.
Proof.
  intros H1 H2 H3. induction l as [|k l IH]; [reflexivity|]. cbn [map filter].
  destruct k as [o|id name en d p lk kids]; cbn [kept prune].
  - destruct (f o) eqn:Ho; cbn [negb].
    + rewrite IH. cbn [v_all]. rewrite (H2 o Ho). destruct (v_all g' l); reflexivity.
    + cbn [v_all]. rewrite H1, IH. reflexivity.
  - cbn [v_all]. rewrite <- (H3 (VMenu id name en d p lk kids)), IH by discriminate. reflexivity.
Qed.
Lemma kids_prune n line m anc :
  (forall up line ctx, v_completion P n up line (map pr ctx) = v_completion P n up line ctx) ->
  g_app (v_all (fun k => match k with VObj o => GOk (o_comp o line) | VMenu _ _ _ _ _ _ _ => v_completion P n false line (below k (map pr (m :: anc))) end) (v_kids (pr m)))
    (match map pr anc with [] => GOk [] | _ => v_completion P n true line (map pr anc) end) =
  g_app (v_all (fun k => match k with VObj o => GOk (o_comp o line) | VMenu _ _ _ _ _ _ _ => v_completion P n false line (below k (m :: anc)) end) (v_kids m))
    (match anc with [] => GOk [] | _ => v_completion P n true line anc end).
Proof.
  intros IH. f_equal.
  - destruct m as [o|id name en d p l kids]; [reflexivity|]. cbn [v_kids].
    change (v_kids (pr (VMenu id name en d p l kids))) with (filter (kept f) (map pr kids)).
    apply all_prune; [reflexivity| |].
    + intros o Ho. rewrite (proj2 (proj2 (Hf o Ho))). reflexivity.
    + intros k Hk. destruct k as [o|]; [destruct (Hk o eq_refl)|]. rewrite prune_below. apply IH.
  - destruct anc as [|a anc]; [reflexivity|]. apply (IH true line (a :: anc)).
Qed.
Lemma completion_prune n : forall up line ctx, v_completion P n up line (map pr ctx) = v_completion P n up line ctx.
Proof.
  induction n as [|n IH]; intros up line ctx; [reflexivity|].
  destruct ctx as [|[o|id name en d p l kids] anc]; [reflexivity|reflexivity|].
  pose proof (fun line => kids_prune n line (VMenu id name en d p l kids) anc IH) as Hk.
  change (map pr (VMenu id name en d p l kids :: anc)) with (VMenu id name en d p l (filter (kept f) (map pr kids)) :: map pr anc) in *.
  change (v_kids (pr (VMenu id name en d p l kids))) with (filter (kept f) (map pr kids)) in Hk. cbn [v_kids] in Hk.
  cbn [v_completion].
  destruct (starts_with name line); [|destruct (up && starts_with (lit "..") line)].
  - destruct (trim_left P _) as [r|]; [|reflexivity]. rewrite Hk. reflexivity.
  - destruct (trim_left P _) as [r|]; [|reflexivity]. rewrite Hk. reflexivity.
  - reflexivity.
Qed.
Lemma completions_prune n line ctx : v_completions P n line (map pr ctx) = v_completions P n line ctx.
Proof.
  destruct ctx as [|m anc]; [reflexivity|]. exact (kids_prune n line m anc (completion_prune n)).
Qed.
End Comp.
End Prune.

(** ** Completion *)
Section Platform.
Context (P : platform).
(** What [v_completion] gives. *)
Definition inside_of (prefix : str) (ctx : list vcmd) (line c : str) : Prop :=
  exists rest c', line = prefix ++ rest /\ completes ctx (trim rest) c' /\ c = prefix ++ lit " " ++ c'.
Definition at_menu (up : bool) (ctx : list vcmd) (line c : str) : Prop :=
  match ctx with
  | VMenu id name en d pr l kids :: anc =>
      inside_of name ctx line c \/
      (up = true /\ ~ is_prefix name line /\ inside_of (lit "..") ctx line c) \/
      (~ is_prefix name line /\ (up = true -> ~ is_prefix (lit "..") line) /\ en = true /\ is_prefix line name /\ c = name)
  | _ => False
  end.
Lemma v_all_ok f l x : v_all (W := W) f l = GOk x -> forall c, In c x <-> exists k y, In k l /\ f k = GOk y /\ In c y.
Proof.
  revert x; induction l as [|k l IH]; intros x H c; cbn in H.
  - injection H as <-. split; [intros []|intros (k & y & [] & _)].
  - destruct (f k) as [y| |] eqn:Hf; cbn in H; [|discriminate..]. destruct (v_all f l) as [z| |]; cbn in H; [|discriminate..].
    injection H as <-. rewrite in_app_iff, (IH z eq_refl c). split.
    + intros [Hc|(k' & y' & Hk & H)]; [exists k, y; cbn; auto|exists k', y'; cbn; auto].
    + intros (k' & y' & [->|Hk] & Hk' & Hc); [left; congruence|right; eauto].
Qed.
Lemma prefix_app p s : is_prefix p (p ++ s).
Proof. exists s; reflexivity. Qed.
Lemma proper_prefix a b : is_prefix a b -> is_prefix b a -> a = b.
Proof.
  intros (r & ->) (q & H). rewrite <- app_assoc in H. rewrite <- (app_nil_r a) in H at 1. apply app_inv_head in H.
  symmetry in H. apply app_eq_nil in H as (-> & _). rewrite app_nil_r. reflexivity.
Qed.
Lemma prefix_dec a b : is_prefix a b \/ ~ is_prefix a b.
Proof. destruct (starts_with a b) eqn:H; [left; apply starts_prefix, H|right; apply starts_prefix_false, H]. Qed.

Lemma menu_level n m anc line x : all_menus (m :: anc) ->
  (forall up line ctx l, all_menus ctx -> v_completion (W := W) P n up line ctx = GOk l -> forall c, In c l <-> at_menu up ctx line c) ->
  g_app (v_all (fun k => match k with
                         | VObj o => GOk (o_comp o line)
                         | VMenu _ _ _ _ _ _ _ => v_completion P n false line (below k (m :: anc))
                         end) (v_kids m))
        (match anc with [] => GOk [] | _ => v_completion P n true line anc end) = GOk x ->
  forall c, In c x <-> completes (W := W) (m :: anc) line c.
Proof.
  intros Hm IH H c. destruct (v_all _ (v_kids m)) as [a| |] eqn:Ha; cbn in H; [|discriminate..].
  destruct (match anc with [] => GOk [] | _ => _ end) as [b| |] eqn:Hb; cbn in H; [|discriminate..]. injection H as <-.
  rewrite in_app_iff, (v_all_ok _ _ _ Ha c).
  assert (Hbelow : forall id name en d pr l kids, all_menus (below (VMenu id name en d pr l kids) (m :: anc))).
  { intros id name en d pr l kids. destruct l; cbn; constructor; try exact Hm; try constructor; repeat eexists. }
  split.
  - intros [(k & y & Hk & Hy & Hc)|Hc].
    + destruct k as [o|id name en d pr l kids].
      * injection Hy as <-. eapply cp_object; eassumption.
      * pose proof (proj1 (IH false line _ y (Hbelow _ _ _ _ _ _ _) Hy c) Hc) as H.
        destruct l; cbn [below at_menu] in H.
        -- destruct H as [(rest & c' & -> & Hc' & ->)|[(Hf & _)|(Hp & _ & He & Hpre & ->)]]; [|discriminate|].
           ++ eapply cp_inside; eassumption.
           ++ subst en. eapply cp_name; [eassumption..|]. intros ->. apply Hp. exists []. rewrite app_nil_r. reflexivity.
        -- destruct H as [(rest & c' & -> & Hc' & ->)|[(Hf & _)|(Hp & _ & He & Hpre & ->)]]; [|discriminate|].
           ++ eapply cp_inside_orphan; eassumption.
           ++ subst en. eapply cp_name; [eassumption..|]. intros ->. apply Hp. exists []. rewrite app_nil_r. reflexivity.
    + destruct anc as [|p anc]; [injection Hb as <-; destruct Hc|].
      inversion Hm as [|? ? _ Hanc]; subst. pose proof (proj1 (IH true line _ b Hanc Hb c) Hc) as H.
      inversion Hanc as [|? ? (id & name & en & d & pr & l & kids & ->) _]; subst. cbn [at_menu] in H.
      destruct H as [(rest & c' & -> & Hc' & ->)|[(_ & Hn & rest & c' & -> & Hc' & ->)|(Hp & Hd & -> & Hpre & ->)]].
      * apply cp_parent. exact Hc'.
      * apply cp_dots; assumption.
      * apply cp_parent_name; [assumption| |apply Hd; reflexivity]. intros ->. apply Hp. exists []. rewrite app_nil_r. reflexivity.
  - assert (Hget : forall id name en d pr l kids, In (VMenu id name en d pr l kids) (v_kids m) ->
      at_menu false (below (VMenu id name en d pr l kids) (m :: anc)) line c ->
      exists k y, In k (v_kids m) /\ (match k with
                         | VObj o => GOk (o_comp o line)
                         | VMenu _ _ _ _ _ _ _ => v_completion P n false line (below k (m :: anc))
                         end) = GOk y /\ In c y).
    { intros id name en d pr l kids Hk Hat.
      assert (Hy : exists y, v_completion P n false line (below (VMenu id name en d pr l kids) (m :: anc)) = GOk y).
      { clear -Ha Hk. revert a Ha; induction (v_kids m) as [|k0 ks IHk]; [destruct Hk|]. cbn. intros a Ha.
        destruct (match k0 with VObj o => _ | VMenu _ _ _ _ _ _ _ => _ end) as [y| |] eqn:E0; cbn in Ha; [|discriminate..].
        destruct (v_all _ ks) as [z| |] eqn:E1; cbn in Ha; [|discriminate..].
        destruct Hk as [->|Hk]; [eauto|]. exact (IHk Hk z eq_refl). }
      destruct Hy as (y & Hy). exists (VMenu id name en d pr l kids), y. split; [exact Hk|]. split; [exact Hy|].
      apply (IH false line _ y (Hbelow _ _ _ _ _ _ _) Hy), Hat. }
    intros H. inversion H as [m0 anc0 o line0 c0 Hk Hc|m0 anc0 id name d pr l kids line0 Hk Hp Hne|m0 anc0 id name en d pr kids rest c0 Hk Hc
      |m0 anc0 id name en d pr kids rest c0 Hk Hc|m0 anc0 id name d pr l kids line0 Hp Hne Hd|m0 anc0 id name en d pr l kids rest c0 Hc
      |m0 anc0 id name en d pr l kids rest c0 Hn Hc]; subst.
    + left. exists (VObj o), (o_comp o line). auto.
    + left. eapply Hget; [exact Hk|]. destruct l; cbn [below at_menu]; right; right;
        (split; [intros Hq; apply Hne, proper_prefix; assumption|]); (split; [discriminate|]); auto.
    + left. eapply Hget; [exact Hk|]. cbn [below at_menu]. left. exists rest, c0. auto.
    + left. eapply Hget; [exact Hk|]. cbn [below at_menu]. left. exists rest, c0. auto.
    + right. inversion Hm as [|? ? _ Hanc]; subst. apply (IH true line _ b Hanc Hb). cbn [at_menu]. right; right.
      split; [intros Hq; apply Hne, proper_prefix; assumption|]. auto.
    + right. inversion Hm as [|? ? _ Hanc]; subst. apply (IH true _ _ b Hanc Hb). cbn [at_menu]. left. exists rest, c0. auto.
    + right. inversion Hm as [|? ? _ Hanc]; subst. apply (IH true _ _ b Hanc Hb). cbn [at_menu]. right; left. split; [reflexivity|].
      split; [exact Hn|]. exists rest, c0. auto.
Qed.
Lemma completion_exact n : forall up line ctx l, all_menus ctx -> v_completion (W := W) P n up line ctx = GOk l ->
  forall c, In c l <-> at_menu up ctx line c.
Proof.
  induction n as [|n IH]; intros up line ctx l Hm H c; [discriminate|].
  destruct ctx as [|m anc]; [injection H as <-; reflexivity|].
  inversion Hm as [|? ? Hx Hanc]; subst. destruct Hx as (id & name & en & d & pr & lk & kids & ->).
  cbn [v_completion] in H. cbn [at_menu].
  assert (Hin : forall prefix rest, line = prefix ++ rest ->
    match trim_left P (skipn (length prefix) line) with
            | None => GUB
            | Some rest =>
                g_map (map (fun c => prefix ++ " "%char :: c))
                  (g_app
                     (v_all (fun k => match k with
                                      | VObj o => GOk (o_comp o rest)
                                      | VMenu _ _ _ _ _ _ _ => v_completion P n false rest (below k (VMenu id name en d pr lk kids :: anc))
                                      end) kids)
                     (match anc with [] => GOk [] | _ => v_completion P n true rest anc end))
            end = GOk l -> (In c l <-> inside_of prefix (VMenu id name en d pr lk kids :: anc) line c)).
  { intros prefix rest -> Hg. rewrite skipn_app, skipn_all, Nat.sub_diag in Hg. cbn [app skipn] in Hg.
    destruct (trim_left P rest) as [r|] eqn:Hr; [|discriminate]. apply trim_left_spec in Hr. subst r.
    apply g_map_ok in Hg as (x & Hx & ->).
    pose proof (menu_level n (VMenu id name en d pr lk kids) anc (trim rest) x Hm IH Hx) as Hk.
    rewrite in_map_iff. unfold inside_of. split.
    - intros (c' & <- & Hc). exists rest, c'. split; [reflexivity|]. split; [apply Hk, Hc|reflexivity].
    - intros (rest' & c' & Hl & Ho & ->). apply app_inv_head in Hl. subst rest'. exists c'. split; [reflexivity|apply Hk, Ho]. }
  destruct (starts_with name line) eqn:E1.
  - apply starts_prefix in E1. destruct E1 as (rest & Hl). rewrite (Hin name rest Hl H). split; [auto|].
    intros [Hi|[(_ & Hn & _)|(Hn & _)]]; [exact Hi| |]; exfalso; apply Hn; exists rest; exact Hl.
  - apply starts_prefix_false in E1. destruct (up && starts_with (lit "..") line) eqn:E2.
    + apply andb_true_iff in E2 as (-> & E2). apply starts_prefix in E2 as (rest & Hl).
      rewrite (Hin (lit "..") rest Hl H). split; [auto|].
      intros [(r & c' & -> & _)|[(_ & _ & Hi)|(_ & Hd & _)]].
      * exfalso. apply E1, prefix_app.
      * exact Hi.
      * exfalso. apply (Hd eq_refl). exists rest. exact Hl.
    + assert (Hno : ~ (up = true /\ is_prefix (lit "..") line)).
      { intros (-> & Hp). apply starts_prefix in Hp. rewrite Hp in E2. discriminate. }
      assert (Hcase : In c l <-> en = true /\ is_prefix line name /\ c = name).
      { destruct en; cbn [negb] in H.
        - destruct (starts_with line name) eqn:E3; injection H as <-.
          + apply starts_prefix in E3. cbn. intuition.
          + apply starts_prefix_false in E3. cbn. intuition.
        - injection H as <-. cbn. intuition discriminate. }
      rewrite Hcase. split.
      * intros (He & Hp & ->). right; right. split; [exact E1|]. split; [|auto]. intros ->. tauto.
      * intros [(r & c' & -> & _)|[(-> & _ & r & c' & -> & _)|(_ & _ & Hr)]]; [| |exact Hr].
        -- exfalso. apply E1, prefix_app.
        -- exfalso. apply Hno. split; [reflexivity|apply prefix_app].
Qed.
Lemma completions_exact' n line ctx l : all_menus ctx -> v_completions (W := W) P n line ctx = GOk l ->
  forall c, In c l <-> completes (W := W) ctx line c.
Proof.
  intros Hm H. destruct ctx as [|m anc]; [injection H as <-; intros c; split; [intros []|intros Hc; inversion Hc]|].
  exact (menu_level n m anc line l Hm (completion_exact n) H).
Qed.
End Platform.
End Virtual.

(** ** The classes of the library *)
Section Library.
Context (E : env) (bi : hid -> list value -> world -> hres).
Notation virt := (virtual E bi).
Notation virtuals := (virtuals E bi).

Lemma of_bind r f g : (forall w, of_eres (f w) = g w) -> of_eres (e_bind r f) = v_bind (of_eres r) g.
Proof. intros H. destruct r as [[|] w|x w| |]; cbn; try reflexivity. apply H. Qed.
Lemma virt_eq l c : virt l c = match c with
  | CMenu id name en desc pr kids => VMenu id name en desc pr l (map (virt true) kids)
  | _ => VObj (mkObj (fun toks w => of_eres (exec_leaf E bi c toks w)) (help_line c) (name_completion c))
  end.
Proof. destruct c; reflexivity. Qed.
Lemma virt_leaf l l' c : (forall i n e d p k, c <> CMenu i n e d p k) -> virt l c = virt l' c.
Proof. destruct c; intros H; try reflexivity. exfalso. eapply H; reflexivity. Qed.
Notation lnk anc := (match anc with [] => false | _ => true end).
Lemma virtuals_cons c anc : virtuals (c :: anc) = virt (lnk anc) c :: virtuals anc.
Proof. destruct anc; reflexivity. Qed.
Lemma virtuals_nil anc : match virtuals anc with [] => true | _ => false end = match anc with [] => true | _ => false end.
Proof. destruct anc as [|a [|b anc]]; reflexivity. Qed.

Lemma try_virtual (f : cmd -> world -> eres) g l w : (forall k w, of_eres (f k w) = g (virt true k) w) ->
  of_eres (try_all f l w) = v_try g (map (virt true) l) w.
Proof.
  intros H. revert w; induction l as [|k l IH]; intros w; [reflexivity|]. cbn [try_all map v_try].
  rewrite <- (H k w). apply of_bind. exact IH.
Qed.
Lemma kid_virtual toks ctx k w :
  (forall up ctx w, of_eres (handle E bi toks up ctx w) = v_handle set_cur toks up (virtuals ctx) w) -> ctx <> [] ->
  of_eres (match k with CMenu _ _ _ _ _ _ => handle E bi toks false (k :: ctx) w | _ => exec_leaf E bi k toks w end) =
  match virt true k with
  | VObj o => o_exec o toks w
  | VMenu _ _ _ _ _ _ _ => v_handle set_cur toks false (below (virt true k) (virtuals ctx)) w
  end.
Proof.
  intros H Hc. destruct k as [| |id name en desc pr kids]; try reflexivity.
  rewrite H, virtuals_cons. destruct ctx; [congruence|]. reflexivity.
Qed.
Lemma handle_virtual toks : forall up ctx w, of_eres (handle E bi toks up ctx w) = v_handle set_cur toks up (virtuals ctx) w.
Proof.
  induction toks as [|t rest IH]; intros up ctx w.
  - destruct ctx as [|[| |id name en desc pr kids] anc]; try (rewrite ?virtuals_cons; reflexivity).
    rewrite virtuals_cons. cbn. destruct en; reflexivity.
  - destruct ctx as [|c anc]; [reflexivity|].
    destruct c as [| |id name en desc pr kids]; try (rewrite virtuals_cons; reflexivity).
    pose proof (virtuals_cons (CMenu id name en desc pr kids) anc) as Hv. rewrite Hv. rewrite virt_eq. cbn [handle v_handle].
    destruct en; cbn [negb]; [|reflexivity].
    destruct (str_eqb name t || (up && str_eqb (lit "..") t)); [|reflexivity].
    destruct rest as [|t' rest]; [reflexivity|].
    rewrite (of_bind _ _ (fun w1 => match virtuals anc with [] => VDone false w1 | _ => v_handle set_cur (t' :: rest) true (virtuals anc) w1 end)).
    + f_equal. apply try_virtual. intros k w1. rewrite virt_eq in Hv. rewrite <- Hv. apply kid_virtual; [exact IH|discriminate].
    + intros w1. pose proof (virtuals_nil anc) as Hn. destruct anc as [|a anc]; [reflexivity|].
      rewrite IH. destruct (virtuals (a :: anc)); [discriminate|reflexivity].
Qed.
Lemma virt_en l c : v_en (virt l c) = match c with CMenu _ _ en _ _ _ => en | _ => false end.
Proof. destruct c; reflexivity. Qed.
Lemma scan_virtual toks ctx w : (forall m, hd_error ctx = Some m -> exists i n e d p k, m = CMenu i n e d p k) ->
  of_eres (scan E bi toks ctx w) = v_scan set_cur toks (virtuals ctx) w.
Proof.
  intros H. destruct ctx as [|m anc]; [reflexivity|]. destruct (H m eq_refl) as (id & name & en & d & p & kids & ->).
  pose proof (virtuals_cons (CMenu id name en d p kids) anc) as Hv. rewrite Hv. rewrite virt_eq. cbn [scan v_scan cmd_en v_en v_kids cmd_kids].
  destruct en; cbn [negb]; [|reflexivity].
  rewrite (of_bind _ _ (fun w1 => match virtuals anc with [] => VDone false w1 | _ => v_handle set_cur toks true (virtuals anc) w1 end)).
  - f_equal. apply try_virtual. intros k w1. rewrite virt_eq in Hv. rewrite <- Hv. apply kid_virtual; [exact (handle_virtual toks)|discriminate].
  - intros w1. pose proof (virtuals_nil anc) as Hn. destruct anc as [|a anc]; [reflexivity|].
    rewrite handle_virtual. destruct (virtuals (a :: anc)); [discriminate|reflexivity].
Qed.
Lemma help_virtual l c : v_help (virt l c) = help_line c.
Proof. destruct c; reflexivity. Qed.
Lemma main_help_virtual ctx : (forall m, hd_error ctx = Some m -> exists i n e d p k, m = CMenu i n e d p k) ->
  v_main_help (virtuals ctx) = main_help ctx.
Proof.
  intros H. destruct ctx as [|m anc]; [reflexivity|]. destruct (H m eq_refl) as (id & name & en & d & p & kids & ->).
  rewrite virtuals_cons, virt_eq. cbn [v_main_help main_help v_en cmd_en v_kids cmd_kids]. destruct en; [|reflexivity].
  cbn [negb]. f_equal.
  - clear H. induction kids as [|k kids IH]; [reflexivity|]. cbn [map flat_map]. rewrite help_virtual, IH. reflexivity.
  - destruct anc as [|a anc]; [reflexivity|]. rewrite virtuals_cons. apply help_virtual.
Qed.
Section Platform.
Context (P : platform).
Lemma all_virtual f g l : (forall k, f k = g (virt true k)) -> g_all f l = v_all g (map (virt true) l).
Proof. intros H. induction l as [|k l IH]; [reflexivity|]. cbn. rewrite H, IH. reflexivity. Qed.
Lemma comp_kid n line ctx k :
  (forall up line ctx, menu_completion P n up line ctx = v_completion P n up line (virtuals ctx)) -> ctx <> [] ->
  match k with CMenu _ _ _ _ _ _ => menu_completion P n false line (k :: ctx) | _ => GOk (name_completion k line) end =
  match virt true k with
  | VObj o => GOk (o_comp o line)
  | VMenu _ _ _ _ _ _ _ => v_completion P n false line (below (virt true k) (virtuals ctx))
  end.
Proof.
  intros H Hc. destruct k as [| |id name en desc pr kids]; try reflexivity.
  rewrite H, virtuals_cons. destruct ctx; [congruence|]. reflexivity.
Qed.
Lemma completion_virtual n : forall up line ctx, menu_completion P n up line ctx = v_completion P n up line (virtuals ctx).
Proof.
  induction n as [|n IH]; intros up line ctx; [reflexivity|].
  destruct ctx as [|c anc]; [reflexivity|].
  destruct c as [| |id name en desc pr kids]; try (rewrite virtuals_cons; reflexivity).
  pose proof (virtuals_cons (CMenu id name en desc pr kids) anc) as Hv. rewrite Hv. rewrite virt_eq. rewrite virt_eq in Hv.
  cbn [menu_completion v_completion]. rewrite <- Hv.
  assert (Hin : forall r, g_app (g_all (fun k => match k with
                                      | CMenu _ _ _ _ _ _ => menu_completion P n false r (k :: CMenu id name en desc pr kids :: anc)
                                      | _ => GOk (name_completion k r)
                                      end) kids)
                     (match anc with [] => GOk [] | _ => menu_completion P n true r anc end) =
    g_app (v_all (fun k => match k with
                                      | VObj o => GOk (o_comp o r)
                                      | VMenu _ _ _ _ _ _ _ => v_completion P n false r (below k (virtuals (CMenu id name en desc pr kids :: anc)))
                                      end) (map (virt true) kids))
                     (match virtuals anc with [] => GOk [] | _ => v_completion P n true r (virtuals anc) end)).
  { intros r. f_equal.
    - apply all_virtual. intros k. apply comp_kid; [exact IH|discriminate].
    - pose proof (virtuals_nil anc) as Hn. destruct anc as [|a anc]; [reflexivity|]. rewrite IH.
      destruct (virtuals (a :: anc)); [discriminate|reflexivity]. }
  destruct (starts_with name line); [|destruct (up && starts_with (lit "..") line)].
  - destruct (trim_left P _) as [r|]; [|reflexivity]. rewrite Hin. reflexivity.
  - destruct (trim_left P _) as [r|]; [|reflexivity]. rewrite Hin. reflexivity.
  - reflexivity.
Qed.
Lemma completions_virtual n line ctx : (forall m, hd_error ctx = Some m -> exists i n e d p k, m = CMenu i n e d p k) ->
  menu_completions P n line ctx = v_completions P n line (virtuals ctx).
Proof.
  intros H. destruct ctx as [|m anc]; [reflexivity|]. destruct (H m eq_refl) as (id & name & en & d & p & kids & ->).
  pose proof (virtuals_cons (CMenu id name en d p kids) anc) as Hv. rewrite Hv. rewrite virt_eq. rewrite virt_eq in Hv.
  cbn [menu_completions v_completions v_kids cmd_kids]. rewrite <- Hv. f_equal.
  - apply all_virtual. intros k. apply comp_kid; [exact (completion_virtual n)|discriminate].
  - pose proof (virtuals_nil anc) as Hn. destruct anc as [|a anc]; [reflexivity|]. rewrite completion_virtual.
    destruct (virtuals (a :: anc)); [discriminate|reflexivity].
Qed.
End Platform.
End Library.
