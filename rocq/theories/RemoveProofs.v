(** * Proofs about a history file that is removed or replaced *)

From Verif Require Import Base StorageModel StorageSpec StorageProofs ShareModel ShareSpec ShareProofs RemoveModel RemoveSpec.
Open Scope nat_scope.
Open Scope list_scope.

Lemma r_run_app l1 : forall l2 d, r_run (l1 ++ l2) d = match r_run l1 d with Some d' => r_run l2 d' | None => None end.
Proof. induction l1 as [|a l1 IH]; intros l2 d; [reflexivity|]. cbn [r_run app]. destruct (r_step a d); [apply IH|reflexivity]. Qed.
Lemma d_set_same i p d : d_proc (d_set i p d) i = p.
Proof. cbn. rewrite Nat.eqb_refl. reflexivity. Qed.
Lemma d_set_other i p d j : j <> i -> d_proc (d_set i p d) j = d_proc d j.
Proof. intros H. cbn. destruct (Nat.eqb_spec j i); [congruence|reflexivity]. Qed.
Lemma put_same n c f : put_data n c f n = c.
Proof. unfold put_data. rewrite Nat.eqb_refl. reflexivity. Qed.
Lemma put_other n c f m : m <> n -> put_data n c f m = f m.
Proof. intros H. unfold put_data. destruct (Nat.eqb_spec m n); [congruence|reflexivity]. Qed.
Lemma visible_set i p d : visible (d_set i p d) = visible d.
Proof. reflexivity. Qed.

(** ** Without removals: ShareModel.v *)
Definition on_name (d : disk) : Prop := forall i, match d_proc d i with RRead _ _ _ n | RWrite _ _ n => d_name d = Some n | _ => True end.
Definition sim (d : disk) (s : shared) : Prop := on_name d /\ seen_as d s.
Lemma sim_set d s i p : sim d s -> match p with RRead _ _ _ n | RWrite _ _ n => d_name d = Some n | _ => True end -> sim (d_set i p d) (set_proc i (phase_of p) s).
Proof.
  intros (Hn & Hf & Hp) H. split; [|split].
  - intros j. cbn [d_set d_proc d_name]. destruct (Nat.eqb j i); [exact H|exact (Hn j)].
  - exact Hf.
  - intros j. cbn. destruct (Nat.eqb j i); [reflexivity|apply Hp].
Qed.
Lemma sim_put d s n c : sim d s -> d_name d = Some n -> sim (d_put n c d) (set_file (Some c) s).
Proof.
  intros (Hn & Hf & Hp) H. split; [|split].
  - intros j. exact (Hn j).
  - unfold visible. cbn [d_put d_name d_data]. rewrite H, put_same. reflexivity.
  - exact Hp.
Qed.
Lemma sim_open d s : sim d s -> d_name (snd (d_open d)) = Some (fst (d_open d)) /\ sim (snd (d_open d)) (set_file (Some []) s).
Proof.
  intros H. unfold d_open. destruct (d_name d) as [n|] eqn:E; cbn [fst snd]; [split; [exact E|exact (sim_put d s n [] H E)]|]. cbn [d_swap d_name]. split; [reflexivity|].
  destruct H as (Hn & Hf & Hp). split; [|split; [|exact Hp]].
  - intros j. pose proof (Hn j) as Hj. cbn [d_proc d_name]. destruct (d_proc d j); try exact Logic.I; rewrite E in Hj; discriminate.
  - unfold visible. cbn [d_name d_data]. rewrite put_same. reflexivity.
Qed.
Lemma sim_step a d s : sim d s -> match r_step (RAct a) d, s_step a s with Some d', Some s' => sim d' s' | None, None => True | _, _ => False end.
Proof.
  intros H. assert (Hf : visible d = sh_file s) by apply H. destruct a as [i max cmds|i|i k]; cbn [r_step s_step]; assert (Hp : phase_of (d_proc d i) = sh_proc s i) by apply H; rewrite <- Hp.
  - destruct (d_proc d i); try exact Logic.I. cbn [phase_of]. rewrite <- Hf. unfold visible. destruct (d_name d) as [n|] eqn:E; apply (sim_set d s i); try exact H; [exact E|exact Logic.I].
  - destruct (d_proc d i); try exact Logic.I. cbn [phase_of]. apply sim_open. exact H.
  - assert (Hn : on_name d) by apply H. specialize (Hn i). destruct (d_proc d i) as [|max cmds got n|c|pos rest n]; cbn [phase_of]; [exact Logic.I| | |].
    + rewrite <- Hf. unfold visible. rewrite Hn. destruct (firstn (S k) _); [apply (sim_set d s i (RReady _)); [exact H|exact Logic.I]|apply (sim_set d s i (RRead _ _ _ _)); [exact H|exact Hn]].
    + pose proof (sim_open d s H) as (H1 & H2). destruct (d_open d) as (n & d'). cbn [fst snd] in *. apply (sim_set d' (set_file (Some []) s) i (RWrite 0 c n)); [exact H2|exact H1].
    + destruct rest as [|x rest]; [apply (sim_set d s i RIdle); [exact H|exact Logic.I]|]. rewrite <- Hf. unfold visible. rewrite Hn.
      exact (sim_set _ _ i (RWrite _ _ n) (sim_put d s n _ H Hn) Hn).
Qed.
Lemma sim_init f : sim (d_init f) (sh_init f).
Proof.
  split; [destruct f; intros i; exact Logic.I|]. destruct f; (split; [|intros i; reflexivity]); [unfold visible; cbn; rewrite ?put_same; reflexivity|reflexivity].
Qed.
Lemma sim_run l : forall d s, sim d s -> match r_run (map RAct l) d, s_run l s with Some d', Some s' => sim d' s' | None, None => True | _, _ => False end.
Proof.
  induction l as [|a l IH]; intros d s H; [exact H|]. cbn [map r_run s_run]. pose proof (sim_step a d s H) as Hs. destruct (r_step (RAct a) d) as [d'|], (s_step a s) as [s'|]; try destruct Hs; [|exact Logic.I]. apply IH. split; assumption.
Qed.
Theorem without_swaps f0 l : match r_run (map RAct l) (d_init f0), s_run l (sh_init f0) with Some d, Some s => seen_as d s | None, None => True | _, _ => False end.
Proof.
  pose proof (sim_run l (d_init f0) (sh_init f0) (sim_init f0)) as H. destruct (r_run _ _), (s_run _ _); try exact H. apply H.
Qed.

(** ** Removals between calls *)
Lemma sim_swap d f : r_idle d -> sim (d_swap f d) (sh_init f).
Proof.
  intros H. split.
  - intros i. destruct f; cbn [d_swap d_proc]; rewrite (H i); exact Logic.I.
  - destruct f; (split; [|intros i; cbn [d_swap d_proc]; rewrite (H i); reflexivity]); [unfold visible; cbn; rewrite ?put_same; reflexivity|reflexivity].
Qed.
Lemma sim_idle d s : sim d s -> r_idle d -> all_idle s.
Proof. intros (_ & _ & Hp) H i. rewrite <- Hp, H. reflexivity. Qed.
Lemma calls_ops l : r_ops (map RAct l) = map OCall (calls_made l).
Proof. induction l as [|[i m c|i|i n] l IH]; cbn; rewrite ?IH; reflexivity. Qed.
Lemma ops_app l1 l2 : r_ops (l1 ++ l2) = r_ops l1 ++ r_ops l2.
Proof. induction l1 as [|[[i m c|i|i n]|f] l1 IH]; cbn; rewrite ?IH; reflexivity. Qed.
Lemma fold_calls os : forall f, fold_left o_step (map OCall os) f = fold_left f_step os f.
Proof. induction os as [|o os IH]; intros f; [reflexivity|]. cbn. apply IH. Qed.
(** The current part, begun on [f], after [l1]. *)
Lemma serial_parts l : forall d f l1 s, sim d s -> s_run l1 (sh_init f) = Some s -> one_at_a_time (sh_init f) l1 ->
  undisturbed d l -> forall d', r_run l d = Some d' -> r_idle d' -> visible d' = fold_left o_step (map OCall (calls_made l1) ++ r_ops l) f.
Proof.
  induction l as [|a l IH]; intros d f l1 s H E Ho Hu d' Hr Hi; cbn [r_run] in Hr.
  - injection Hr as <-. cbn [r_ops]. rewrite app_nil_r, fold_calls. rewrite <- (serial_file f l1 s Ho E (sim_idle d s H Hi)). apply H.
  - destruct (r_step a d) as [d1|] eqn:Es; [|discriminate].
    assert (Hu1 : undisturbed d1 l) by (intros k1 b k2 t -> Hb Ht; apply (Hu (a :: k1) b k2 t); [reflexivity|exact Hb|]; cbn; rewrite Es; exact Ht).
    destruct a as [a|f'].
    + pose proof (sim_step a d s H) as Hs. rewrite Es in Hs. destruct (s_step a s) as [s1|] eqn:E1; [|destruct Hs].
      assert (E2 : s_run (l1 ++ [a]) (sh_init f) = Some s1) by (rewrite s_run_app, E; cbn; rewrite E1; reflexivity).
      assert (Ho1 : one_at_a_time (sh_init f) (l1 ++ [a])).
      { intros k1 b k2 t Hk Hb Ht. destruct k2 as [|y k2 _] using rev_ind.
        - apply app_inj_tail in Hk as (<- & <-). rewrite E in Ht. injection Ht as <-. apply (sim_idle d); [exact H|]. exact (Hu [] (RAct a) l d eq_refl Hb eq_refl).
        - rewrite app_comm_cons, app_assoc in Hk. apply app_inj_tail in Hk as (-> & _). exact (Ho k1 b k2 t eq_refl Hb Ht). }
      rewrite (IH d1 f (l1 ++ [a]) s1 Hs E2 Ho1 Hu1 d' Hr Hi). rewrite calls_app, map_app, <- app_assoc. f_equal. f_equal. change (RAct a :: l) with (map RAct [a] ++ l). rewrite ops_app, calls_ops. reflexivity.
    + cbn [r_step] in Es. injection Es as <-. assert (Hi1 : r_idle d) by exact (Hu [] (RSwap f') l d eq_refl Logic.I eq_refl).
      rewrite (IH (d_swap f' d) f' [] (sh_init f') (sim_swap d f' Hi1) eq_refl); [|intros k1 b k2 t Hk; destruct k1; discriminate|exact Hu1|exact Hr|exact Hi].
      cbn [calls_made map app r_ops]. rewrite fold_left_app. reflexivity.
Qed.
Theorem undisturbed_serial f0 l d : undisturbed (d_init f0) l -> r_run l (d_init f0) = Some d -> r_idle d -> visible d = fold_left o_step (r_ops l) f0.
Proof.
  intros Hu Hr Hi. rewrite (serial_parts l (d_init f0) f0 [] (sh_init f0) (sim_init f0) eq_refl); [reflexivity|intros k1 b k2 t Hk; destruct k1; discriminate|exact Hu|exact Hr|exact Hi].
Qed.

(** ** After a removal *)
Definition below (d : disk) : Prop := (forall n, d_name d = Some n -> n < d_next d) /\ forall i, match d_proc d i with RRead _ _ _ n | RWrite _ _ n => n < d_next d | _ => True end.
Lemma below_set d i p : below d -> match p with RRead _ _ _ n | RWrite _ _ n => n < d_next d | _ => True end -> below (d_set i p d).
Proof. intros (H1 & H2) H. split; [exact H1|]. intros j. cbn [d_set d_proc d_next]. destruct (Nat.eqb j i); [exact H|exact (H2 j)]. Qed.
Lemma below_swap d f : below d -> below (d_swap f d).
Proof.
  intros (H1 & H2). destruct f as [c|]; cbn [d_swap].
  - split; [intros n E; cbn in *; injection E as <-; lia|]. intros j. cbn [d_proc d_next]. specialize (H2 j). destruct (d_proc d j); try exact Logic.I; lia.
  - split; [discriminate|exact H2].
Qed.
Lemma below_open d : below d -> fst (d_open d) < d_next (snd (d_open d)) /\ below (snd (d_open d)).
Proof.
  intros H. unfold d_open. destruct (d_name d) as [n|] eqn:E; cbn [fst snd]; [split; [exact (proj1 H n E)|exact H]|]. split; [cbn; lia|]. apply (below_swap d (Some [])). exact H.
Qed.
Lemma below_step a d d' : below d -> r_step a d = Some d' -> below d'.
Proof.
  intros H E. destruct a as [[i max cmds|i|i k]|f]; cbn [r_step] in E; [| | |injection E as <-; apply below_swap, H].
  - destruct (d_proc d i); try discriminate. destruct (d_name d) as [n|] eqn:En; injection E as <-; apply below_set; try exact H; [exact (proj1 H n En)|exact Logic.I].
  - destruct (d_proc d i); try discriminate. injection E as <-. apply below_open, H.
  - pose proof (proj2 H i) as Hi. destruct (d_proc d i) as [|max cmds got n|c|pos rest n]; [discriminate| | |].
    + destruct (firstn (S k) _); injection E as <-; apply below_set; try exact H; [exact Logic.I|exact Hi].
    + pose proof (below_open d H) as (H1 & H2). destruct (d_open d) as (n & d1). cbn [fst snd] in *. injection E as <-. apply below_set; [exact H2|exact H1].
    + destruct rest as [|x rest]; injection E as <-; (apply below_set; [exact H|]); [exact Logic.I|exact Hi].
Qed.
Lemma below_run l : forall d d', below d -> r_run l d = Some d' -> below d'.
Proof.
  induction l as [|a l IH]; intros d d' H E; cbn in E; [injection E as <-; exact H|]. destruct (r_step a d) as [d1|] eqn:E1; [|discriminate]. exact (IH d1 d' (below_step a d d1 H E1) E).
Qed.
Lemma below_init f : below (d_init f).
Proof. apply below_swap. split; [discriminate|]. intros i. exact Logic.I. Qed.

(** The files of [t] are those of [d] from [m] on; a process of [d] may still write to an older one. *)
Definition shift (m : nat) (p : rphase) : rphase :=
  match p with RRead max cmds got n => RRead max cmds got (m + n) | RWrite pos rest n => RWrite pos rest (m + n) | _ => p end.
Definition newer (m : nat) (d t : disk) : Prop :=
  d_next d = m + d_next t /\ d_name d = option_map (Nat.add m) (d_name t) /\ (forall n, d_data d (m + n) = d_data t n) /\
  forall i, d_proc d i = shift m (d_proc t i) \/ (d_proc t i = RIdle /\ exists pos rest n, d_proc d i = RWrite pos rest n /\ n < m).
Lemma newer_set m d t i p : newer m d t -> newer m (d_set i (shift m p) d) (d_set i p t).
Proof.
  intros (H1 & H2 & H3 & H4). split; [exact H1|]. split; [exact H2|]. split; [exact H3|]. intros j. cbn [d_set d_proc]. destruct (Nat.eqb j i); [left; reflexivity|exact (H4 j)].
Qed.
Lemma newer_put m d t n c : newer m d t -> newer m (d_put (m + n) c d) (d_put n c t).
Proof.
  intros (H1 & H2 & H3 & H4). split; [exact H1|]. split; [exact H2|]. split; [|exact H4]. intros k. cbn [d_put d_data]. unfold put_data. destruct (Nat.eqb_spec k n) as [->|Hk]; [rewrite Nat.eqb_refl; reflexivity|]. destruct (Nat.eqb_spec (m + k) (m + n)); [lia|apply H3].
Qed.
Lemma newer_swap m d t f : newer m d t -> newer m (d_swap f d) (d_swap f t).
Proof.
  intros (H1 & H2 & H3 & H4). destruct f as [c|]; cbn [d_swap]; [|split; [exact H1|]; split; [reflexivity|]; split; [exact H3|exact H4]].
  split; [cbn; lia|]. split; [cbn; rewrite H1; reflexivity|]. split; [|exact H4]. intros k. cbn [d_data]. rewrite H1. unfold put_data. destruct (Nat.eqb_spec k (d_next t)) as [->|Hk]; [rewrite Nat.eqb_refl; reflexivity|]. destruct (Nat.eqb_spec (m + k) (m + d_next t)); [lia|apply H3].
Qed.
Lemma newer_open m d t : newer m d t -> fst (d_open d) = m + fst (d_open t) /\ newer m (snd (d_open d)) (snd (d_open t)).
Proof.
  intros H. assert (H1 : d_next d = m + d_next t) by apply H. assert (H2 : d_name d = option_map (Nat.add m) (d_name t)) by apply H. unfold d_open. rewrite H2. destruct (d_name t) as [n|]; cbn [option_map fst snd].
  - split; [reflexivity|]. apply newer_put, H.
  - split; [exact H1|]. apply newer_swap, H.
Qed.
(** A process writes to an older file. *)
Lemma newer_old m d t i pos rest n k d' : newer m d t -> d_proc t i = RIdle -> d_proc d i = RWrite pos rest n -> n < m -> r_step (RAct (GoOn i k)) d = Some d' -> newer m d' t.
Proof.
  intros (H1 & H2 & H3 & H4) Ht Hd Hn E. cbn [r_step] in E. rewrite Hd in E. destruct rest as [|x rest]; injection E as <-.
  - split; [exact H1|]. split; [exact H2|]. split; [exact H3|]. intros j. cbn [d_set d_proc]. destruct (Nat.eqb_spec j i) as [->|]; [left; rewrite Ht; reflexivity|exact (H4 j)].
  - split; [exact H1|]. split; [exact H2|]. split; [intros q; cbn [d_set d_put d_data]; rewrite put_other by lia; apply H3|].
    intros j. cbn [d_set d_put d_proc]. destruct (Nat.eqb_spec j i) as [->|]; [|exact (H4 j)]. right. split; [exact Ht|]. eauto.
Qed.
Lemma newer_step m a d t d' : newer m d t -> r_step a d = Some d' -> (newer m d' t /\ r_ops [a] = []) \/ exists t', r_step a t = Some t' /\ newer m d' t'.
Proof.
  intros H E. destruct a as [[i max cmds|i|i k]|f].
  - right. cbn [r_step] in *. destruct H as (H1 & H2 & H3 & H4). destruct (H4 i) as [Hp|(_ & p & r & n & Hp & _)]; rewrite Hp in E; [|discriminate]. rewrite H2 in E. assert (H : newer m d t) by (split; [exact H1|]; split; [exact H2|]; split; [exact H3|exact H4]).
    destruct (d_proc t i); try discriminate. cbn [shift] in E. destruct (d_name t) as [n|]; cbn [option_map] in E; injection E as <-; eexists; (split; [reflexivity|]); [exact (newer_set m d t i (RRead max cmds [] n) H)|exact (newer_set m d t i (RReady _) H)].
  - right. cbn [r_step] in *. destruct (proj2 (proj2 (proj2 H)) i) as [Hp|(_ & p & r & n & Hp & _)]; rewrite Hp in E; [|discriminate]. destruct (d_proc t i); try discriminate. cbn [shift] in E. injection E as <-. eexists. split; [reflexivity|]. apply newer_open, H.
  - destruct (proj2 (proj2 (proj2 H)) i) as [Hp|(Ht & p & r & n & Hp & Hn)]; [|left; split; [exact (newer_old m d t i p r n k d' H Ht Hp Hn E)|reflexivity]].
    right. cbn [r_step] in *. rewrite Hp in E. destruct (d_proc t i) as [|max cmds got n|c|pos rest n]; cbn [shift] in E; [discriminate| | |].
    + rewrite (proj1 (proj2 (proj2 H)) n) in E. destruct (firstn (S k) _); injection E as <-; eexists; (split; [reflexivity|]); [exact (newer_set m d t i (RReady _) H)|exact (newer_set m d t i (RRead _ _ _ n) H)].
    + pose proof (newer_open m d t H) as (Ho & Hq). destruct (d_open d) as (n & d1), (d_open t) as (n' & t1). cbn [fst snd] in *. injection E as <-. eexists. split; [reflexivity|]. rewrite Ho. exact (newer_set m d1 t1 i (RWrite 0 c n') Hq).
    + destruct rest as [|x rest]; [injection E as <-; eexists; split; [reflexivity|exact (newer_set m d t i RIdle H)]|]. rewrite (proj1 (proj2 (proj2 H)) n) in E. injection E as <-. eexists. split; [reflexivity|].
      exact (newer_set m _ _ i (RWrite _ _ n) (newer_put m d t n _ H)).
  - right. cbn [r_step] in *. injection E as <-. eexists. split; [reflexivity|]. apply newer_swap, H.
Qed.
Lemma newer_visible m d t : newer m d t -> visible d = visible t.
Proof. intros (_ & H2 & H3 & _). unfold visible. rewrite H2. destruct (d_name t); cbn; [rewrite H3|]; reflexivity. Qed.
Lemma newer_run m l : forall d t d', newer m d t -> r_run l d = Some d' -> exists l' t', some_of l' l /\ r_ops l' = r_ops l /\ r_run l' t = Some t' /\ newer m d' t'.
Proof.
  induction l as [|a l IH]; intros d t d' H E; cbn [r_run] in E; [injection E as <-; exists [], t; split; [constructor|]; split; [reflexivity|]; split; [reflexivity|exact H]|]. destruct (r_step a d) as [d1|] eqn:E1; [|discriminate].
  destruct (newer_step m a d t d1 H E1) as [(H1 & Ha)|(t1 & Et & H1)]; destruct (IH d1 _ d' H1 E) as (l' & t' & Hs & Ho & Hr & Hn).
  - exists l', t'. split; [constructor; exact Hs|]. split; [|split; [exact Hr|exact Hn]]. change (a :: l) with ([a] ++ l). rewrite ops_app, Ha. exact Ho.
  - exists (a :: l'), t'. split; [constructor; exact Hs|]. split; [|split; [cbn; rewrite Et; exact Hr|exact Hn]]. change (a :: l) with ([a] ++ l). change (a :: l') with ([a] ++ l'). rewrite !ops_app, Ho. reflexivity.
Qed.
Definition clean (d : disk) : Prop := forall n, d_next d <= n -> d_data d n = [].
Lemma clean_put d n c : clean d -> n < d_next d -> clean (d_put n c d).
Proof. intros H Hn k Hk. cbn [d_put d_data d_next] in *. rewrite put_other by lia. apply H, Hk. Qed.
Lemma clean_swap d f : clean d -> clean (d_swap f d).
Proof. intros H k Hk. destruct f; cbn [d_swap d_data d_next] in *; [rewrite put_other by lia|]; apply H; lia. Qed.
Lemma clean_open d : below d -> clean d -> clean (snd (d_open d)).
Proof. intros Hb H. unfold d_open. destruct (d_name d) as [n|] eqn:E; cbn [snd]; [exact (clean_put d n [] H (proj1 Hb n E))|exact (clean_swap d (Some []) H)]. Qed.
Lemma clean_step a d d' : below d -> clean d -> r_step a d = Some d' -> clean d'.
Proof.
  intros Hb H E. destruct a as [[i max cmds|i|i k]|f]; cbn [r_step] in E; [| | |injection E as <-; apply clean_swap, H].
  - destruct (d_proc d i); try discriminate. destruct (d_name d); injection E as <-; exact H.
  - destruct (d_proc d i); try discriminate. injection E as <-. apply clean_open; assumption.
  - pose proof (proj2 Hb i) as Hi. destruct (d_proc d i) as [|max cmds got n|c|pos rest n]; [discriminate| | |].
    + destruct (firstn (S k) _); injection E as <-; exact H.
    + pose proof (clean_open d Hb H) as H2. destruct (d_open d) as (n & d1). cbn [snd] in *. injection E as <-. exact H2.
    + destruct rest as [|x rest]; injection E as <-; [exact H|]. exact (clean_put d n _ H Hi).
Qed.
Lemma clean_run l : forall d d', below d -> clean d -> r_run l d = Some d' -> clean d'.
Proof.
  induction l as [|a l IH]; intros d d' Hb H E; cbn in E; [injection E as <-; exact H|]. destruct (r_step a d) as [d1|] eqn:E1; [|discriminate]. exact (IH d1 d' (below_step a d d1 Hb E1) (clean_step a d d1 Hb H E1) E).
Qed.
Theorem swapped_fresh f0 la d f lb d' : r_run la (d_init f0) = Some d -> none_begun d -> r_run (RSwap f :: lb) d = Some d' ->
  exists lb' t, some_of lb' lb /\ r_ops lb' = r_ops lb /\ r_run lb' (d_init f) = Some t /\ visible t = visible d'.
Proof.
  intros Ha Hb Hr. cbn [r_run r_step] in Hr. pose proof (below_run la _ d (below_init f0) Ha) as (_ & Hl).
  assert (Hc : clean d) by (apply (clean_run la (d_init f0) d (below_init f0)); [apply clean_swap; intros n _; reflexivity|exact Ha]).
  assert (H : newer (d_next d) (d_swap f d) (d_init f)).
  { assert (Hp : forall i, d_proc d i = RIdle \/ (RIdle = RIdle /\ exists pos rest n, d_proc d i = RWrite pos rest n /\ n < d_next d)).
    { intros i. specialize (Hb i). specialize (Hl i). destruct (d_proc d i); try destruct Hb; [left; reflexivity|right]. split; [reflexivity|]. eauto. }
    destruct f as [c|]; unfold d_init; cbn [d_swap].
    - split; [cbn; lia|]. split; [cbn; rewrite Nat.add_0_r; reflexivity|]. split; [|exact Hp]. intros n. cbn [d_data d_next]. destruct n as [|n]; [rewrite Nat.add_0_r, !put_same; reflexivity|]. rewrite !put_other by lia. apply Hc. lia.
    - split; [cbn; lia|]. split; [reflexivity|]. split; [|exact Hp]. intros n. cbn [d_data]. apply Hc. lia. }
  destruct (newer_run _ lb _ _ d' H Hr) as (lb' & t & Hs & Ho & Ht & Hn). exists lb', t. split; [exact Hs|]. split; [exact Ho|]. split; [exact Ht|]. symmetry. exact (newer_visible _ _ _ Hn).
Qed.

(** ** The commands of the last one to write *)
Definition r_text (max : nat) (cmds : list str) (c : str) : Prop := exists got, c = to_write max cmds got.
Definition r_storing (max : nat) (cmds : list str) (p : rphase) : Prop :=
  match p with RRead m c _ _ => m = max /\ c = cmds | RReady c => r_text max cmds c | _ => True end.
Definition r_last (max : nat) (cmds : list str) (i : nat) (d : disk) : Prop :=
  match d_proc d i with
  | RIdle => exists c, visible d = Some c /\ r_text max cmds c
  | RWrite pos rest n => d_name d = Some n /\ exists done, d_data d n = done /\ pos = length done /\ r_text max cmds (done ++ rest)
  | p => r_storing max cmds p
  end.
Lemma open_proc d : d_proc (snd (d_open d)) = d_proc d /\ d_name (snd (d_open d)) = Some (fst (d_open d)) /\ d_data (snd (d_open d)) (fst (d_open d)) = [].
Proof. unfold d_open. destruct (d_name d) as [n|] eqn:E; cbn; rewrite put_same; auto. Qed.
Lemma r_own max cmds i k d d' : r_step (RAct (GoOn i k)) d = Some d' ->
  (r_storing max cmds (d_proc d i) -> r_storing max cmds (d_proc d' i)) /\ (r_last max cmds i d -> r_last max cmds i d').
Proof.
  intros E. cbn [r_step] in E. unfold r_last. destruct (d_proc d i) as [|m c got n|c|pos rest n]; [discriminate| | |].
  - destruct (firstn (S k) _); injection E as <-; rewrite d_set_same; cbn [r_storing]; (split; intros (-> & ->); [try (eexists; reflexivity); auto|]); try (eexists; reflexivity); auto.
  - pose proof (open_proc d) as (_ & H1 & H2). destruct (d_open d) as (n & d1). cbn [fst snd] in *. injection E as <-. rewrite d_set_same. cbn [r_storing d_set d_name d_data]. split; [auto|]. intros H. split; [exact H1|]. exists []. rewrite H2. auto.
  - destruct rest as [|x rest]; injection E as <-; rewrite d_set_same; cbn [r_storing]; (split; [auto|]); intros (Hn & dn & Hd & Hl & H).
    + exists dn. rewrite app_nil_r in H. rewrite visible_set. unfold visible. rewrite Hn, Hd. auto.
    + split; [exact Hn|]. cbn [d_set d_put d_data]. rewrite put_same. eexists. split; [reflexivity|]. rewrite Hd, Hl, write_at_end. split; [rewrite app_length; reflexivity|]. rewrite <- app_assoc. change (r_text max cmds (dn ++ firstn (S k) (x :: rest) ++ skipn (S k) (x :: rest))). rewrite firstn_skipn. exact H.
Qed.
Lemma r_other a d d' i : ~ r_acts i a -> r_step a d = Some d' -> d_proc d' i = d_proc d i.
Proof.
  intros Ha E. destruct a as [[j m c|j|j k]|f]; cbn [r_acts actor] in Ha; cbn [r_step] in E.
  - destruct (d_proc d j); try discriminate. destruct (d_name d); injection E as <-; apply d_set_other; congruence.
  - destruct (d_proc d j); try discriminate. injection E as <-. rewrite (proj1 (open_proc d)). reflexivity.
  - destruct (d_proc d j) as [|m c got n|c|pos rest n]; [discriminate| | |].
    + destruct (firstn (S k) _); injection E as <-; apply d_set_other; congruence.
    + pose proof (open_proc d) as (H1 & _). destruct (d_open d) as (n & d1). cbn [snd] in *. injection E as <-. rewrite d_set_other by congruence. rewrite H1. reflexivity.
    + destruct rest as [|x rest]; injection E as <-; rewrite d_set_other by congruence; reflexivity.
  - injection E as <-. destruct f; reflexivity.
Qed.
(** What changes nothing of the file with the name. *)
Lemma r_quiet a d d' : ~ r_changes d a -> r_step a d = Some d' -> d_name d' = d_name d /\ forall n, d_name d = Some n -> d_data d' n = d_data d n.
Proof.
  intros Hw E. destruct a as [[j m c|j|j k]|f]; cbn [r_changes] in Hw; cbn [r_step] in E.
  - destruct (d_proc d j); try discriminate. destruct (d_name d) eqn:En; injection E as <-; cbn; auto.
  - destruct (Hw Logic.I).
  - destruct (d_proc d j) as [|m c got n|c|pos rest n]; [discriminate| | |].
    + destruct (firstn (S k) _); injection E as <-; auto.
    + destruct (Hw Logic.I).
    + destruct rest as [|x rest]; injection E as <-; [auto|]. split; [reflexivity|]. intros q Hq. cbn [d_set d_put d_data]. apply put_other. congruence.
  - destruct (Hw Logic.I).
Qed.
Lemma r_dec i a : {r_acts i a} + {~ r_acts i a}.
Proof. destruct a as [a|f]; cbn; [apply Nat.eq_dec|right; intros []]. Qed.
Lemma r_storing_run max cmds i : forall l d d', r_goes i l -> r_storing max cmds (d_proc d i) -> r_run l d = Some d' -> r_storing max cmds (d_proc d' i).
Proof.
  induction l as [|a l IH]; intros d d' Hc H E; cbn in E; [injection E as <-; exact H|].
  destruct (r_step a d) as [d1|] eqn:E1; [|discriminate]. apply (IH d1 d'); [intros b Hb; apply Hc; right; exact Hb| |exact E].
  destruct (r_dec i a) as [Ha|Ha]; [|rewrite (r_other _ _ _ _ Ha E1); exact H]. destruct (Hc a (or_introl eq_refl) Ha) as (k & ->). exact (proj1 (r_own max cmds i k d d1 E1) H).
Qed.
Lemma r_last_run max cmds i : forall l d d', r_goes i l -> only_by i d l -> r_last max cmds i d -> r_run l d = Some d' -> r_last max cmds i d'.
Proof.
  induction l as [|a l IH]; intros d d' Hc Hs H E; cbn in E; [injection E as <-; exact H|].
  destruct (r_step a d) as [d1|] eqn:E1; [|discriminate]. apply (IH d1 d'); [intros b Hb; apply Hc; right; exact Hb| | |exact E].
  - intros l1 b l2 t -> Hr. apply (Hs (a :: l1) b l2 t); [reflexivity|]. cbn. rewrite E1. exact Hr.
  - destruct (r_dec i a) as [Ha|Ha]; [destruct (Hc a (or_introl eq_refl) Ha) as (k & ->); exact (proj2 (r_own max cmds i k d d1 E1) H)|].
    destruct (r_quiet a d d1 (fun W => Ha (Hs [] a l d eq_refl eq_refl W)) E1) as (Hn & Hd). unfold r_last in *. rewrite (r_other _ _ _ _ Ha E1). destruct (d_proc d i) as [|m c got n|c|pos rest n]; try exact H.
    + destruct H as (c & Hv & Ht). exists c. split; [|exact Ht]. unfold visible in *. rewrite Hn. destruct (d_name d) as [n|]; [rewrite (Hd n eq_refl)|]; exact Hv.
    + destruct H as (H1 & dn & H2 & H3). split; [rewrite Hn; exact H1|]. exists dn. rewrite (Hd n H1). auto.
Qed.
Theorem last_writer f0 la i max cmds lb d1 lc d : r_run (la ++ RAct (CallStore i max cmds) :: lb) (d_init f0) = Some d1 -> r_goes i (lb ++ lc) -> r_before d1 i ->
  only_by i d1 lc -> r_run lc d1 = Some d -> d_proc d i = RIdle -> Forall one_line cmds -> exists old, f_commands (visible d) = lastn max (old ++ cmds).
Proof.
  intros E Hc Hb Hs E' Hi Ho. rewrite r_run_app in E. destruct (r_run la (d_init f0)) as [da|]; [|discriminate]. cbn [r_run] in E.
  destruct (r_step (RAct (CallStore i max cmds)) da) as [db|] eqn:Eb; [|discriminate].
  assert (H0 : r_storing max cmds (d_proc db i)).
  { cbn [r_step] in Eb. destruct (d_proc da i); try discriminate. destruct (d_name da); injection Eb as <-; rewrite d_set_same; cbn; [auto|eexists; reflexivity]. }
  assert (H1 : r_storing max cmds (d_proc d1 i)) by (apply (r_storing_run max cmds i lb db d1); [intros b Hin; apply Hc, in_or_app; left; exact Hin|exact H0|exact E]).
  assert (H2 : r_last max cmds i d).
  { apply (r_last_run max cmds i lc d1 d); [intros b Hin; apply Hc, in_or_app; right; exact Hin|exact Hs| |exact E']. unfold r_before in Hb. unfold r_last. destruct (d_proc d1 i); [destruct Hb|exact H1|exact H1|destruct Hb]. }
  unfold r_last in H2. rewrite Hi in H2. destruct H2 as (c & -> & got & ->). exists (getlines [] got). cbn [f_commands]. unfold to_write. rewrite append_trim_lastn. apply getlines_put, Forall_lastn, Forall_app. split; [|exact Ho]. apply getlines_one_line. intros [].
Qed.
