(** * Proofs about changing menus while a line is being processed *)

From Verif Require Import Base SplitModel SplitProofs FromStringModel FromStringProofs HistoryModel HistorySpec HistoryProofs
  StorageModel MenuModel SessionModel ResolveSpec ResolveProofs SessionSpec SessionProofs TreeProofs InvariantProofs SafetyProofs
  LiveModel LiveSpec.
Open Scope nat_scope.
Open Scope list_scope.

(** ** Running user code *)
Lemma l_ops_world os : forall s, l_w (l_ops os s) = apply_ops os (l_w s).
Proof. induction os as [|o os IH]; intros s; [reflexivity|]. exact (IH (l_op s o)). Qed.
Lemma l_call_left E u vs s : l_w (snd (l_call E u vs s)) = call_left E u vs (l_w s).
Proof. unfold l_call, call_left. cbn [snd]. rewrite l_ops_world. reflexivity. Qed.
Lemma l_call_end E u vs s : fst (l_call E u vs s) = call_end E u vs (l_w s).
Proof. reflexivity. Qed.

Lemma menu_now_chain mid s ctx : menu_now mid s = Some ctx ->
  chain (w_root (l_w s)) ctx /\ exists m anc, ctx = m :: anc /\ cmd_id m = mid.
Proof. intros H. eapply locate_chain in H; [exact H|]. intros Hm. constructor. exact Hm. Qed.
Lemma chain_hd root m anc : chain root (m :: anc) -> is_menu m.
Proof. intros H. inversion H; assumption. Qed.

(** ** Every call is of a command that is enabled and in the menus *)
Section Calls.
Context (E : env).

Definition progress (toks : list str) (s : lworld) (r : lres) : Prop :=
  match r with
  | LDone false s' => turned_down E toks (l_w s) (l_w s')
  | LDone true s' => exists w1, turned_down E toks (l_w s) w1 /\ answered E toks w1 (l_w s')
  | LExc x s' => exists w1, turned_down E toks (l_w s) w1 /\ threw E toks w1 (l_w s') x
  | LUB => True
  end.
Lemma td_trans toks w w1 w2 : turned_down E toks w w1 -> turned_down E toks w1 w2 -> turned_down E toks w w2.
Proof. intros H1 H2. induction H2; [exact H1|]. eapply td_call; eauto. Qed.
Lemma progress_bind toks s r f : progress toks s r -> (forall s', r = LDone false s' -> progress toks s' (f s')) ->
  progress toks s (l_bind r f).
Proof.
  intros H Hf. destruct r as [[] s'|x s'|]; try exact H. cbn [l_bind]. specialize (Hf s' eq_refl). cbn in H.
  destruct (f s') as [[] s2|x s2|]; cbn in *; [| | |exact Logic.I].
  - destruct Hf as (w1 & H1 & H2). exists w1. split; [eapply td_trans; eassumption|exact H2].
  - eapply td_trans; eassumption.
  - destruct Hf as (w1 & H1 & H2). exists w1. split; [eapply td_trans; eassumption|exact H2].
Qed.

Lemma leaf_progress toks pre rest c m anc s : toks = pre ++ rest -> chain (w_root (l_w s)) (m :: anc) -> In c (cmd_kids m) ->
  progress toks s (l_leaf E c rest s).
Proof.
  intros Ht Hc Hin. destruct c as [id name en d pars pd h|id name en d pd h|id name en d pr ks]; cbn [l_leaf].
  - destruct en; [|apply td_none]. cbn [negb]. destruct (Nat.eqb (length rest) (length pars + 1)) eqn:Hl; [|apply td_none].
    apply Nat.eqb_eq in Hl. destruct rest as [|t args]; [exact Logic.I|]. cbn [negb].
    destruct (str_eqb name t) eqn:Hn; [|apply td_none]. apply str_eqb_eq in Hn as <-.
    destruct (convert_all E pars args) as [vs| |] eqn:Hv; [|apply td_none|exact Logic.I].
    apply convert_all_ok in Hv; [|cbn in Hl; lia]. destruct h as [u| | | |]; try exact Logic.I.
    assert (Ho : offered E (w_root (l_w s)) toks u vs) by (eapply of_fn; eassumption).
    pose proof (l_call_left E u vs s) as Hw. pose proof (l_call_end E u vs s) as He.
    destruct (l_call E u vs s) as (e, s'). cbn [fst snd] in *.
    destruct e as [|[x|x|]]; cbn.
    + exists (l_w s). split; [apply td_none|]. left. exists u, vs. auto.
    + rewrite Hw. eapply td_call; [apply td_none|exact Ho|symmetry; exact He].
    + exists (l_w s). split; [apply td_none|]. exists u, vs. auto.
    + exists (l_w s). split; [apply td_none|]. exists u, vs. auto.
  - destruct en; [|apply td_none]. cbn [negb]. destruct rest as [|t args]; [exact Logic.I|].
    destruct (str_eqb name t) eqn:Hn; [|apply td_none]. apply str_eqb_eq in Hn as <-.
    destruct h as [u| | | |]; try exact Logic.I.
    assert (Ho : offered E (w_root (l_w s)) toks u [VList args]) by (eapply of_free; eassumption).
    pose proof (l_call_left E u [VList args] s) as Hw. pose proof (l_call_end E u [VList args] s) as He.
    destruct (l_call E u [VList args] s) as (e, s'). cbn [fst snd] in *.
    destruct e as [|x]; cbn.
    + exists (l_w s). split; [apply td_none|]. left. exists u, [VList args]. auto.
    + exists (l_w s). split; [apply td_none|]. exists u, [VList args]. auto.
  - apply td_none.
Qed.

Lemma loop_progress toks f mid v :
  (forall c m anc s, chain (w_root (l_w s)) (m :: anc) -> In c (cmd_kids m) -> progress toks s (f c s)) ->
  forall ks s, progress toks s (l_loop f mid v ks s).
Proof.
  intros Hf. induction ks as [|k ks IH]; intros s; cbn [l_loop]; [apply td_none|].
  destruct (menu_now mid s) as [[|m anc]|] eqn:Hm; [exact Logic.I| |exact Logic.I].
  apply menu_now_chain in Hm as (Hc & _).
  destruct (find _ (cmd_kids m)) as [c|] eqn:Hfind; [|exact Logic.I]. apply find_some in Hfind as (Hin & _).
  apply progress_bind; [eapply Hf; eassumption|]. intros s' _. destruct (intact mid v s'); [apply IH|exact Logic.I].
Qed.
Lemma lscan_progress toks f g mid kids :
  (forall c m anc s, chain (w_root (l_w s)) (m :: anc) -> In c (cmd_kids m) -> progress toks s (f c s)) ->
  (forall p s, progress toks s (g p s)) ->
  forall s, progress toks s (l_scan f g mid kids s).
Proof.
  intros Hf Hg s. unfold l_scan. apply progress_bind; [apply loop_progress; exact Hf|]. intros s' _.
  destruct (menu_now mid s') as [[|m [|p anc]]|]; [apply td_none|apply td_none|apply Hg|exact Logic.I].
Qed.
Lemma handle_progress toks rest : forall pre up mid s, toks = pre ++ rest -> progress toks s (l_handle E rest up mid s).
Proof.
  induction rest as [|t rest IH]; intros pre up mid s Ht; cbn [l_handle].
  - destruct (menu_now mid s) as [[|[| |id name en d pr ks] anc]|]; try exact Logic.I. destruct en; [exact Logic.I|apply td_none].
  - destruct (menu_now mid s) as [[|[| |id name en d pr ks] anc]|] eqn:Hm; try exact Logic.I.
    destruct en; [|apply td_none]. cbn [negb].
    destruct (str_eqb name t || _) eqn:Hn; [|apply td_none].
    assert (Hrest : toks = (pre ++ [t]) ++ rest) by (rewrite <- app_assoc; exact Ht).
    destruct rest as [|t2 rest].
    + cbn. exists (l_w s). split; [apply td_none|]. right. exists id. split; [|reflexivity].
      apply menu_now_chain in Hm as (Hc & _). eexists _, _, pre, t. split; [exact Hc|]. split; [reflexivity|]. split; [reflexivity|].
      split; [exact Ht|]. apply orb_true_iff in Hn as [Hn|Hn].
      * apply str_eqb_eq in Hn as <-. left. reflexivity.
      * apply andb_true_iff in Hn as (_ & Hn). apply str_eqb_eq in Hn as <-. right. reflexivity.
    + apply lscan_progress.
      * intros c m anc' s' Hc Hin. destruct c; try (eapply leaf_progress; eassumption). eapply IH. exact Hrest.
      * intros p s'. eapply IH. exact Hrest.
Qed.
Lemma live_progress toks w : progress toks (mkLive w []) (live_scan E toks w).
Proof.
  unfold live_scan. destruct (menu_now (w_cur w) (mkLive w [])) as [[|m anc]|]; try exact Logic.I.
  destruct (cmd_en m); [|apply td_none]. cbn [negb]. apply lscan_progress.
  - intros c m' anc' s' Hc Hin. destruct c; cbn [l_exec]; try (eapply (leaf_progress toks []); [reflexivity|eassumption..]).
    apply (handle_progress toks toks []). reflexivity.
  - intros p s'. apply (handle_progress toks toks []). reflexivity.
Qed.
End Calls.

(** ** Without a change of a menu before a [std::bad_cast], it is SessionModel.v *)
Lemma version_same mid s s' : l_changed s' = l_changed s -> version mid s' = version mid s.
Proof. intros H. unfold version. rewrite H. reflexivity. Qed.
Lemma no_tree_vectors os : forall s, existsb is_tree_op os = false -> l_changed (l_ops os s) = l_changed s.
Proof.
  induction os as [|o os IH]; intros s H; [reflexivity|]. cbn in H. apply orb_false_iff in H as (Ho & H).
  transitivity (l_changed (l_op s o)); [exact (IH (l_op s o) H)|].
  destruct o; try discriminate; cbn; apply app_nil_r.
Qed.

Lemma chain_nodup root ctx : unique_ids root -> chain root ctx -> forall m anc, ctx = m :: anc -> NoDup (ids m).
Proof.
  intros Hu H. induction H as [Hm|k p anc H IH Hin Hk]; intros m a Heq; injection Heq as <- <-; [exact Hu|].
  specialize (IH p anc eq_refl). apply chain_hd in H. destruct H as (i & n & e & d & pr & ks & ->).
  eapply kid_nodup; [exact IH|exact Hin].
Qed.
Lemma find_kid l : NoDup (kids_ids l) -> forall k, In k l -> find (fun c => Nat.eqb (cmd_id c) (cmd_id k)) l = Some k.
Proof.
  induction l as [|x l IH]; intros Hnd k []; cbn [find].
  - subst. rewrite Nat.eqb_refl. reflexivity.
  - cbn in Hnd. apply NoDup_app_iff in Hnd as (_ & Hl & Hd).
    destruct (Nat.eqb_spec (cmd_id x) (cmd_id k)) as [He|_]; [|apply IH; assumption].
    exfalso. apply (Hd (cmd_id x)); [apply ids_hd|]. apply in_kids_ids. exists k. split; [assumption|]. rewrite He. apply ids_hd.
Qed.

Section Agree.
Context (E : env).

Definition agree (s : lworld) (r : eres) (l : lres) : Prop :=
  match r with
  | EDone b w' => exists s', l = LDone b s' /\ l_w s' = w' /\
      (b = false -> w_root w' = w_root (l_w s) /\ l_changed s' = l_changed s)
  | EExc x w' => exists s', l = LExc x s' /\ l_w s' = w'
  | EUB => True
  | EFuel => False
  end.
Lemma agree_false s : agree s (EDone false (l_w s)) (LDone false s).
Proof. exists s. auto. Qed.
Lemma agree_bind s r l f g : agree s r l ->
  (forall s', w_root (l_w s') = w_root (l_w s) -> l_changed s' = l_changed s -> agree s' (f (l_w s')) (g s')) ->
  agree s (e_bind r f) (l_bind l g).
Proof.
  intros H Hf. destruct r as [[] w'|x w'| |]; try exact H.
  - destruct H as (s' & -> & H). exists s'. auto.
  - destruct H as (s' & -> & <- & H). destruct (H eq_refl) as (Hr & Hc). cbn [e_bind l_bind].
    specialize (Hf s' Hr Hc). destruct (f (l_w s')) as [b w2|x w2| |]; cbn in *; try exact Hf.
    destruct Hf as (s2 & -> & <- & H2). exists s2. split; [reflexivity|]. split; [reflexivity|]. intros Hb. destruct (H2 Hb).
    split; congruence.
  - destruct H as (s' & -> & H). exists s'. auto.
Qed.

Lemma call_agree u vs s : exists s', l_call E u vs s = (ur_end (fst (call_user E u vs (l_w s))), s') /\
  l_w s' = snd (call_user E u vs (l_w s)) /\
  (existsb is_tree_op (ur_ops (fst (call_user E u vs (l_w s)))) = false -> w_root (l_w s') = w_root (l_w s) /\ l_changed s' = l_changed s).
Proof.
  eexists. split; [reflexivity|]. unfold l_call, call_user. cbn [fst snd]. split; [apply l_ops_world|].
  intros H. rewrite l_ops_world, no_tree_vectors by exact H. cbn [l_w l_changed]. split; [|reflexivity].
  exact (proj1 (no_tree_ops _ (log (EvCall (w_sid (l_w s)) u vs) (l_w s)) H)).
Qed.
Lemma leaf_agree c toks s : agree s (exec_leaf E no_builtin c toks (l_w s)) (l_leaf E c toks s).
Proof.
  destruct c as [id name en d pars pd h|id name en d pd h|id name en d pr ks]; cbn [exec_leaf l_leaf].
  - destruct en; [|apply agree_false]. cbn [negb]. destruct (Nat.eqb _ _); [|apply agree_false]. cbn [negb].
    destruct toks as [|t args]; [exact Logic.I|]. destruct (str_eqb name t); [|apply agree_false].
    destruct (convert_all E pars args) as [vs| |]; [|apply agree_false|exact Logic.I].
    destruct h as [u| | | |]; try exact Logic.I. cbn [run_fn].
    destruct (call_agree u vs s) as (s' & -> & Hw & Hk). destruct (call_user E u vs (l_w s)) as (r, w'). cbn [fst snd] in *.
    destruct (ur_end r) as [|[x|x|]].
    + exists s'. split; [reflexivity|]. split; [exact Hw|]. discriminate.
    + destruct (existsb is_tree_op (ur_ops r)); [exact Logic.I|]. exists s'. split; [reflexivity|]. split; [exact Hw|].
      intros _. rewrite <- Hw. apply Hk. reflexivity.
    + exists s'. split; [reflexivity|exact Hw].
    + exists s'. split; [reflexivity|exact Hw].
  - destruct en; [|apply agree_false]. cbn [negb]. destruct toks as [|t args]; [exact Logic.I|]. destruct (str_eqb name t); [|apply agree_false].
    destruct h as [u| | | |]; try exact Logic.I. cbn [run_free].
    destruct (call_agree u [VList args] s) as (s' & -> & Hw & Hk). destruct (call_user E u [VList args] (l_w s)) as (r, w'). cbn [fst snd] in *.
    destruct (ur_end r) as [|x].
    + exists s'. split; [reflexivity|]. split; [exact Hw|]. discriminate.
    + exists s'. split; [reflexivity|exact Hw].
  - apply agree_false.
Qed.

Section Tree.
Context (root : cmd) (Hu : unique_ids root).

Lemma now_chain s m anc : w_root (l_w s) = root -> chain root (m :: anc) -> menu_now (cmd_id m) s = Some (m :: anc).
Proof. intros Hr Hc. unfold menu_now. rewrite Hr. apply locate_spec; [exact Hu|]. split; [exact Hc|]. eauto. Qed.

Lemma loop_agree f g m anc v : chain root (m :: anc) ->
  (forall k s, In k (cmd_kids m) -> w_root (l_w s) = root -> agree s (f k (l_w s)) (g k s)) ->
  forall l s, incl l (cmd_kids m) -> w_root (l_w s) = root -> version (cmd_id m) s = v ->
  agree s (try_all f l (l_w s)) (l_loop g (cmd_id m) v (map cmd_id l) s).
Proof.
  intros Hc Hf. assert (Hnd : NoDup (kids_ids (cmd_kids m))).
  { pose proof (chain_nodup root _ Hu Hc m anc eq_refl) as H. apply chain_hd in Hc as (i & n & e & d & pr & ks & ->).
    rewrite ids_menu in H. inversion H; assumption. }
  induction l as [|k l IH]; intros s Hi Hr Hv; cbn [try_all map l_loop]; [apply agree_false|].
  rewrite (now_chain s m anc Hr Hc). rewrite (find_kid _ Hnd k) by (apply Hi; left; reflexivity).
  apply agree_bind; [apply Hf; [apply Hi; left; reflexivity|exact Hr]|].
  intros s' Hr' Hch. unfold intact. rewrite (now_chain s' m anc) by (congruence || exact Hc).
  rewrite (version_same _ _ _ Hch), Hv, Nat.eqb_refl. apply IH; [|congruence|].
  - intros x Hx. apply Hi. right. exact Hx.
  - rewrite (version_same _ _ _ Hch). exact Hv.
Qed.
Lemma lscan_agree f g fh gh m anc : chain root (m :: anc) ->
  (forall k s, In k (cmd_kids m) -> w_root (l_w s) = root -> agree s (f k (l_w s)) (g k s)) ->
  (forall p a s, chain root (p :: a) -> w_root (l_w s) = root -> agree s (fh (p :: a) (l_w s)) (gh (cmd_id p) s)) ->
  forall s, w_root (l_w s) = root ->
  agree s (e_bind (try_all f (cmd_kids m) (l_w s)) (fun w1 => match anc with [] => EDone false w1 | _ => fh anc w1 end))
    (l_scan g gh (cmd_id m) (cmd_kids m) s).
Proof.
  intros Hc Hf Hh s Hr. unfold l_scan. apply agree_bind; [eapply loop_agree; eauto using incl_refl|].
  intros s' Hr' _. rewrite (now_chain s' m anc) by (congruence || exact Hc). destruct anc as [|p a]; [apply agree_false|].
  apply Hh; [eapply chain_tail; exact Hc|congruence].
Qed.
Lemma handle_agree toks : forall up m anc s, chain root (m :: anc) -> w_root (l_w s) = root ->
  agree s (handle E no_builtin toks up (m :: anc) (l_w s)) (l_handle E toks up (cmd_id m) s).
Proof.
  induction toks as [|t rest IH]; intros up m anc s Hc Hr; pose proof (now_chain s m anc Hr Hc) as Hn.
  - pose proof (chain_hd _ _ _ Hc) as (i & n & e & d & pr & ks & ->). cbn [handle l_handle]. rewrite Hn.
    destruct e; [exact Logic.I|apply agree_false].
  - pose proof (chain_hd _ _ _ Hc) as (i & n & e & d & pr & ks & ->). cbn [handle l_handle]. rewrite Hn.
    destruct e; [|apply agree_false]. cbn [negb]. destruct (str_eqb n t || _); [|apply agree_false].
    destruct rest as [|t2 rest].
    + eexists. split; [reflexivity|]. split; [reflexivity|]. discriminate.
    + apply (lscan_agree _ _ (fun c w => handle E no_builtin (t2 :: rest) true c w) _ (CMenu i n true d pr ks) anc Hc); [| |exact Hr].
      * intros k s' Hin Hr'. destruct k as [ki kn ke kd kp kpd kh|ki kn ke kd kpd kh|ki kn ke kd kpr kks]; try apply leaf_agree.
        apply (IH false (CMenu ki kn ke kd kpr kks)); [|exact Hr']. apply chain_sub; [exact Hc|exact Hin|repeat eexists].
      * intros p a s' Hc' Hr'. apply IH; assumption.
Qed.
End Tree.

Lemma live_agree toks w ctx : unique_ids (w_root w) -> locate (w_cur w) [] (w_root w) = Some ctx ->
  agree (mkLive w []) (scan E no_builtin toks ctx w) (live_scan E toks w).
Proof.
  intros Hu Hl. unfold live_scan, menu_now. cbn [l_w]. rewrite Hl.
  apply locate_in_menu in Hl as (Hc & m & anc & -> & Hcur). rewrite <- Hcur. cbn [scan].
  destruct (cmd_en m); [|apply agree_false]. cbn [negb].
  apply (lscan_agree (w_root w) Hu (exec E no_builtin toks (m :: anc)) (l_exec E toks) (fun c w => handle E no_builtin toks true c w)
    (fun p s1 => l_handle E toks true p s1) m anc Hc); [| |reflexivity].
  - intros k s' Hin Hr'. destruct k as [ki kn ke kd kp kpd kh|ki kn ke kd kpd kh|ki kn ke kd kpr kks]; cbn [exec l_exec]; try apply leaf_agree.
    apply (handle_agree (w_root w) Hu toks false (CMenu ki kn ke kd kpr kks)); [|exact Hr']. apply chain_sub; [exact Hc|exact Hin|repeat eexists].
  - intros p a s' Hc' Hr'. apply (handle_agree (w_root w) Hu); assumption.
Qed.

(** *** The global commands *)
Lemma builtin_agree rec rec' h vs w :
  (forall line w, sound w -> f_inv sound (rec line w)) ->
  (forall line w, sound w -> rec line w <> FUB -> rec' line w = rec line w) -> sound w ->
  builtin E rec h vs w = HUB \/ (builtin E rec' h vs w = builtin E rec h vs w /\ h_inv sound (builtin E rec h vs w)).
Proof.
  intros Hi Hr Hs. destruct h; cbn [builtin].
  - left. reflexivity.
  - destruct (help_text w); [|left; reflexivity]. right. split; [reflexivity|exact Hs].
  - right. split; [reflexivity|]. apply (exit_inv E sound (fun _ => True)); auto; try (intros; assumption); [apply code_ops_all|].
    intros. apply sound_op. assumption.
  - right. split; [reflexivity|]. destruct (show (w_hist w)); exact Hs.
  - destruct vs as [|[z| | | | | |] [|]]; try (left; reflexivity).
    destruct (forget_latest (w_hist w)) as [h'|]; [|left; reflexivity].
    destruct (at_id h' z) as [l| |]; [|right; split; [reflexivity|exact Hs]|left; reflexivity].
    specialize (Hi l (set_hist h' w) Hs). specialize (Hr l (set_hist h' w) Hs).
    destruct (rec l (set_hist h' w)) as [w2|x w2| |] eqn:Hrec; [| |left; reflexivity|]; rewrite Hr by discriminate; right; (split; [reflexivity|exact Hi]).
Qed.
Lemma global_agree rec rec' toks w :
  (forall line w, sound w -> f_inv sound (rec line w)) ->
  (forall line w, sound w -> rec line w <> FUB -> rec' line w = rec line w) -> toks <> [] -> sound w ->
  scan E (builtin E rec) toks [global_menu] w = EUB \/
  (scan E (builtin E rec') toks [global_menu] w = scan E (builtin E rec) toks [global_menu] w /\
   e_inv sound sound (scan E (builtin E rec) toks [global_menu] w)).
Proof.
  intros Hi Hr Hne. rewrite !scan_attempts by exact Hne.
  assert (Hall : forall l, (forall p t, In (p, t) l -> reading [global_menu] toks p t) -> forall w, sound w ->
    attempts E (builtin E rec) l w = EUB \/
    (attempts E (builtin E rec') l w = attempts E (builtin E rec) l w /\ e_inv sound sound (attempts E (builtin E rec) l w))).
  { induction l as [|(p, t) l IH]; intros Hin w1 Hs; cbn [attempts snd]; [right; split; [reflexivity|exact Hs]|].
    assert (Hone : attempt E (builtin E rec) t w1 = EUB \/
      (attempt E (builtin E rec') t w1 = attempt E (builtin E rec) t w1 /\ e_inv sound sound (attempt E (builtin E rec) t w1))).
    { specialize (Hin p t (or_introl eq_refl)).
      assert (Ht : exists h pars args, t = TRun h pars args /\ (h = HHelp \/ h = HExit \/ h = HHistory \/ h = HBang)).
      { apply global_readings in Hin as [(_ & _ & ->)|[(_ & _ & ->)|[(_ & _ & ->)|(a & _ & _ & ->)]]]; eexists _, _, _; (split; [reflexivity|]); tauto. }
      destruct Ht as (h & pars & args & -> & Hh). cbn [attempt].
      destruct (convert_all E pars args) as [vs| |]; [|right; split; [reflexivity|exact Hs]|left; reflexivity].
      destruct (builtin_agree rec rec' h vs w1 Hi Hr Hs) as [Hb|(Hb & Hinv)].
      - left. destruct Hh as [ -> | [ -> | [ -> | -> ]]]; cbn [run_fn]; rewrite Hb; reflexivity.
      - right. destruct Hh as [ -> | [ -> | [ -> | -> ]]]; cbn [run_fn]; rewrite Hb;
          (split; [reflexivity|]); destruct (builtin E rec _ vs w1) as [w2|[x|x|] w2| |]; exact Hinv. }
    destruct Hone as [ Hub |(Heq & Hinv)]; [rewrite Hub|rewrite Heq]; [left; reflexivity|].
    destruct (attempt E (builtin E rec) t w1) as [[] w2|x w2| |]; cbn [e_bind].
    - right. split; [reflexivity|exact Hinv].
    - apply IH; [|exact Hinv]. intros p' t' H'. apply Hin. right. exact H'.
    - right. split; [reflexivity|exact Hinv].
    - left. reflexivity.
    - right. split; [reflexivity|exact Hinv]. }
  apply Hall. intros p t Hin. apply in_choices in Hin; assumption.
Qed.

Lemma feed_agree fuel : forall line w, sound w -> feed E fuel line w <> FUB -> live_feed E fuel line w = feed E fuel line w.
Proof.
  induction fuel as [|fuel IH]; intros line w Hs Hn; [reflexivity|]. cbn [feed live_feed] in *. unfold feed_body, live_feed_body in *.
  destruct (split line) as [[|t toks]|]; try reflexivity. destruct (new_command (w_hist w) line) as [h|]; [|reflexivity].
  assert (Hd : dispatch E (builtin E (feed E fuel)) (t :: toks) line (set_hist h w) <> EUB ->
    live_dispatch E (builtin E (live_feed E fuel)) (t :: toks) line (set_hist h w) = dispatch E (builtin E (feed E fuel)) (t :: toks) line (set_hist h w)).
  { unfold dispatch, live_dispatch. intros Hd.
    destruct (global_agree (feed E fuel) (live_feed E fuel) (t :: toks) (set_hist h w)) as [Hg|(Hg & Hi)];
      [intros; apply sound_feed; assumption|exact IH|discriminate|exact Hs|rewrite Hg in Hd; cbn in Hd; congruence|].
    rewrite Hg. destruct (scan E (builtin E (feed E fuel)) (t :: toks) [global_menu] (set_hist h w)) as [[] w1|x w1| |]; try reflexivity.
    cbn [e_bind] in *. destruct (locate (w_cur w1) [] (w_root w1)) as [ctx|] eqn:Hl; [|congruence].
    pose proof (live_agree (t :: toks) w1 ctx (proj1 Hi) Hl) as Ha.
    destruct (scan E no_builtin (t :: toks) ctx w1) as [[] w2|x w2| |]; cbn [agree] in Ha.
    - destruct Ha as (s' & -> & <- & _). reflexivity.
    - destruct Ha as (s' & -> & <- & _). reflexivity.
    - destruct Ha as (s' & -> & <-). reflexivity.
    - cbn in Hd. congruence.
    - destruct Ha. }
  destruct (dispatch E (builtin E (feed E fuel)) (t :: toks) line (set_hist h w)) as [b w'|x w'| |]; try (rewrite Hd by discriminate; reflexivity).
  congruence.
Qed.
End Agree.

(** ** Changing flags only *)
Fixpoint shape (c : cmd) : cmd :=
  match c with
  | CFn i n _ d p pd h => CFn i n true d p pd h
  | CFree i n _ d pd h => CFree i n true d pd h
  | CMenu i n _ d pr ks => CMenu i n true d pr (map shape ks)
  end.
Lemma shape_id c : cmd_id (shape c) = cmd_id c.
Proof. destruct c; reflexivity. Qed.
Lemma shape_kids c : cmd_kids (shape c) = map shape (cmd_kids c).
Proof. destruct c; reflexivity. Qed.
Lemma shape_enabled id b c : shape (set_enabled id b c) = shape c.
Proof.
  induction c as [i n e d p pd h|i n e d pd h|i n e d p ks IH] using cmd_ind2; cbn; try reflexivity.
  f_equal. rewrite map_map. apply map_ext_in. rewrite Forall_forall in IH. exact IH.
Qed.
Lemma shape_locate id c : forall anc, locate id (map shape anc) (shape c) = option_map (map shape) (locate id anc c).
Proof.
  induction c as [i n e d p pd h|i n e d pd h|i n e d p ks IH] using cmd_ind2; intros anc; cbn [shape]; try reflexivity.
  rewrite !locate_menu. destruct (Nat.eqb i id); [reflexivity|].
  change (CMenu i n true d p (map shape ks) :: map shape anc) with (map shape (CMenu i n e d p ks :: anc)).
  generalize (CMenu i n e d p ks :: anc) as a. intros a. induction ks as [|k ks IHk]; [reflexivity|]. cbn.
  inversion IH as [|? ? Hk Hks]; subst. rewrite Hk. destruct (locate id a k); [reflexivity|]. apply IHk. exact Hks.
Qed.

Section Flags.
Context (E : env) (Hf : bad_casts_keep_vectors E) (Hstrict : strict (e_plat E) = false).

Definition kept (s s' : lworld) : Prop :=
  shape (w_root (l_w s')) = shape (w_root (l_w s)) /\ l_changed s' = l_changed s /\ user_tree (w_root (l_w s')).
Definition keeps (s : lworld) (r : lres) : Prop :=
  match r with LUB => False | LDone false s' => kept s s' | _ => True end.
Lemma kept_trans s s1 s2 : kept s s1 -> kept s1 s2 -> kept s s2.
Proof. intros (A & B & C) (A' & B' & C'). split; [congruence|]. split; [congruence|exact C']. Qed.
Lemma keeps_bind s r f : keeps s r -> (forall s', kept s s' -> keeps s' (f s')) -> keeps s (l_bind r f).
Proof.
  intros H Hb. destruct r as [[] s'|x s'|]; try exact H. cbn [l_bind]. specialize (Hb s' H). cbn in H.
  destruct (f s') as [[] s2|x s2|]; cbn in *; try exact Hb. eapply kept_trans; eassumption.
Qed.
Lemma kept_now s s' mid ctx : kept s s' -> menu_now mid s = Some ctx -> exists ctx', menu_now mid s' = Some ctx' /\ map shape ctx' = map shape ctx.
Proof.
  intros (Hs & _) H. unfold menu_now in *. pose proof (shape_locate mid (w_root (l_w s)) []) as H1.
  pose proof (shape_locate mid (w_root (l_w s')) []) as H2. rewrite Hs, H1, H in H2. cbn in H2.
  destruct (locate mid [] (w_root (l_w s'))) as [ctx'|]; [|discriminate]. injection H2 as H2. exists ctx'. split; [reflexivity|congruence].
Qed.

Lemma ops_kept os : Forall keeps_vectors os -> forall s, user_tree (w_root (l_w s)) -> kept s (l_ops os s).
Proof.
  induction os as [|o os IH]; intros Ho s Hu; [split; [reflexivity|]; split; [reflexivity|exact Hu]|].
  inversion Ho as [|? ? Ho1 Ho2]; subst. change (l_ops (o :: os) s) with (l_ops os (l_op s o)).
  assert (H1 : kept s (l_op s o)).
  { destruct o as [x|x|id|id|id|pid c]; try destruct Ho1; (split; [|split; [cbn; apply app_nil_r|]]); cbn; try reflexivity; try exact Hu;
      try apply shape_enabled; apply user_set_enabled; exact Hu. }
  eapply kept_trans; [exact H1|]. apply IH; [exact Ho2|apply H1].
Qed.
Lemma leaf_keeps c toks s : toks <> [] -> Forall (readable (e_plat E)) toks -> user_tree (w_root (l_w s)) -> user_tree c ->
  keeps s (l_leaf E c toks s).
Proof.
  intros Hne Hr Hu Hc. assert (Hk : kept s s) by (split; [reflexivity|]; split; [reflexivity|exact Hu]).
  destruct c as [id name en d pars pd h|id name en d pd h|id name en d pr ks]; cbn [l_leaf].
  - destruct en; [|exact Hk]. cbn [negb]. destruct (Nat.eqb _ _); [|exact Hk]. destruct toks as [|t args]; [congruence|]. cbn [negb].
    destruct (str_eqb name t); [|exact Hk]. inversion Hr as [|? ? _ Ha]; subst.
    pose proof (convert_all_defined E Hstrict pars args Ha) as Hv.
    destruct (convert_all E pars args) as [vs| |]; [|exact Hk|congruence]. destruct Hc as (u & ->).
    unfold l_call. cbn zeta. match goal with |- context[ur_end ?r] => remember r as res eqn:Hres end.
    destruct (ur_end res) as [|[x|x|]] eqn:He; cbn; try exact Logic.I. subst res.
    apply Hf in He. exact (ops_kept _ He (mkLive (log (EvCall (w_sid (l_w s)) u vs) (l_w s)) (l_changed s)) Hu).
  - destruct en; [|exact Hk]. cbn [negb]. destruct toks as [|t args]; [congruence|].
    destruct (str_eqb name t); [|exact Hk]. destruct Hc as (u & ->).
    unfold l_call. cbn zeta. dend; exact Logic.I.
  - exact Hk.
Qed.

Lemma kid_menu s m anc k : chain (w_root (l_w s)) (m :: anc) -> In k (cmd_kids m) -> is_menu k -> menu_now (cmd_id k) s <> None.
Proof.
  intros Hc Hin Hk. assert (H : In (cmd_id k) (menu_ids (w_root (l_w s)))).
  { apply chain_menu_ids. exists k, (m :: anc). split; [apply chain_sub; assumption|reflexivity]. }
  apply (menu_ids_locate _ []) in H as (ctx & H). unfold menu_now. rewrite H. discriminate.
Qed.

Lemma loop_keeps f mid v :
  (forall c m anc s, user_tree (w_root (l_w s)) -> chain (w_root (l_w s)) (m :: anc) -> In c (cmd_kids m) -> keeps s (f c s)) ->
  forall ks s m anc, user_tree (w_root (l_w s)) -> menu_now mid s = Some (m :: anc) -> incl ks (map cmd_id (cmd_kids m)) ->
  version mid s = v -> keeps s (l_loop f mid v ks s).
Proof.
  intros Hk. induction ks as [|k ks IH]; intros s m anc Hu Hm Hi Hv; cbn [l_loop]; [split; [reflexivity|]; split; [reflexivity|exact Hu]|].
  rewrite Hm. destruct (find _ (cmd_kids m)) as [c|] eqn:Hfind.
  - apply find_some in Hfind as (Hin & _). pose proof (menu_now_chain _ _ _ Hm) as (Hc & _).
    apply keeps_bind; [eapply Hk; eassumption|]. intros s' Hs'. pose proof Hs' as (_ & Hch & Hu').
    destruct (kept_now _ _ _ _ Hs' Hm) as (ctx' & Hm' & Hsh). unfold intact. rewrite Hm', (version_same _ _ _ Hch), Hv, Nat.eqb_refl.
    destruct ctx' as [|m' anc']; [discriminate|]. cbn in Hsh. injection Hsh as Hsh _.
    apply (IH s' m' anc' Hu' Hm'); [|rewrite (version_same _ _ _ Hch); exact Hv].
    apply (f_equal cmd_kids) in Hsh. rewrite !shape_kids in Hsh. apply (f_equal (map cmd_id)) in Hsh. rewrite !map_map in Hsh.
    rewrite !(map_ext (fun x => cmd_id (shape x)) cmd_id shape_id) in Hsh. rewrite Hsh.
    intros x Hx. apply Hi. right. exact Hx.
  - exfalso. assert (Hin : In k (map cmd_id (cmd_kids m))) by (apply Hi; left; reflexivity). apply in_map_iff in Hin as (c & <- & Hin).
    eapply find_none in Hfind; [|exact Hin]. cbn in Hfind. rewrite Nat.eqb_refl in Hfind. discriminate.
Qed.
Lemma lscan_keeps f g mid m anc :
  (forall c m anc s, user_tree (w_root (l_w s)) -> chain (w_root (l_w s)) (m :: anc) -> In c (cmd_kids m) -> keeps s (f c s)) ->
  (forall p s, user_tree (w_root (l_w s)) -> menu_now p s <> None -> keeps s (g p s)) ->
  forall s, user_tree (w_root (l_w s)) -> menu_now mid s = Some (m :: anc) -> keeps s (l_scan f g mid (cmd_kids m) s).
Proof.
  intros Hk Hg s Hu Hm. unfold l_scan. apply keeps_bind; [eapply loop_keeps; eauto using incl_refl|].
  intros s' Hs'. pose proof Hs' as (_ & _ & Hu'). destruct (kept_now _ _ _ _ Hs' Hm) as (ctx' & Hm' & _). rewrite Hm'.
  destruct ctx' as [|m' [|p anc']]; try (split; [reflexivity|]; split; [reflexivity|exact Hu']).
  apply Hg; [exact Hu'|]. apply menu_now_chain in Hm' as (Hc & _). apply chain_tail in Hc.
  assert (H : In (cmd_id p) (menu_ids (w_root (l_w s')))) by (apply chain_menu_ids; eauto).
  apply (menu_ids_locate _ []) in H as (ctx & H). unfold menu_now. rewrite H. discriminate.
Qed.
Lemma kid_user s m anc k : user_tree (w_root (l_w s)) -> chain (w_root (l_w s)) (m :: anc) -> In k (cmd_kids m) -> user_tree k.
Proof. intros Hu Hc Hin. eapply user_kids; [|exact Hin]. eapply chain_user; [exact Hu|exact Hc|left; reflexivity]. Qed.
Lemma handle_keeps toks : toks <> [] -> Forall (readable (e_plat E)) toks -> forall up mid s, user_tree (w_root (l_w s)) ->
  menu_now mid s <> None -> keeps s (l_handle E toks up mid s).
Proof.
  induction toks as [|t rest IH]; intros Hne Hr up mid s Hu Hm; [congruence|]. cbn [l_handle].
  assert (Hk : kept s s) by (split; [reflexivity|]; split; [reflexivity|exact Hu]).
  destruct (menu_now mid s) as [ctx|] eqn:Hnow; [|congruence].
  pose proof (menu_now_chain _ _ _ Hnow) as (Hc & m & anc & -> & _). pose proof (chain_hd _ _ _ Hc) as (i & n & e & d & pr & ks & ->).
  destruct e; [|exact Hk]. cbn [negb]. destruct (str_eqb n t || _); [|exact Hk].
  inversion Hr as [|? ? _ Hr']; subst. destruct rest as [|t2 rest]; [exact Logic.I|].
  apply (lscan_keeps _ _ mid (CMenu i n true d pr ks) anc); [| |exact Hu|exact Hnow].
  - intros c m' anc' s' Hu' Hc' Hin. destruct c as [ci cn ce cd cp cpd ch|ci cn ce cd cpd ch|ci cn ce cd cpr cks];
      try (apply leaf_keeps; [discriminate|exact Hr'|exact Hu'|eapply kid_user; eassumption]).
    apply IH; [discriminate|exact Hr'|exact Hu'|]. apply (kid_menu s' m' anc' (CMenu ci cn ce cd cpr cks)); [assumption..|repeat eexists].
  - intros p s' Hu' Hp. apply IH; [discriminate|exact Hr'|exact Hu'|exact Hp].
Qed.
Lemma live_keeps toks w : toks <> [] -> Forall (readable (e_plat E)) toks -> user_tree (w_root w) -> live w -> keeps (mkLive w []) (live_scan E toks w).
Proof.
  intros Hne Hr Hu Hl. apply live_spec in Hl. apply (menu_ids_locate _ []) in Hl as (ctx & Hl).
  assert (Hm : menu_now (w_cur w) (mkLive w []) = Some ctx) by exact Hl.
  pose proof (menu_now_chain _ _ _ Hm) as (Hc & m & anc & -> & _). unfold live_scan. rewrite Hm.
  destruct (cmd_en m); [|split; [reflexivity|]; split; [reflexivity|exact Hu]]. cbn [negb].
  apply (lscan_keeps _ _ (w_cur w) m anc); [| |exact Hu|exact Hm].
  - intros c m' anc' s' Hu' Hc' Hin. destruct c as [ci cn ce cd cp cpd ch|ci cn ce cd cpd ch|ci cn ce cd cpr cks]; cbn [l_exec];
      try (apply leaf_keeps; [exact Hne|exact Hr|exact Hu'|eapply kid_user; eassumption]).
    apply handle_keeps; [exact Hne|exact Hr|exact Hu'|]. apply (kid_menu s' m' anc' (CMenu ci cn ce cd cpr cks)); [assumption..|repeat eexists].
  - intros p s' Hu' Hp. apply handle_keeps; assumption.
Qed.

Lemma live_scan_defined toks w : toks <> [] -> Forall (readable (e_plat E)) toks -> user_tree (w_root w) -> live w -> live_scan E toks w <> LUB.
Proof. intros Hne Hr Hu Hl H. pose proof (live_keeps toks w Hne Hr Hu Hl) as Hk. rewrite H in Hk. exact Hk. Qed.

Lemma live_feed_defined (Hk : hooks_no_bad_cast E) size line fuel w : size >= 1 -> ~ recall E line -> legible E line ->
  reachable size (w_hist w) -> live w -> user_tree (w_root w) ->
  live_feed E (S fuel) line w <> FUB /\ live_feed E (S fuel) line w <> FFuel.
Proof.
  intros Hsz Hn Hl Hr Hlive Hu. cbn [live_feed]. unfold live_feed_body. destruct (split_safe line) as (toks & Hs & _). rewrite Hs.
  destruct toks as [|t toks]; [split; discriminate|].
  destruct (reachable_inv size _ Hsz Hr) as (I & M).
  destruct (new_command_inv (w_hist w) line I ltac:(lia)) as (h & Hh & _). rewrite Hh.
  assert (Hrd : Forall (readable (e_plat E)) (t :: toks)) by (eapply legible_words; eassumption).
  destruct (global_hooks_safe E size (t :: toks) (live_feed E fuel) (set_hist h w)) as (A & B & C); try assumption; try discriminate.
  { eapply (reachable_step size (w_hist w) (ONew line)); [exact Hr|exact Hh]. }
  { intros a n Ht Hc. apply Hn. exists a, n. split; [|exact Hc]. rewrite Hs, Ht. reflexivity. }
  assert (Hd : live_dispatch E (builtin E (live_feed E fuel)) (t :: toks) line (set_hist h w) <> EUB /\
    live_dispatch E (builtin E (live_feed E fuel)) (t :: toks) line (set_hist h w) <> EFuel).
  { unfold live_dispatch. rewrite scan_attempts by discriminate.
    destruct (attempts _ _ _ _) as [[] w1|x w1| |]; cbn [e_bind]; try congruence; try (split; discriminate).
    rewrite (C w1 eq_refl). pose proof (live_scan_defined (t :: toks) (set_hist h w) ltac:(discriminate) Hrd Hu Hlive) as Hd.
    destruct (live_scan E (t :: toks) (set_hist h w)) as [[] s'|x s'|]; try congruence; try (split; discriminate).
    unfold wrong_command. destruct (e_has E KWrong); [|split; discriminate]. rewrite hook_spec. cbn zeta. dend; split; discriminate. }
  destruct (live_dispatch _ _ _ _ _) as [b w'|x w'| |]; try (destruct Hd; congruence); try (split; discriminate).
  destruct x as [x|x|]; [| |split; discriminate]; unfold std_exception; destruct (e_has E KExcept); try (split; discriminate);
    rewrite hook_spec; cbn zeta; dend; split; discriminate.
Qed.
End Flags.
