(** * Invariants of sessions *)

From Verif Require Import Base SplitModel SplitSpec SplitProofs FromStringModel HistoryModel HistorySpec HistoryProofs StorageModel TerminalModel
  MenuModel SessionModel ResolveSpec ResolveProofs SessionSpec TreeProofs SessionProofs.
Open Scope nat_scope.
Open Scope list_scope.

(** ** The choices of a recall and of other lines *)
Lemma convert_uint E a v : convert E (PInt UInt) a = COk v -> exists n, v = VInt n.
Proof.
  cbn [convert]. destruct (int_from_string (e_plat E) UInt a) as [z| |]; cbn [cmap cbind]; intros H; inversion H; subst; eauto.
Qed.

Lemma convert_all_one E p a vs : convert_all E [p] [a] = COk vs -> exists v, vs = [v] /\ convert E p a = COk v.
Proof.
  cbn. destruct (convert E p a); cbn; try discriminate. intros H. injection H as <-. eauto.
Qed.

Lemma attempts_rec E toks : (forall a n, toks = [lit "!"; a] -> convert E (PInt UInt) a <> COk (VInt n)) -> toks <> [] ->
  forall rec rec' w, attempts E (builtin E rec) (choices toks [global_menu]) w = attempts E (builtin E rec') (choices toks [global_menu]) w.
Proof.
  intros Hn Hne rec rec'. apply attempts_ext. intros (p, t) w Hin. cbn [snd]. apply in_choices in Hin; [|exact Hne].
  apply attempt_rec. intros h pars args ->.
  apply global_readings in Hin as [(_ & _ & H)|[(_ & _ & H)|[(_ & _ & H)|(a & Ht & _ & H)]]]; injection H as -> -> ->;
    try (left; discriminate).
  right. intros vs Hc. apply convert_all_one in Hc as (v & _ & Hc). destruct (convert_uint _ _ _ Hc) as (n & ->).
  eapply Hn; eassumption.
Qed.

Lemma feed_body_rec E line : ~ recall E line -> forall rec rec' w, feed_body E rec line w = feed_body E rec' line w.
Proof.
  intros Hn rec rec' w. destruct (split line) as [[|t toks]|] eqn:Hs.
  1,3: unfold feed_body; rewrite Hs; reflexivity.
  destruct (new_command (w_hist w) line) as [h|] eqn:Hh; [|unfold feed_body; rewrite Hs, Hh; reflexivity].
  assert (Hr : recorded line w (t :: toks) (set_hist h w)).
  { split; [exact Hs|]. split; [discriminate|]. eauto. }
  rewrite !(feed_body_spec E _ _ _ _ _ Hr). unfold dispatch. rewrite !scan_attempts by discriminate.
  erewrite attempts_rec; [reflexivity| |discriminate].
  intros a n Ht Hc. apply Hn. exists a, n. split; [|exact Hc]. rewrite Hs, Ht. reflexivity.
Qed.

(** ** Recall *)
Lemma global_recall E bi a n w : convert E (PInt UInt) a = COk (VInt n) ->
  attempts E bi (choices [lit "!"; a] [global_menu]) w = run_fn E bi HBang [VInt n] w.
Proof.
  intros Hc. assert (Hch : choices [lit "!"; a] [global_menu] = [([3], TRun HBang [PInt UInt] [a])]).
  { reflexivity. }
  rewrite Hch. cbn [attempts snd attempt convert_all]. rewrite Hc. cbn [cbind cmap]. apply e_bind_ret.
Qed.

Lemma recall_recorded E line w a n h1 h2 : split line = Some [lit "!"; a] -> convert E (PInt UInt) a = COk (VInt n) ->
  new_command (w_hist w) line = Some h1 -> forget_latest h1 = Some h2 -> hooks_no_bad_cast E ->
  forall fuel, feed E (S fuel) line w =
    match at_id h2 n with
    | AtOk l => match feed E fuel l (set_hist h2 w) with FExc x w' => report E line x w' | r => r end
    | AtExc => report E line (XStd (lit "Index not found in history")) (set_hist h2 w)
    | AtUB => FUB
    end.
Proof.
  intros Hs Hc Hh1 Hh2 Hk fuel. cbn [feed].
  rewrite (feed_body_spec E _ line w [lit "!"; a] (set_hist h1 w)).
  2:{ split; [exact Hs|]. split; [discriminate|]. eauto. }
  unfold dispatch. rewrite scan_attempts by discriminate. rewrite (global_recall E _ a n _ Hc).
  cbn [run_fn builtin set_hist w_hist]. rewrite Hh2.
  change (set_hist h2 (set_hist h1 w)) with (set_hist h2 w).
  destruct (at_id h2 n) as [l| |]; try reflexivity.
  destruct (feed E fuel l (set_hist h2 w)) as [w2|x w2| |] eqn:Hf; try reflexivity.
  destruct x as [s|s|]; try reflexivity.
  exfalso. apply feed_exc in Hf as (_ & sid & args & tr & Hx). eapply Hk. exact Hx.
Qed.

(** ** A general invariant theorem *)
Definition code_ops (E : env) (ok : op -> Prop) : Prop :=
  (forall sid h args tr, Forall ok (ur_ops (e_handler E sid h args tr))) /\
  (forall sid k args tr, Forall ok (ur_ops (e_hook E sid k args tr))).

Definition h_inv (P : world -> Prop) (r : hres) : Prop := match r with HOk w | HExc _ w => P w | _ => True end.
Definition e_inv (P Q : world -> Prop) (r : eres) : Prop :=
  match r with EDone true w => P w | EDone false w => Q w | EExc _ w => P w | _ => True end.

Section Inv.
Context (E : env) (P : world -> Prop) (ok : op -> Prop).
Context (Hcode : code_ops E ok)
  (Hlog : forall e w, P w -> P (log e w))
  (Hop : forall w o, ok o -> P w -> P (apply_op w o))
  (Hcur : forall w ctx toks p id, P w -> in_menu w ctx -> reading ctx toks p (TGoto id) -> P (set_cur id w))
  (Hstore : forall cmds w, P w -> get_commands (w_hist w) = Some cmds -> P (set_store (st_store (w_store w) cmds) w))
  (Hexit : forall w, P w -> In (EvHook (w_sid w) KSesExit []) (w_trace w) -> P (set_exit true w))
  (Hnew : forall line h w, P w -> ~ recall E line -> new_command (w_hist w) line = Some h -> P (set_hist h w))
  (Hbang : forall line h1 h2 w, P w -> new_command (w_hist w) line = Some h1 -> forget_latest h1 = Some h2 -> P (set_hist h2 w)).

Lemma ops_inv os w : Forall ok os -> P w -> P (apply_ops os w).
Proof.
  intros Hok H. apply (apply_ops_ind P); [exact H|]. intros w' o Hin Hw. apply Hop; [|exact Hw].
  rewrite Forall_forall in Hok. auto.
Qed.
Lemma hook_inv k args w : P w -> h_inv P (run_hook E k args w).
Proof.
  intros H. rewrite hook_spec. cbn zeta.
  match goal with |- context[apply_ops (ur_ops ?r) ?w1] => assert (Hw : P (apply_ops (ur_ops r) w1))
    by (apply ops_inv; [apply (proj2 Hcode)|apply Hlog; exact H]) end.
  dend; exact Hw.
Qed.
Lemma ops_keep os w e : In e (w_trace w) -> In e (w_trace (apply_ops os w)) /\ w_sid (apply_ops os w) = w_sid w.
Proof.
  intros H. apply (apply_ops_ind (fun w' => In e (w_trace w') /\ w_sid w' = w_sid w)); [auto|]. intros w' o _ (H1 & H2).
  destruct o as [s|s|id|id|id|pid c]; cbn; try (split; [apply in_or_app; auto|exact H2]); try (split; assumption).
  destruct (relabel (w_next w') c). cbn. split; [apply in_or_app; auto|exact H2].
Qed.
Lemma hook_keep k args w e : In e (w_trace w) ->
  h_inv (fun w' => In e (w_trace w') /\ w_sid w' = w_sid w) (run_hook E k args w).
Proof.
  intros H. rewrite hook_spec. cbn zeta.
  match goal with |- context[apply_ops ?os ?w1] => assert (Hw : In e (w_trace (apply_ops os w1)) /\ w_sid (apply_ops os w1) = w_sid w)
    by (apply (ops_keep os w1); apply in_or_app; auto) end. dend; exact Hw.
Qed.
Lemma hook_logged k args w :
  h_inv (fun w' => In (EvHook (w_sid w') k args) (w_trace w')) (run_hook E k args w).
Proof.
  rewrite hook_spec. cbn zeta.
  match goal with |- context[apply_ops ?os ?w1] => assert (Hw : In (EvHook (w_sid (apply_ops os w1)) k args) (w_trace (apply_ops os w1))) end.
  { match goal with |- context[apply_ops ?os ?w1] => destruct (ops_keep os w1 (EvHook (w_sid w) k args)) as (H1 & H2) end;
      [apply in_or_app; right; left; reflexivity|]. rewrite H2. exact H1. }
  dend; exact Hw.
Qed.
Lemma exit_inv w : P w -> h_inv P (session_exit E w).
Proof.
  intros H. unfold session_exit.
  assert (H1 : h_inv P (if e_has E KSesExit then run_hook E KSesExit [] w else HExc bad_function_call w)).
  { destruct (e_has E KSesExit); [apply hook_inv; exact H|exact H]. }
  assert (H1e : match (if e_has E KSesExit then run_hook E KSesExit [] w else HExc bad_function_call w) with
    HOk w1 => In (EvHook (w_sid w1) KSesExit []) (w_trace w1) | _ => True end).
  { destruct (e_has E KSesExit); [|exact Logic.I]. pose proof (hook_logged KSesExit [] w) as Hl. destruct (run_hook E KSesExit [] w); auto. }
  destruct (if e_has E KSesExit then _ else _) as [w1|x w1| |]; cbn [h_bind]; try exact H1.
  assert (H2e : h_inv (fun w2 => In (EvHook (w_sid w2) KSesExit []) (w_trace w2)) (if e_has E KCliExit then run_hook E KCliExit [] w1 else HOk w1)).
  { destruct (e_has E KCliExit); [|exact H1e]. pose proof (hook_keep KCliExit [] w1 _ H1e) as Hl.
    destruct (run_hook E KCliExit [] w1); try exact Logic.I; destruct Hl as (Hl & Hs); cbn; rewrite Hs; exact Hl. }
  assert (H2 : h_inv P (if e_has E KCliExit then run_hook E KCliExit [] w1 else HOk w1)).
  { destruct (e_has E KCliExit); [apply hook_inv; exact H1|exact H1]. }
  destruct (if e_has E KCliExit then _ else _) as [w2|x w2| |]; cbn [h_bind]; try exact H2.
  destruct (get_commands (w_hist w2)) as [cmds|] eqn:Hg; [|exact Logic.I]. cbn. apply Hexit; [apply Hstore; assumption|exact H2e].
Qed.
Lemma enter_inv w : P w -> h_inv P (session_enter E w).
Proof.
  intros H. unfold session_enter.
  assert (H1 : h_inv P (if e_has E KCliEnter then run_hook E KCliEnter [] w else HOk w)).
  { destruct (e_has E KCliEnter); [apply hook_inv; exact H|exact H]. }
  destruct (if e_has E KCliEnter then _ else _) as [w1|x w1| |]; cbn [h_bind]; try exact H1.
  destruct (e_has E KSesEnter); [apply hook_inv; exact H1|exact H1].
Qed.

Lemma call_user_inv u vs w : P w -> P (snd (call_user E u vs w)).
Proof. intros H. cbn [call_user snd]. apply ops_inv; [apply (proj1 Hcode)|apply Hlog; exact H]. Qed.

Lemma no_tree_ops os w : existsb is_tree_op os = false ->
  w_root (apply_ops os w) = w_root w /\ w_cur (apply_ops os w) = w_cur w.
Proof.
  revert w. induction os as [|o os IH]; intros w H; [split; reflexivity|]. cbn in H. apply orb_false_iff in H as (Ho & H).
  destruct (IH (apply_op w o) H) as (H1 & H2). change (apply_ops (o :: os) w) with (apply_ops os (apply_op w o)).
  rewrite H1, H2. destruct o; try discriminate; split; reflexivity.
Qed.

(** Trying readings of user menus. *)
Lemma user_attempt_inv ctx toks p t w : reading ctx toks p t -> P w -> in_menu w ctx ->
  e_inv P (fun w' => P w' /\ in_menu w' ctx) (attempt E no_builtin t w).
Proof.
  intros Hr H Hm. destruct t as [h pars args|h args|id]; cbn [attempt].
  - destruct (convert_all E pars args) as [vs| |]; [|split; assumption|exact Logic.I].
    destruct h as [u| | | |]; cbn [run_fn no_builtin]; try exact Logic.I.
    pose proof (call_user_inv u vs w H) as Hc. destruct (call_user E u vs w) as (r, w') eqn:Hcu. cbn [snd] in Hc.
    destruct (ur_end r) as [|[s|s|]]; cbn; auto.
    destruct (existsb is_tree_op (ur_ops r)) eqn:Hx; [exact Logic.I|]. cbn. split; [exact Hc|].
    unfold call_user in Hcu. injection Hcu as <- <-.
    apply no_tree_ops with (w := log (EvCall (w_sid w) u vs) w) in Hx as (Hroot & Hcu).
    unfold in_menu. rewrite Hroot, Hcu. exact Hm.
  - destruct h as [u| | | |]; cbn [run_free]; try exact Logic.I.
    pose proof (call_user_inv u [VList args] w H) as Hc. destruct (call_user E u [VList args] w) as (r, w').
    cbn [snd] in Hc. destruct (ur_end r); exact Hc.
  - cbn. eapply Hcur; eassumption.
Qed.
Lemma user_attempts_inv ctx toks l : (forall p t, In (p, t) l -> reading ctx toks p t) ->
  forall w, P w -> in_menu w ctx -> e_inv P P (attempts E no_builtin l w).
Proof.
  induction l as [|(p, t) l IH]; intros Hl w H Hm; cbn [attempts snd]; [exact H|].
  pose proof (user_attempt_inv ctx toks p t w (Hl p t (or_introl eq_refl)) H Hm) as Ha.
  destruct (attempt E no_builtin t w) as [[] w1|x w1| |]; cbn [e_bind]; try exact Ha.
  destruct Ha as (Ha & Hm1). apply IH; auto. intros p' t' Hin. apply Hl. right. exact Hin.
Qed.

Lemma report_inv line x w : P w -> f_inv P (report E line x w).
Proof.
  intros H. assert (Hs : forall what, hres_fres (std_exception E line what w) = report E line (XStd what) w) by (intros; apply std_exception_report).
  destruct x as [s|s|]; [| |cbn; apply Hlog; exact H].
  1,2: cbn [report]; destruct (e_has E KExcept); [|cbn; apply Hlog; exact H]; cbn zeta;
    match goal with |- context[apply_ops (ur_ops ?r) ?w1] => assert (Hw : P (apply_ops (ur_ops r) w1))
      by (apply ops_inv; [apply (proj2 Hcode)|apply Hlog; exact H]) end; dend; exact Hw.
Qed.

(** The part of [Feed] after the global commands. *)
Lemma menus_inv toks line w1 : toks <> [] -> P w1 ->
  f_inv P (finish E line
    match locate (w_cur w1) [] (w_root w1) with
    | None => EUB
    | Some ctx =>
        e_bind (scan E no_builtin toks ctx w1) (fun w2 =>
        match wrong_command E line w2 with
        | HOk w3 => EDone false w3
        | HExc x w3 => EExc x w3
        | HUB => EUB
        | HFuel => EFuel
        end)
    end).
Proof.
  intros Hne H. destruct (locate (w_cur w1) [] (w_root w1)) as [ctx|] eqn:Hl; [|exact Logic.I].
  apply locate_in_menu in Hl. rewrite scan_attempts by exact Hne.
  assert (Ha : e_inv P P (attempts E no_builtin (choices toks ctx) w1)).
  { apply (user_attempts_inv ctx toks); [|exact H|exact Hl]. intros p t Hin. apply in_choices in Hin; assumption. }
  destruct (attempts E no_builtin (choices toks ctx) w1) as [[] w2|x w2| |]; cbn [e_bind finish]; try exact Ha.
  - assert (Hw : h_inv P (wrong_command E line w2)).
    { unfold wrong_command. destruct (e_has E KWrong); [apply hook_inv; exact Ha|apply Hlog; exact Ha]. }
    destruct (wrong_command E line w2); cbn [finish]; try exact Hw. apply report_inv. exact Hw.
  - apply report_inv. exact Ha.
Qed.

(** The global functions other than recall. *)
Lemma global_attempts_inv toks w : toks <> [] ->
  (forall a n, toks = [lit "!"; a] -> convert E (PInt UInt) a <> COk (VInt n)) -> P w ->
  forall rec, e_inv P P (attempts E (builtin E rec) (choices toks [global_menu]) w).
Proof.
  intros Hne Hn H rec.
  assert (Hl : forall l, (forall p t, In (p, t) l -> reading [global_menu] toks p t) -> forall w, P w ->
    e_inv P P (attempts E (builtin E rec) l w)).
  { induction l as [|(p, t) l IH]; intros Hin w1 H1; cbn [attempts snd]; [exact H1|].
    assert (Ha : e_inv P P (attempt E (builtin E rec) t w1)).
    { specialize (Hin p t (or_introl eq_refl)).
      apply global_readings in Hin as [(_ & _ & ->)|[(_ & _ & ->)|[(_ & _ & ->)|(a & Ht & _ & ->)]]]; cbn [attempt convert_all].
      - cbn. destruct (help_text w1); [|exact Logic.I]. cbn. apply Hlog. exact H1.
      - cbn. pose proof (exit_inv w1 H1) as He. destruct (session_exit E w1) as [w2|[s|s|] w2| |]; exact He.
      - cbn. destruct (show (w_hist w1)); cbn; [apply Hlog|]; exact H1.
      - destruct (convert E (PInt UInt) a) as [v| |] eqn:Hv; cbn [cbind cmap]; [|exact H1|exact Logic.I].
        destruct (convert_uint _ _ _ Hv) as (n & ->). exfalso. eapply Hn; eassumption. }
    destruct (attempt E (builtin E rec) t w1) as [[] w2|x w2| |]; cbn [e_bind]; try exact Ha.
    apply IH; [|exact Ha]. intros p' t' Hin'. apply Hin. right. exact Hin'. }
  apply Hl; [|exact H]. intros p t Hin. apply in_choices in Hin; assumption.
Qed.

Lemma recall_dec line : recall E line \/ ~ recall E line.
Proof.
  unfold recall. destruct (split line) as [toks|]; [|right; intros (a & n & H & _); discriminate].
  destruct toks as [|t [|a [|b toks]]]; try (right; intros (a' & n & H & _); discriminate).
  destruct (str_eqb_spec t (lit "!")) as [->|Hn]; [|right; intros (a' & n & H & _); congruence].
  destruct (convert E (PInt UInt) a) as [v| |] eqn:Hc.
  - destruct (convert_uint _ _ _ Hc) as (n & ->). left. eauto.
  - right. intros (a' & n & H & Hc'). injection H as <-. congruence.
  - right. intros (a' & n & H & Hc'). injection H as <-. congruence.
Qed.

Lemma feed_inv fuel : forall line w, P w -> f_inv P (feed E fuel line w).
Proof.
  induction fuel as [|fuel IH]; intros line w H; [exact Logic.I|]. cbn [feed].
  destruct (split line) as [[|t toks]|] eqn:Hs.
  1,3: unfold feed_body; rewrite Hs; exact H || exact Logic.I.
  destruct (new_command (w_hist w) line) as [h|] eqn:Hh; [|unfold feed_body; rewrite Hs, Hh; exact Logic.I].
  rewrite (feed_body_spec E _ line w (t :: toks) (set_hist h w)) by (split; [exact Hs|split; [discriminate|eauto]]).
  unfold dispatch. rewrite scan_attempts by discriminate.
  destruct (recall_dec line) as [(a & n & Hs' & Hc)|Hnr].
  - rewrite Hs' in Hs. injection Hs as <- <-.
    rewrite (global_recall E _ a n _ Hc). cbn [run_fn builtin set_hist w_hist].
    destruct (forget_latest h) as [h2|] eqn:Hf; [|exact Logic.I].
    change (set_hist h2 (set_hist h w)) with (set_hist h2 w).
    assert (H2 : P (set_hist h2 w)) by (eapply Hbang; eassumption).
    destruct (at_id h2 n) as [l| |]; [|apply report_inv; exact H2|exact Logic.I].
    specialize (IH l (set_hist h2 w) H2).
    destruct (feed E fuel l (set_hist h2 w)) as [w3|[s|s|] w3| |]; cbn [e_bind]; try exact IH.
    + apply menus_inv; [discriminate|exact IH].
    + apply report_inv. exact IH.
    + apply report_inv. exact IH.
  - assert (H1 : P (set_hist h w)) by (eapply Hnew; eassumption).
    pose proof (global_attempts_inv (t :: toks) (set_hist h w) ltac:(discriminate)) as Hg.
    specialize (Hg (fun a n Ht Hc => Hnr (ex_intro _ a (ex_intro _ n (conj (eq_trans Hs (f_equal Some Ht)) Hc)))) H1 (feed E fuel)).
    destruct (attempts _ _ _ _) as [[] w1|x w1| |]; cbn [e_bind finish]; try exact Hg.
    + apply menus_inv; [discriminate|exact Hg].
    + apply report_inv. exact Hg.
Qed.

Lemma feeds_inv fuel lines : forall w, P w -> f_inv P (feeds E fuel lines w).
Proof.
  induction lines as [|l ls IH]; intros w H; [exact H|]. cbn [feeds].
  pose proof (feed_inv fuel l w H) as Hf. destruct (feed E fuel l w); try exact Hf. apply IH. exact Hf.
Qed.
End Inv.

(** ** Instances *)
Lemma code_ops_all E : code_ops E (fun _ => True).
Proof. split; intros; apply Forall_forall; auto. Qed.

(** Ids stay unique and fresh. *)
Lemma sound_op w o : sound w -> sound (apply_op w o).
Proof.
  intros (Hu & Hf). destruct o as [s|s|id|id|id|pid c]; try (split; assumption).
  - split; cbn; [unfold unique_ids|]; rewrite set_enabled_ids; assumption.
  - split; cbn; [unfold unique_ids|]; rewrite set_enabled_ids; assumption.
  - split; cbn; [apply remove_nodup; exact Hu|]. apply Forall_forall. intros x Hx. apply remove_ids_in in Hx.
    rewrite Forall_forall in Hf. auto.
  - cbn. pose proof (relabel_ids c (w_next w)) as Hr. destruct (relabel (w_next w) c) as (c', n').
    destruct Hr as (Hlt & Hids). unfold sound; cbn.
    destruct (in_dec Nat.eq_dec pid (menu_ids (w_root w))) as [Hin|Hnin].
    + pose proof (insert_ids pid c' _ Hu Hin) as Hp. split.
      * unfold unique_ids. eapply Permutation_NoDup; [symmetry; exact Hp|].
        apply NoDup_app_iff. split; [exact Hu|]. split; [rewrite Hids; apply seq_NoDup|].
        intros x Hx Hx'. rewrite Hids in Hx'. apply in_seq in Hx'. rewrite Forall_forall in Hf. specialize (Hf x Hx). lia.
      * eapply Permutation_Forall; [symmetry; exact Hp|]. apply Forall_app. split.
        -- eapply Forall_impl; [|exact Hf]. cbn. intros x Hx. lia.
        -- rewrite Hids. apply Forall_forall. intros x Hx. apply in_seq in Hx. lia.
    + rewrite insert_absent by exact Hnin. split; [exact Hu|]. eapply Forall_impl; [|exact Hf]. cbn. intros x Hx. lia.
Qed.
Lemma sound_feed E fuel line w : sound w -> f_inv sound (feed E fuel line w).
Proof.
  apply (feed_inv E sound (fun _ => True)); auto; try (intros; assumption).
  - apply code_ops_all.
  - intros. apply sound_op. assumption.
Qed.

(** The menus stay in the tree if only other commands are removed. *)
Lemma chain_tail root k p anc : chain root (k :: p :: anc) -> chain root (p :: anc).
Proof. intros H. inversion H. assumption. Qed.
Lemma reading_goto root ctx toks p id : reading ctx toks p (TGoto id) -> chain root ctx ->
  exists ctx' m anc, chain root ctx' /\ ctx' = m :: anc /\ cmd_id m = id.
Proof.
  intros H. remember (TGoto id) as t eqn:Ht. revert Ht.
  induction H as [| |m anc i id' name desc pr kids He Hn|m anc i sub id' name en desc pr kids rest path t He Hn Hs Hr IH|
       m q anc id' name desc pr kids word He Hp Hw|m q anc id' name en desc pr kids word rest path t He Hp Hw Hr IH];
    intros Ht Hc; try discriminate.
  - injection Ht as ->. exists (CMenu id name true desc pr kids :: m :: anc), (CMenu id name true desc pr kids), (m :: anc).
    split; [|split; reflexivity]. apply chain_sub; [exact Hc|eapply nth_error_In; exact Hn|repeat eexists].
  - apply IH; [exact Ht|]. apply chain_sub; [exact Hc|eapply nth_error_In; exact Hn|subst; repeat eexists].
  - injection Ht as ->. exists (q :: anc), q, anc. split; [eapply chain_tail; exact Hc|]. subst q. split; reflexivity.
  - apply IH; [exact Ht|]. eapply chain_tail. exact Hc.
Qed.

Definition guarded (R : nat -> Prop) (w : world) : Prop :=
  (forall id, R id -> id < w_next w /\ ~ In id (menu_ids (w_root w))) /\ live w.

Lemma relabel_menu_ids c n : forall x, In x (menu_ids (fst (relabel n c))) -> n <= x.
Proof.
  intros x H. apply menu_ids_ids in H. pose proof (relabel_ids c n) as Hr. destruct (relabel n c) as (c', n').
  destruct Hr as (_ & Hids). cbn in H. rewrite Hids in H. apply in_seq in H. lia.
Qed.

Lemma guarded_op (R : nat -> Prop) w o : (forall id, o = ORemove id -> R id) -> guarded R w -> guarded R (apply_op w o).
Proof.
  intros Ho (HR & Hl). rewrite live_spec in Hl. destruct o as [s|s|id|id|id|pid c].
  1,2: split; [exact HR|apply live_spec; exact Hl].
  1,2: split; [cbn; rewrite set_enabled_menus; exact HR|apply live_spec; cbn; rewrite set_enabled_menus; exact Hl].
  - assert (Hm : menu_ids (remove_cmd id (w_root w)) = menu_ids (w_root w)).
    { apply remove_menus. apply HR. apply Ho. reflexivity. }
    split; [cbn; rewrite Hm; exact HR|apply live_spec; cbn; rewrite Hm; exact Hl].
  - cbn. pose proof (relabel_ids c (w_next w)) as Hlt. pose proof (relabel_menu_ids c (w_next w)) as Hge.
    destruct (relabel (w_next w) c) as (c', n'). destruct Hlt as (Hlt & _). cbn [fst] in Hge. split; cbn.
    + intros id Hid. specialize (HR id Hid) as (H1 & H2). split; [lia|]. intros H.
      apply insert_menus_in in H as [H|H]; [tauto|]. apply Hge in H. lia.
    + apply live_spec. cbn. apply insert_menus_mono. exact Hl.
Qed.

Lemma guarded_feeds E (R : nat -> Prop) fuel lines w : code_removes_only E R -> guarded R w ->
  f_inv (guarded R) (feeds E fuel lines w).
Proof.
  intros (Hh & Hk). apply (feeds_inv E (guarded R) (fun o => forall id, o = ORemove id -> R id)); auto; try (intros; assumption).
  - split; intros; apply Forall_forall; intros o Hin id ->; [eapply Hh|eapply Hk]; exact Hin.
  - intros w0 o. apply guarded_op.
  - intros w0 ctx toks p id (HR & _) (Hc & _) Hr. split; [exact HR|].
    destruct (reading_goto _ _ _ _ _ Hr Hc) as (ctx' & m & anc & Hc' & -> & Hid).
    exists (m :: anc). split; [exact Hc'|]. eauto.
Qed.

(** The history of a session is one of the reachable histories of HistorySpec.v. *)
Lemma hrun_app os os' : forall h h1, hrun h os = Some h1 -> hrun h (os ++ os') = hrun h1 os'.
Proof.
  induction os as [|o os IH]; intros h h1 H; cbn in *; [congruence|].
  destruct (hstep h o); [|discriminate]. apply IH. exact H.
Qed.
Lemma reachable_step size h o h' : reachable size h -> hstep h o = Some h' -> reachable size h'.
Proof.
  intros (os & H) Hs. exists (os ++ [o]). rewrite (hrun_app _ _ _ _ H). cbn. rewrite Hs. reflexivity.
Qed.
Lemma reachable_feed E size fuel line w : reachable size (w_hist w) ->
  f_inv (fun w' => reachable size (w_hist w')) (feed E fuel line w).
Proof.
  apply (feed_inv E (fun w' => reachable size (w_hist w')) (fun _ => True)); auto; try (intros; assumption).
  - apply code_ops_all.
  - intros w0 o _ H. destruct (apply_op_same w0 o) as (_ & _ & _ & -> & _). exact H.
  - intros l h w0 H _ Hn. cbn. eapply (reachable_step size (w_hist w0) (ONew l)); [exact H|exact Hn].
  - intros l h1 h2 w0 H Hn Hf. cbn. eapply (reachable_step size (w_hist w0) (OBang l)); [exact H|].
    cbn. rewrite Hn. exact Hf.
Qed.

(** ** Termination (C34) *)
Lemma set_nth_in i x b b' s : set_nth i x b = Some b' -> In s b' -> s = x \/ In s b.
Proof.
  revert i b'. induction b as [|y b IH]; intros i b' H Hin; [destruct i; discriminate|].
  destruct i as [|i]; cbn in H.
  - injection H as <-. destruct Hin as [<-|Hin]; [left; reflexivity|right; right; exact Hin].
  - destruct (set_nth i x b) as [b1|] eqn:Hb; [|discriminate]. injection H as <-.
    destruct Hin as [<-|Hin]; [right; left; reflexivity|].
    destruct (IH i b1 Hb Hin) as [->|Hi]; [left; reflexivity|right; right; exact Hi].
Qed.
Lemma removelast_in {A} (l : list A) x : In x (removelast l) -> In x l.
Proof.
  induction l as [|y l IH]; [auto|]. cbn. destruct l; [intros []|]. intros [->|H]; [left; reflexivity|right; auto].
Qed.
Lemma insert_in h x s : In s (h_buf (insert h x)) -> s = x \/ In s (h_buf h).
Proof.
  unfold insert. destruct (Nat.ltb _ _).
  - cbn [h_buf]. intros H. apply removelast_in in H as [<-|H]; auto.
  - cbn. intros [<-|H]; auto.
Qed.
Lemma new_command_in h item h' s : new_command h item = Some h' -> In s (h_buf h') -> s = item \/ In s (h_buf h).
Proof.
  unfold new_command. cbn [h_browse h_buf h_cur].
  destruct (h_browse h).
  - destruct (h_buf h) as [|y [|z b]] eqn:Hb.
    + discriminate.
    + cbn. intros H. injection H as <-. cbn. intros [<-|[]]. auto.
    + destruct (str_eqb z item).
      * cbn. intros H. injection H as <-. cbn. intros H. right. right. exact H.
      * cbn. intros H. injection H as <-. cbn. intros [<-|H]; [auto|right; right; exact H].
  - destruct (h_buf h) as [|y b] eqn:Hb.
    + intros H. injection H as <-. cbn [h_buf]. intros H. apply insert_in in H. exact H.
    + destruct (str_eqb y item).
      * intros H. injection H as <-. cbn. auto.
      * intros H. injection H as <-. cbn [h_buf]. intros H. apply insert_in in H. exact H.
Qed.
(** What recording and forgetting a line leaves was there before. *)
Lemma new_command_hd h item h' : new_command h item = Some h' -> h_buf h' = [] \/ exists b, h_buf h' = item :: b.
Proof.
  unfold new_command. cbn [h_browse h_buf h_cur].
  destruct (h_browse h).
  - destruct (h_buf h) as [|y [|z b]] eqn:Hb.
    + discriminate.
    + cbn. intros H. injection H as <-. right. cbn. eauto.
    + destruct (str_eqb_spec z item) as [->|]; cbn; intros H; injection H as <-; right; cbn; eauto.
  - destruct (h_buf h) as [|y b] eqn:Hb.
    + intros H. injection H as <-. unfold insert. cbn. destruct (h_max h); cbn; [left; reflexivity|right; eauto].
    + destruct (str_eqb_spec y item) as [->|].
      * intros H. injection H as <-. right. cbn. eauto.
      * intros H. injection H as <-. unfold insert. cbn [h_max h_buf].
        destruct (Nat.ltb _ _); cbn; right; eauto.
Qed.
(** Recording a line and forgetting it leaves only entries that were there. *)
Lemma bang_in h item h1 h2 s : new_command h item = Some h1 -> forget_latest h1 = Some h2 -> In s (h_buf h2) -> In s (h_buf h).
Proof.
  unfold new_command. cbn [h_browse h_buf h_cur]. unfold forget_latest.
  destruct (h_browse h).
  - destruct (h_buf h) as [|y [|z b]] eqn:Hb.
    + discriminate.
    + cbn. intros H. injection H as <-. cbn. intros H. injection H as <-. intros [].
    + destruct (str_eqb z item); cbn; intros H; injection H as <-; cbn; intros H; injection H as <-; cbn; tauto.
  - destruct (h_buf h) as [|y b] eqn:Hb.
    + intros H. injection H as <-. unfold insert. cbn. destruct (h_max h); cbn; [discriminate|].
      intros H. injection H as <-. intros [].
    + destruct (str_eqb y item).
      * cbn. intros H. injection H as <-. cbn. intros H. injection H as <-. cbn. tauto.
      * intros H. injection H as <-. unfold insert. cbn [h_max h_buf].
        destruct (Nat.ltb _ _); cbn [with_buf h_buf removelast]; intros H; injection H as <-; cbn [with_buf h_buf]; [|tauto].
        intros H. apply (removelast_in (y :: b)). exact H.
Qed.

Lemma no_recalls_feed E fuel line w : no_recalls E w -> f_inv (no_recalls E) (feed E fuel line w).
Proof.
  apply (feed_inv E (no_recalls E) (fun _ => True)); auto; try (intros; assumption).
  - apply code_ops_all.
  - intros w0 o _ H. unfold no_recalls. destruct (apply_op_same w0 o) as (_ & _ & _ & -> & _). exact H.
  - intros l h w0 H Hn Hh s Hin. cbn in Hin. destruct (new_command_in _ _ _ _ Hh Hin) as [->|Hi]; [exact Hn|]. apply H. exact Hi.
  - intros l h1 h2 w0 H Hh Hf s Hin. cbn in Hin. apply H. eapply bang_in; eassumption.
Qed.

(** Running out of fuel. *)
Lemma session_exit_fuel E w : session_exit E w <> HFuel.
Proof.
  unfold session_exit. destruct (e_has E KSesExit); [|discriminate]. rewrite hook_spec. cbn zeta. dend; [|discriminate].
  cbn [h_bind]. destruct (e_has E KCliExit).
  - rewrite hook_spec. cbn zeta. dend; [|discriminate]. cbn [h_bind]. destruct (get_commands _); discriminate.
  - cbn [h_bind]. destruct (get_commands _); discriminate.
Qed.
Lemma report_fuel E line x w : report E line x w <> FFuel.
Proof. destruct x; cbn [report]; try discriminate; (destruct (e_has E KExcept); [|discriminate]; cbn zeta; dend; discriminate). Qed.
Lemma run_fn_fuel E bi h vs w : (forall h vs, bi h vs w <> HFuel) -> run_fn E bi h vs w <> EFuel.
Proof.
  intros Hb. unfold run_fn. specialize (Hb h vs).
  assert (H : match bi h vs w with HOk w' => EDone true w' | HExc (XBadCast _) w' => EDone false w' | HExc x w' => EExc x w'
              | HUB => EUB | HFuel => EFuel end <> EFuel) by (destruct (bi h vs w) as [w'|[s|s|] w'| |]; congruence).
  destruct h as [u| | | |]; try exact H.
  unfold call_user. dend; [discriminate|]. destruct x; try discriminate. destruct (existsb _ _); discriminate.
Qed.
Lemma attempts_fuel E bi l : (forall h vs w, bi h vs w <> HFuel) -> forall w, attempts E bi l w <> EFuel.
Proof.
  intros Hb. induction l as [|(p, t) l IH]; intros w; cbn [attempts snd]; [discriminate|].
  assert (Ha : attempt E bi t w <> EFuel).
  { destruct t as [h pars args|h args|id]; cbn [attempt]; [| |discriminate].
    - destruct (convert_all E pars args); try discriminate. apply run_fn_fuel. auto.
    - unfold run_free. destruct h; try discriminate. unfold call_user. dend; discriminate. }
  destruct (attempt E bi t w) as [[] w1|x w1| |]; cbn [e_bind]; congruence.
Qed.
Lemma feed_body_fuel E rec line w : (forall h vs w, builtin E rec h vs w <> HFuel) -> feed_body E rec line w <> FFuel.
Proof.
  intros Hb. destruct (split line) as [[|t toks]|] eqn:Hs.
  1,3: unfold feed_body; rewrite Hs; discriminate.
  destruct (new_command (w_hist w) line) as [h|] eqn:Hh; [|unfold feed_body; rewrite Hs, Hh; discriminate].
  rewrite (feed_body_spec E _ line w (t :: toks) (set_hist h w)) by (split; [exact Hs|split; [discriminate|eauto]]).
  unfold dispatch. rewrite scan_attempts by discriminate.
  pose proof (attempts_fuel E (builtin E rec) (choices (t :: toks) [global_menu]) Hb (set_hist h w)) as Ha.
  destruct (attempts _ _ _ _) as [[] w1|x w1| |]; cbn [e_bind finish]; try discriminate; [|apply report_fuel|congruence].
  destruct (locate _ _ _) as [ctx|]; [|discriminate]. rewrite scan_attempts by discriminate.
  pose proof (attempts_fuel E no_builtin (choices (t :: toks) ctx) ltac:(intros; discriminate) w1) as Hc.
  destruct (attempts _ _ _ _) as [[] w2|x w2| |]; cbn [e_bind finish]; try discriminate; [|apply report_fuel|congruence].
  unfold wrong_command. destruct (e_has E KWrong); [|discriminate]. rewrite hook_spec. cbn zeta. dend; [discriminate|]. apply report_fuel.
Qed.
Lemma builtin_fuel E rec : (forall line w, rec line w <> FFuel) -> forall h vs w, builtin E rec h vs w <> HFuel.
Proof.
  intros Hr h vs w. destruct h; cbn [builtin].
  - destruct vs as [|[] [|]]; discriminate.
  - destruct (help_text w); discriminate.
  - apply session_exit_fuel.
  - destruct (show _); discriminate.
  - destruct vs as [|[n| | | | | |] [|]]; try discriminate. destruct (forget_latest _) as [h'|]; [|discriminate].
    destruct (at_id h' n) as [l| |]; try discriminate.
    specialize (Hr l (set_hist h' w)). destruct (rec l (set_hist h' w)); congruence.
Qed.

Lemma feed_once E line w : ~ recall E line -> forall fuel, feed E (S fuel) line w = feed E 1 line w /\ feed E 1 line w <> FFuel.
Proof.
  intros Hn fuel. cbn [feed]. split; [apply feed_body_rec; exact Hn|].
  rewrite (feed_body_rec E line Hn _ (fun _ _ => FUB)). apply feed_body_fuel, builtin_fuel. intros. discriminate.
Qed.

Lemma at_id_in h n l : at_id h n = AtOk l -> In l (h_buf h).
Proof.
  unfold at_id. destruct (id_to_index h n) as [i|]; [|discriminate]. destruct (Z.ltb i (h_size h)); [|discriminate].
  destruct (nth_error (h_buf h) (Z.to_nat i)) as [s|] eqn:Hn; [|discriminate]. intros H. injection H as <-.
  eapply nth_error_In. exact Hn.
Qed.

(** A recall nested in a session whose history holds no recalls ends after one level. *)
Lemma feed_twice E line w : no_recalls E w -> forall fuel, feed E (S (S fuel)) line w = feed E 2 line w /\ feed E 2 line w <> FFuel.
Proof.
  intros Hw fuel.
  destruct (recall_dec E line) as [(a & n & Hs & Hc)|Hnr].
  2:{ destruct (feed_once E line w Hnr (S fuel)) as (H1 & H2). destruct (feed_once E line w Hnr 1) as (H3 & _).
      rewrite H1, H3. split; [reflexivity|exact H2]. }
  cbn [feed]. destruct (new_command (w_hist w) line) as [h|] eqn:Hh.
  2:{ unfold feed_body. rewrite Hs, Hh. split; [reflexivity|discriminate]. }
  rewrite !(feed_body_spec E _ line w [lit "!"; a] (set_hist h w)) by (split; [exact Hs|split; [discriminate|eauto]]).
  unfold dispatch. rewrite !scan_attempts by discriminate. rewrite !(global_recall E _ a n _ Hc).
  cbn [run_fn builtin set_hist w_hist].
  destruct (forget_latest h) as [h2|] eqn:Hf; [|split; [reflexivity|discriminate]].
  change (set_hist h2 (set_hist h w)) with (set_hist h2 w).
  destruct (at_id h2 n) as [l| |] eqn:Ha; [|split; [reflexivity|apply report_fuel]|split; [reflexivity|discriminate]].
  assert (Hl : ~ recall E l) by (apply Hw; eapply bang_in; [exact Hh|exact Hf|eapply at_id_in; exact Ha]).
  destruct (feed_once E l (set_hist h2 w) Hl fuel) as (H1 & H2). cbn [feed] in H1, H2. rewrite H1. split; [reflexivity|].
  destruct (feed_body E (fun _ _ => FFuel) l (set_hist h2 w)) as [w1|[s|s|] w1| |]; cbn [e_bind finish]; try discriminate;
    try apply report_fuel; [|congruence].
  destruct (locate _ _ _) as [ctx|]; [|discriminate]. rewrite scan_attempts by discriminate.
  pose proof (attempts_fuel E no_builtin (choices [lit "!"; a] ctx) ltac:(intros; discriminate) w1) as Hx.
  destruct (attempts _ _ _ _) as [[] w2|x w2| |]; cbn [e_bind finish]; try discriminate; [|apply report_fuel|congruence].
  unfold wrong_command. destruct (e_has E KWrong); [|discriminate]. rewrite hook_spec. cbn zeta. dend; [discriminate|]. apply report_fuel.
Qed.
