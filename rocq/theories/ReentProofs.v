(** * Proofs about user code that calls the session *)

From Verif Require Import Base SplitModel SplitSpec SplitProofs FromStringModel FromStringSpec FromStringProofs HistoryModel HistorySpec HistoryProofs StorageModel StorageSpec StorageProofs TerminalModel
  MenuModel SessionModel ResolveSpec ResolveProofs SessionSpec TreeProofs SessionProofs InvariantProofs FeatureProofs SafetyProofs DisplayProofs InteractiveProofs ReentModel ReentSpec NavProofs.
Open Scope nat_scope.
Open Scope list_scope.

(** ** Execution tries the readings in order *)
Section Attempts.
Context (R : renv) (rec : call -> rstate -> rres) (bi : hid -> list value -> rstate -> rres).
Notation E := (re_env R).

Definition r_attempt (t : target) (s : rstate) : xres :=
  match t with
  | TGoto id => XDone true (upd (set_cur id) s)
  | TFree h args => r_run_free R rec h args s
  | TRun h pars args =>
      match convert_all E pars args with COk vs => r_run_fn R rec bi h vs s | CBad => XDone false s | CUB => XUB end
  end.
Fixpoint r_attempts (l : list choice) (s : rstate) : xres :=
  match l with [] => XDone false s | x :: l' => x_bind (r_attempt (snd x) s) (r_attempts l') end.

Lemma x_bind_ret r : x_bind r (XDone false) = r.
Proof. destruct r as [[] ?| | |]; reflexivity. Qed.
Lemma x_bind_assoc r f g : x_bind (x_bind r f) g = x_bind r (fun w => x_bind (f w) g).
Proof. destruct r as [[] ?| | |]; reflexivity. Qed.
Lemma x_bind_ext r f g : (forall w, f w = g w) -> x_bind r f = x_bind r g.
Proof. intros H. destruct r as [[] ?| | |]; cbn; auto. Qed.

Lemma r_attempts_app l1 : forall l2 s, r_attempts (l1 ++ l2) s = x_bind (r_attempts l1 s) (r_attempts l2).
Proof.
  induction l1 as [|x l1 IH]; intros l2 s; cbn; [reflexivity|].
  rewrite x_bind_assoc. apply x_bind_ext. intros w'. apply IH.
Qed.
Lemma r_attempts_under i l : forall s, r_attempts (under i l) s = r_attempts l s.
Proof. induction l as [|x l IH]; intros s; cbn; [reflexivity|]. apply x_bind_ext, IH. Qed.

Lemma r_leaf_attempts k toks s : toks <> [] -> (forall id n e d p ks, k <> CMenu id n e d p ks) ->
  r_exec_leaf R rec bi k toks s = r_attempts (leaf_choices k toks) s.
Proof.
  intros Hne Hk. destruct toks as [|t args]; [congruence|].
  destruct k as [id name en desc pars pdesc h|id name en desc pdesc h|]; [| |exfalso; eapply Hk; reflexivity].
  - destruct en; [|reflexivity]. cbn [r_exec_leaf leaf_choices negb].
    destruct (Nat.eqb _ _); [|reflexivity]. cbn [negb andb].
    destruct (str_eqb name t); [|reflexivity]. cbn. rewrite x_bind_ret. reflexivity.
  - destruct en; [|reflexivity]. cbn [r_exec_leaf leaf_choices negb].
    destruct (str_eqb name t); [|reflexivity]. cbn. rewrite x_bind_ret. reflexivity.
Qed.
Lemma r_try_all_kids f g l : (forall k s, f k s = r_attempts (g k) s) ->
  forall i s, r_try_all f l s = r_attempts (kids_choices g i l) s.
Proof.
  intros H. induction l as [|k l IH]; intros i s; cbn [r_try_all kids_choices]; [reflexivity|].
  rewrite r_attempts_app, r_attempts_under, H. apply x_bind_ext. intros w'. apply IH.
Qed.
Lemma r_menu_attempts toks ctx s : toks <> [] ->
  (forall up c s, r_handle R rec bi toks up c s = r_attempts (h_choices toks up c) s) ->
  r_scan R rec bi toks ctx s = r_attempts (menu_choices (h_choices toks) toks ctx) s.
Proof.
  intros Hne IH. destruct ctx as [|m anc]; [reflexivity|].
  cbn [r_scan menu_choices]. destruct (cmd_en m); [|reflexivity].
  cbn [negb]. rewrite r_attempts_app.
  rewrite (r_try_all_kids (r_exec R rec bi toks (m :: anc)) (cmd_choices (h_choices toks) toks (m :: anc)) _) with (i := 0).
  - apply x_bind_ext. intros w1. destruct anc; [reflexivity|]. rewrite r_attempts_under. apply IH.
  - intros k w1. destruct k as [id name en desc pars pdesc h|id name en desc pdesc h|id name en desc pr kids];
      cbn [r_exec cmd_choices].
    + apply r_leaf_attempts; congruence.
    + apply r_leaf_attempts; congruence.
    + apply IH.
Qed.
Lemma r_handle_scan t r rest up id name en desc pr kids anc s :
  r_handle R rec bi (t :: r :: rest) up (CMenu id name en desc pr kids :: anc) s =
  if en && (str_eqb name t || (up && str_eqb (lit "..") t))
  then r_scan R rec bi (r :: rest) (CMenu id name en desc pr kids :: anc) s
  else XDone false s.
Proof.
  cbn [r_handle r_scan cmd_en cmd_kids]. destruct en; cbn [negb andb]; [|reflexivity].
  destruct (str_eqb name t || _); reflexivity.
Qed.
Lemma r_handle_attempts toks : toks <> [] -> forall up ctx s,
  r_handle R rec bi toks up ctx s = r_attempts (h_choices toks up ctx) s.
Proof.
  induction toks as [|t rest IH]; intros Hne up ctx s; [congruence|].
  destruct ctx as [|[| |id name en desc pr kids] anc]; try (cbn [r_handle h_choices]; reflexivity).
  destruct rest as [|r rest].
  - cbn [r_handle h_choices]. destruct en; cbn [negb]; [|reflexivity].
    destruct (str_eqb name t || _); reflexivity.
  - rewrite r_handle_scan. cbn [h_choices]. destruct en; cbn [andb]; [|reflexivity].
    destruct (str_eqb name t || _); [|reflexivity].
    apply r_menu_attempts; [congruence|]. intros. apply IH. congruence.
Qed.
Lemma r_scan_attempts toks ctx s : toks <> [] -> r_scan R rec bi toks ctx s = r_attempts (choices toks ctx) s.
Proof. intros H. apply r_menu_attempts; [exact H|]. intros. apply r_handle_attempts. exact H. Qed.

Lemma r_unusable t s : well_sized t -> unusable E t -> r_attempt t s = XDone false s.
Proof.
  intros Hs H. inversion H; subst. cbn. apply convert_all_bad in H0; [rewrite H0; reflexivity|exact Hs].
Qed.
Lemma r_skip l s : Forall (fun x => well_sized (snd x) /\ unusable E (snd x)) l -> r_attempts l s = XDone false s.
Proof.
  intros H. induction H as [|x l (Hs & Hu) _ IH]; [reflexivity|]. cbn.
  rewrite r_unusable by assumption. exact IH.
Qed.
Lemma r_no_match toks ctx s : toks <> [] -> no_match E ctx toks -> r_attempts (choices toks ctx) s = XDone false s.
Proof.
  intros Hne H. apply r_skip. apply Forall_forall. intros (p, t) Hin. apply in_choices in Hin; [|assumption].
  split; [eapply reading_sized; eassumption|]. eapply H. exact Hin.
Qed.
Lemma r_first toks ctx t s : toks <> [] -> first_match E ctx toks t ->
  (forall s', r_attempt t s <> XDone false s') -> r_attempts (choices toks ctx) s = r_attempt t s.
Proof.
  intros Hne Hf Hd. destruct (first_split E toks ctx t Hne Hf) as (l1 & p & l2 & Heq & Hl1).
  rewrite Heq, r_attempts_app, r_skip by assumption. cbn.
  destruct (r_attempt t s) as [[] ?| | |]; try reflexivity. congruence.
Qed.
End Attempts.

(** [Feed] of a recorded line. *)
Definition r_finish (R : renv) (rec : call -> rstate -> rres) (line : str) (r : xres) : rres :=
  match r with
  | XDone _ s' => ROk None s'
  | XExc (XBadCast what) s' | XExc (XStd what) s' => r_std_exception R rec line what s'
  | XExc XOther s' =>
      ROk None (upd (out (lit "Cli. Unknown exception caught handling command line """ ++ line ++ lit """" ++ nl)) s')
  | XUB => RUB
  | XFuel => RFuel
  end.
Definition x_of (r : rres) : xres :=
  match r with ROk _ s => XDone false s | RExc x s => XExc x s | RUB => XUB | RFuel => XFuel end.
Definition r_menus (R : renv) (rec : call -> rstate -> rres) (toks : list str) (line : str) (s : rstate) : xres :=
  match locate (w_cur (r_w s)) [] (w_root (r_w s)) with
  | None => XUB
  | Some ctx => x_bind (r_attempts R rec r_no_builtin (choices toks ctx) s) (fun s2 => x_of (r_wrong_command R rec line s2))
  end.
Lemma r_dispatch_spec R rec toks line s : toks <> [] ->
  r_dispatch R rec toks line s = x_bind (r_attempts R rec (r_builtin R rec) (choices toks [global_menu]) s) (r_menus R rec toks line).
Proof.
  intros H. unfold r_dispatch. rewrite r_scan_attempts by exact H. apply x_bind_ext. intros s1. unfold r_menus.
  destruct (locate _ _ _); [|reflexivity]. rewrite r_scan_attempts by exact H. reflexivity.
Qed.
Lemma r_feed_spec R rec line s toks h : split line = Some toks -> toks <> [] -> new_command (w_hist (r_w s)) line = Some h ->
  r_feed R rec line s = r_finish R rec line (x_bind (r_attempts R rec (r_builtin R rec) (choices toks [global_menu]) (upd (set_hist h) s)) (r_menus R rec toks line)).
Proof.
  intros Hs Hne Hh. unfold r_feed. rewrite Hs, Hh. destruct toks as [|t toks]; [congruence|]. rewrite r_dispatch_spec by discriminate. reflexivity.
Qed.

(** ** A general theorem about the states left behind *)
Inductive hist_step (h : history) : history -> Prop :=
| hs_new line h' : new_command h line = Some h' -> hist_step h h'
| hs_forget h' : forget_latest h = Some h' -> hist_step h h'
| hs_prev line t h' : previous h line = Some (t, h') -> hist_step h h'
| hs_next t h' : next h = Some (t, h') -> hist_step h h'.

Section Relation.
Context (R : renv) (Q : rstate -> rstate -> Prop).
Context (Hrefl : forall s, Q s s) (Htrans : forall s1 s2 s3, Q s1 s2 -> Q s2 s3 -> Q s1 s3)
  (Hlog : forall e s, (forall i k args, e <> EvHook i k args) -> Q s (upd (log e) s)) (Hop : forall o s, Q s (do_op o s))
  (Hrun : forall k a args s, a_now (r_acts s) k = Some a -> Q s (upd (log (EvHook (w_sid (r_w s)) k args)) (upd_acts (noted (NRun k a)) s)))
  (Hempty : forall k s, a_now (r_acts s) k = None -> Q s (upd_acts (noted (NEmpty k)) s))
  (Hset : forall k a s, Q s (upd_acts (set_act k a) s)) (Hcur : forall id s, Q s (upd (set_cur id) s))
  (Hhist : forall h s, hist_step (w_hist (r_w s)) h -> Q s (upd (set_hist h) s))
  (Hexit : forall st s, Q s (upd (fun w => set_exit true (set_store (st w) w)) s)).

Definition x_left (P : rstate -> Prop) (r : xres) : Prop := match r with XDone _ s | XExc _ s => P s | _ => True end.
Lemma left_trans s1 s2 r : Q s1 s2 -> left_in (Q s2) r -> left_in (Q s1) r.
Proof. intros H. destruct r; cbn; eauto. Qed.
Lemma x_left_trans s1 s2 r : Q s1 s2 -> x_left (Q s2) r -> x_left (Q s1) r.
Proof. intros H. destruct r; cbn; eauto. Qed.
Lemma left_bind s r f : left_in (Q s) r -> (forall s', left_in (Q s') (f s')) -> left_in (Q s) (r_bind r f).
Proof. intros H Hf. destruct r as [a s'|x s'| |]; cbn in *; auto. eapply left_trans; [exact H|apply Hf]. Qed.
Lemma x_left_bind s r f : x_left (Q s) r -> (forall s', x_left (Q s') (f s')) -> x_left (Q s) (x_bind r f).
Proof. intros H Hf. destruct r as [[] s'|x s'| |]; cbn in *; auto. eapply x_left_trans; [exact H|apply Hf]. Qed.
Lemma out_left t s : Q s (upd (out t) s).
Proof. apply (Hlog (EvOut (w_sid (r_w s)) t) s). intros; discriminate. Qed.

Section Rec.
Context (rec : call -> rstate -> rres) (Hrec : forall c s, left_in (Q s) (rec c s)).
Lemma prog_left p : forall s, left_in (Q s) (run_prog rec p s).
Proof.
  induction p as [e|[o|c] k IH]; intros s; cbn [run_prog].
  - destruct e; apply Hrefl.
  - eapply left_trans; [apply Hop|apply IH].
  - pose proof (Hrec c s) as H. destruct (rec c s) as [a s'|x s'| |]; cbn in *; try exact Logic.I; (eapply left_trans; [exact H|apply IH]).
Qed.
Lemma hook_left k args none s : (forall s, left_in (Q s) (none s)) -> left_in (Q s) (r_hook R rec k args none s).
Proof.
  intros H. unfold r_hook. destruct (a_now (r_acts s) k) as [a|] eqn:Ha.
  - eapply left_trans; [apply Hrun, Ha|apply prog_left].
  - eapply left_trans; [apply Hempty, Ha|apply H].
Qed.
Lemma user_left n args s : left_in (Q s) (r_call_user R rec n args s).
Proof. unfold r_call_user. eapply left_trans; [|apply prog_left]. apply Hlog. discriminate. Qed.
Lemma exit_left s : left_in (Q s) (r_exit R rec s).
Proof.
  unfold r_exit. apply left_bind; [apply hook_left, Hrefl|]. intros s1. apply left_bind; [apply hook_left, Hrefl|]. intros s2.
  destruct (get_commands _); [|exact Logic.I]. apply (Hexit (fun w => st_store (w_store w) l)).
Qed.
Lemma enter_left s : left_in (Q s) (r_enter R rec s).
Proof. unfold r_enter. apply left_bind; [apply hook_left, Hrefl|]. intros s1. apply hook_left, Hrefl. Qed.
Lemma help_left s : left_in (Q s) (r_help s).
Proof. unfold r_help. destruct (help_text _); [apply out_left|exact Logic.I]. Qed.
Lemma show_left s : left_in (Q s) (r_show s).
Proof. unfold r_show. destruct (show _); [apply out_left|apply Hrefl]. Qed.
Lemma from_history_left n s : left_in (Q s) (r_from_history rec n s).
Proof.
  unfold r_from_history. destruct (forget_latest _) as [h|] eqn:Hf; [|exact Logic.I].
  assert (H : Q s (upd (set_hist h) s)) by (apply Hhist, hs_forget, Hf).
  destruct (at_id h n); [|exact H|exact Logic.I]. eapply left_trans; [exact H|apply Hrec].
Qed.
Lemma builtin_left h args s : left_in (Q s) (r_builtin R rec h args s).
Proof.
  destruct h; cbn [r_builtin]; try exact Logic.I; [apply help_left|apply exit_left|apply show_left|].
  destruct args as [|[] []]; try exact Logic.I. apply from_history_left.
Qed.
Lemma attempt_left bi t s : (forall h args s, left_in (Q s) (bi h args s)) -> x_left (Q s) (r_attempt R rec bi t s).
Proof.
  intros Hbi. destruct t as [h pars args|h args|id]; cbn [r_attempt].
  - destruct (convert_all _ _ _) as [vs| |]; [|apply Hrefl|exact Logic.I]. unfold r_run_fn.
    assert (H : left_in (Q s) (match h with HUser n => r_call_user R rec n vs s | _ => bi h vs s end))
      by (destruct h; try apply Hbi; apply user_left).
    destruct (match h with HUser n => r_call_user R rec n vs s | _ => bi h vs s end) as [a s'|[w|w|] s'| |]; try exact H.
    destruct h; try exact H. destruct (Nat.eqb _ _); [exact H|exact Logic.I].
  - destruct h; try exact Logic.I. unfold r_run_free. pose proof (user_left n [VList args] s) as H.
    destruct (r_call_user _ _ _ _ _); exact H.
  - apply Hcur.
Qed.
Lemma attempts_left bi l : (forall h args s, left_in (Q s) (bi h args s)) -> forall s, x_left (Q s) (r_attempts R rec bi l s).
Proof.
  intros Hbi. induction l as [|x l IH]; intros s; cbn [r_attempts]; [apply Hrefl|].
  apply x_left_bind; [apply attempt_left, Hbi|exact IH].
Qed.
Lemma wrong_left line s : left_in (Q s) (r_wrong_command R rec line s).
Proof. unfold r_wrong_command. apply hook_left. intros s1. apply out_left. Qed.
Lemma x_of_left s r : left_in (Q s) r -> x_left (Q s) (x_of r).
Proof. destruct r; auto. Qed.
Lemma menus_left toks line s : x_left (Q s) (r_menus R rec toks line s).
Proof.
  unfold r_menus. destruct (locate _ _ _); [|exact Logic.I]. apply x_left_bind; [apply attempts_left; intros; exact Logic.I|].
  intros s1. apply x_of_left, wrong_left.
Qed.
Lemma finish_left line s r : x_left (Q s) r -> left_in (Q s) (r_finish R rec line r).
Proof.
  assert (Hs : forall what s', Q s s' -> left_in (Q s) (r_std_exception R rec line what s')).
  { intros what s' H. eapply left_trans; [exact H|]. unfold r_std_exception. apply hook_left. intros s1. apply out_left. }
  destruct r as [b s'|[w|w|] s'| |]; cbn [r_finish x_left]; intros H; try exact H; auto.
  eapply left_trans; [exact H|apply out_left].
Qed.
Lemma feed_left line s : left_in (Q s) (r_feed R rec line s).
Proof.
  destruct (split line) as [[|t toks]|] eqn:Hs; [unfold r_feed; rewrite Hs; apply Hrefl| |unfold r_feed; rewrite Hs; exact Logic.I].
  destruct (new_command (w_hist (r_w s)) line) as [h|] eqn:Hh; [|unfold r_feed; rewrite Hs, Hh; exact Logic.I].
  rewrite (r_feed_spec R rec line s _ h Hs ltac:(discriminate) Hh). apply finish_left.
  eapply x_left_trans; [apply (Hhist h s), (hs_new _ line), Hh|]. apply x_left_bind; [apply attempts_left, builtin_left|].
  intros s1. apply menus_left.
Qed.
Lemma call_left c s : left_in (Q s) (r_call R rec c s).
Proof.
  destruct c; cbn [r_call]; [apply feed_left|apply exit_left|apply enter_left|apply help_left|apply show_left|apply from_history_left|apply Hcur| | |apply Hset| ].
  - unfold previous_cmd. destruct (previous _ _) as [(t, h)|] eqn:Hp; [|exact Logic.I]. apply (Hhist h s), (hs_prev _ line t), Hp.
  - unfold next_cmd. destruct (next _) as [(t, h)|] eqn:Hp; [|exact Logic.I]. apply (Hhist h s), (hs_next _ t), Hp.
  - destruct (prompt tty color force (r_w s)) as [(t, b)|]; [apply out_left|exact Logic.I].
Qed.
End Rec.

Lemma run_left fuel : forall c s, left_in (Q s) (run_call R fuel c s).
Proof. induction fuel as [|n IH]; intros c s; [exact Logic.I|]. cbn [run_call]. apply call_left, IH. Qed.
End Relation.

Lemma hist_step_bounded h h' n : hist_step h h' -> h_max h = n -> length (h_buf h) <= n -> h_max h' = n /\ length (h_buf h') <= n.
Proof.
  intros H <- Hb.
  assert (Hs : length (h_buf h') <= h_max h' /\ h_max h' = h_max h -> h_max h' = h_max h /\ length (h_buf h') <= h_max h).
  { intros (A & B). rewrite B in A. auto. }
  destruct H as [line h' H|h' H|line t h' H|t h' H]; try apply Hs.
  - exact (hstep_bounded h (ONew line) h' Hb H).
  - revert H. unfold forget_latest. destruct (h_buf h) eqn:E; intros H; inversion H; cbn in *; split; [lia|reflexivity].
  - apply (hstep_bounded h (OUp line) h' Hb). cbn. rewrite H. reflexivity.
  - apply (hstep_bounded h ODown h' Hb). cbn. rewrite H. reflexivity.
Qed.
Lemma later_refl s : later s s.
Proof. split; [exists []; symmetry; apply app_nil_r|]. repeat (split; [auto|]). auto. Qed.
Lemma later_trans s1 s2 s3 : later s1 s2 -> later s2 s3 -> later s1 s3.
Proof.
  intros ((e1 & A1) & B1 & C1 & D1 & F1 & G1) ((e2 & A2) & B2 & C2 & D2 & F2 & G2).
  split; [exists (e1 ++ e2); rewrite A2, A1, app_assoc; reflexivity|]. split; [congruence|]. split; [auto|]. split; [lia|]. split; [auto|].
  intros n Hn Hb. destruct (G1 n Hn Hb). apply G2; assumption.
Qed.
Lemma apply_op_next w o : w_next w <= w_next (apply_op w o).
Proof.
  destruct o as [s|s|id|id|id|pid c]; cbn; try lia. pose proof (relabel_ids c (w_next w)) as H.
  destruct (relabel (w_next w) c) as (c', n). cbn. lia.
Qed.
Lemma run_later R fuel c s : left_in (later s) (run_call R fuel c s).
Proof.
  apply run_left; clear.
  - apply later_refl.
  - apply later_trans.
  - intros e s _. split; [exists [e]; reflexivity|]. repeat (split; [auto|]). auto.
  - intros o s. cbn [do_op r_w]. unfold later. cbn [r_w do_op]. destruct (apply_op_same (r_w s) o) as (_ & A & _ & B & C).
    destruct (apply_op_grows (r_w s) o) as (evs & D & _). rewrite B.
    split; [eauto|]. split; [congruence|]. split; [congruence|]. split; [apply apply_op_next|]. split; [apply sound_op|auto].
  - intros k a args s _. split; [exists [EvHook (w_sid (r_w s)) k args]; reflexivity|]. repeat (split; [auto|]). auto.
  - intros k s _. split; [exists []; symmetry; apply app_nil_r|]. repeat (split; [auto|]). auto.
  - intros k a s. split; [exists []; symmetry; apply app_nil_r|]. repeat (split; [auto|]). auto.
  - intros id s. split; [exists []; symmetry; apply app_nil_r|]. repeat (split; [auto|]). auto.
  - intros h s H. split; [exists []; symmetry; apply app_nil_r|]. do 4 (split; [auto|]). cbn. intros n Hn Hb. eapply hist_step_bounded; eassumption.
  - intros st s. split; [exists []; symmetry; apply app_nil_r|]. repeat (split; [auto|]). auto.
Qed.

(** ** More fuel changes nothing *)
Definition fle (r r' : rres) : Prop := r = RFuel \/ r = r'.
Definition xle (r r' : xres) : Prop := r = XFuel \/ r = r'.
Section Fuel.
Context (R : renv) (rec rec' : call -> rstate -> rres) (Hrec : forall c s, fle (rec c s) (rec' c s)).
Lemma fle_refl r : fle r r.
Proof. right. reflexivity. Qed.
Lemma xle_refl r : xle r r.
Proof. right. reflexivity. Qed.
Lemma fle_bind r r' f f' : fle r r' -> (forall s, fle (f s) (f' s)) -> fle (r_bind r f) (r_bind r' f').
Proof. intros [->| ->] H; [left; reflexivity|]. destruct r' as [a s|x s| |]; cbn; try apply fle_refl. apply H. Qed.
Lemma xle_bind r r' f f' : xle r r' -> (forall s, xle (f s) (f' s)) -> xle (x_bind r f) (x_bind r' f').
Proof. intros [->| ->] H; [left; reflexivity|]. destruct r' as [[] s|x s| |]; cbn; try apply xle_refl. apply H. Qed.
Lemma prog_fle p : forall s, fle (run_prog rec p s) (run_prog rec' p s).
Proof.
  induction p as [e|[o|c] k IH]; intros s; cbn [run_prog]; [apply fle_refl|apply IH|].
  destruct (Hrec c s) as [->| ->]; [left; reflexivity|]. destruct (rec' c s); try apply fle_refl; apply IH.
Qed.
Lemma hook_fle k args none s : fle (r_hook R rec k args none s) (r_hook R rec' k args none s).
Proof. unfold r_hook. destruct (a_now _ _); [apply prog_fle|apply fle_refl]. Qed.
Lemma user_fle n args s : fle (r_call_user R rec n args s) (r_call_user R rec' n args s).
Proof. apply prog_fle. Qed.
Lemma exit_fle s : fle (r_exit R rec s) (r_exit R rec' s).
Proof. unfold r_exit. apply fle_bind; [apply hook_fle|]. intros s1. apply fle_bind; [apply hook_fle|]. intros s2. apply fle_refl. Qed.
Lemma enter_fle s : fle (r_enter R rec s) (r_enter R rec' s).
Proof. unfold r_enter. apply fle_bind; [apply hook_fle|]. intros s1. apply hook_fle. Qed.
Lemma from_history_fle n s : fle (r_from_history rec n s) (r_from_history rec' n s).
Proof. unfold r_from_history. destruct (forget_latest _); [|apply fle_refl]. destruct (at_id _ _); [apply Hrec|apply fle_refl|apply fle_refl]. Qed.
Lemma builtin_fle h args s : fle (r_builtin R rec h args s) (r_builtin R rec' h args s).
Proof.
  destruct h; cbn [r_builtin]; try apply fle_refl; [apply exit_fle|].
  destruct args as [|[] []]; try apply fle_refl. apply from_history_fle.
Qed.
Lemma attempt_fle bi bi' t s : (forall h args s, fle (bi h args s) (bi' h args s)) -> xle (r_attempt R rec bi t s) (r_attempt R rec' bi' t s).
Proof.
  intros Hbi. destruct t as [h pars args|h args|id]; cbn [r_attempt]; [| |apply xle_refl].
  - destruct (convert_all _ _ _) as [vs| |]; try apply xle_refl. unfold r_run_fn.
    assert (H : fle (match h with HUser n => r_call_user R rec n vs s | _ => bi h vs s end)
                    (match h with HUser n => r_call_user R rec' n vs s | _ => bi' h vs s end)) by (destruct h; try apply Hbi; apply user_fle).
    destruct H as [->| ->]; [left; reflexivity|apply xle_refl].
  - destruct h; try apply xle_refl. unfold r_run_free. destruct (user_fle n [VList args] s) as [->| ->]; [left; reflexivity|apply xle_refl].
Qed.
Lemma attempts_fle bi bi' l : (forall h args s, fle (bi h args s) (bi' h args s)) -> forall s, xle (r_attempts R rec bi l s) (r_attempts R rec' bi' l s).
Proof. intros Hbi. induction l as [|x l IH]; intros s; cbn [r_attempts]; [apply xle_refl|]. apply xle_bind; [apply attempt_fle, Hbi|exact IH]. Qed.
Lemma x_of_fle r r' : fle r r' -> xle (x_of r) (x_of r').
Proof. intros [->| ->]; [left; reflexivity|apply xle_refl]. Qed.
Lemma menus_fle toks line s : xle (r_menus R rec toks line s) (r_menus R rec' toks line s).
Proof.
  unfold r_menus. destruct (locate _ _ _); [|apply xle_refl]. apply xle_bind; [apply attempts_fle; intros; apply fle_refl|].
  intros s1. apply x_of_fle. apply hook_fle.
Qed.
Lemma finish_fle line r r' : xle r r' -> fle (r_finish R rec line r) (r_finish R rec' line r').
Proof.
  intros [->| ->]; [left; reflexivity|].
  assert (Hs : forall what s, fle (r_std_exception R rec line what s) (r_std_exception R rec' line what s)).
  { intros what s. apply hook_fle. }
  destruct r' as [b s|[w|w|] s| |]; cbn [r_finish]; try apply fle_refl; apply Hs.
Qed.
Lemma feed_fle line s : fle (r_feed R rec line s) (r_feed R rec' line s).
Proof.
  destruct (split line) as [[|t toks]|] eqn:Hs; try (unfold r_feed; rewrite Hs; apply fle_refl).
  destruct (new_command (w_hist (r_w s)) line) as [h|] eqn:Hh; [|unfold r_feed; rewrite Hs, Hh; apply fle_refl].
  rewrite !(r_feed_spec R _ line s _ h Hs ltac:(discriminate) Hh). apply finish_fle, xle_bind; [apply attempts_fle, builtin_fle|apply menus_fle].
Qed.
Lemma call_fle c s : fle (r_call R rec c s) (r_call R rec' c s).
Proof. destruct c; cbn [r_call]; try apply fle_refl; [apply feed_fle|apply exit_fle|apply enter_fle|apply from_history_fle]. Qed.
End Fuel.
Lemma run_fuel R n : forall m c s, n <= m -> run_call R n c s <> RFuel -> run_call R m c s = run_call R n c s.
Proof.
  assert (H : forall n m c s, n <= m -> fle (run_call R n c s) (run_call R m c s)).
  { clear. induction n as [|n IH]; intros m c s Hm; [left; reflexivity|]. destruct m as [|m]; [lia|]. cbn [run_call].
    apply call_fle. intros c' s'. apply IH. lia. }
  intros m c s Hm Hn. destruct (H n m c s Hm); congruence.
Qed.

(** ** Code without calls *)
Definition tree_ops (os : list op) : nat := length (filter is_tree_op os).
Lemma straight_run rec os e : forall s,
  run_prog rec (straight os e) s =
  let s' := mkR (apply_ops os (r_w s)) (r_touched s + tree_ops os) (r_acts s) in
  match e with UReturn => ROk None s' | UThrow x => RExc x s' end.
Proof.
  induction os as [|o os IH]; intros [w t a].
  - unfold tree_ops. cbn. rewrite Nat.add_0_r. destruct e; reflexivity.
  - cbn [straight run_prog]. cbn zeta. rewrite IH. unfold do_op, tree_ops. cbn [r_w r_touched r_acts apply_ops fold_left filter].
    rewrite <- Nat.add_assoc. destruct (is_tree_op o); reflexivity.
Qed.
Lemma tree_ops_zero t os : Nat.eqb t (t + tree_ops os) = negb (existsb is_tree_op os).
Proof.
  assert (H : Nat.eqb 0 (tree_ops os) = negb (existsb is_tree_op os)).
  { unfold tree_ops. induction os as [|o os IH]; [reflexivity|]. cbn. destruct (is_tree_op o); [reflexivity|exact IH]. }
  rewrite <- H. destruct (Nat.eqb_spec t (t + tree_ops os)), (Nat.eqb_spec 0 (tree_ops os)); try reflexivity; lia.
Qed.
Section Plain.
Context (E : env) (rec : call -> rstate -> rres) (frec : str -> world -> fres).
Context (Hrec : forall line s, acts_of E s -> agrees E (rec (KFeed line) s) (frec line (r_w s))).
Notation R := (plain E).
Definition xagrees (r : xres) (f : eres) : Prop :=
  match r, f with
  | XDone b s, EDone b' w => b = b' /\ r_w s = w /\ acts_of E s
  | XExc x s, EExc y w => x = y /\ r_w s = w /\ acts_of E s
  | XUB, EUB | XFuel, EFuel => True
  | _, _ => False
  end.
Lemma hook_agrees k args none y s : acts_of E s -> (forall s, acts_of E s -> agrees_h E (none s) (y (r_w s))) ->
  agrees_h E (r_hook R rec k args none s) (if e_has E k then run_hook E k args (r_w s) else y (r_w s)).
Proof.
  intros Hs Hn. unfold r_hook. pose proof (Hs k) as Hk. destruct (a_now (r_acts s) k) as [a|].
  - rewrite (proj1 Hk) by discriminate. unfold run_hook, agrees_h. cbn [plain re_hook upd upd_acts r_w]. unfold code. rewrite straight_run. cbn zeta.
    cbn [upd upd_acts r_w r_touched r_acts log w_sid w_trace]. dend; cbn; auto.
  - destruct (e_has E k); [exfalso; apply (proj2 Hk); reflexivity|]. apply (Hn (upd_acts (noted (NEmpty k)) s)). exact Hs.
Qed.
Lemma bind_agrees r h f g : agrees_h E r h -> (forall s, acts_of E s -> agrees_h E (f s) (g (r_w s))) -> agrees_h E (r_bind r f) (h_bind h g).
Proof.
  intros H Hf. unfold agrees_h in *. destruct r as [a s|x s| |], h as [w|y w| |]; cbn in *; try tauto. destruct H as (<- & H). apply Hf, H.
Qed.
Lemma exit_agrees s : acts_of E s -> agrees_h E (r_exit R rec s) (session_exit E (r_w s)).
Proof.
  intros Hs. unfold r_exit, session_exit. apply bind_agrees; [apply (hook_agrees KSesExit [] _ (HExc bad_function_call)); [exact Hs|intros; repeat split; apply H]|].
  intros s1 H1. apply bind_agrees; [apply (hook_agrees KCliExit [] _ HOk); [exact H1|intros; split; [reflexivity|assumption]]|].
  intros s2 H2. destruct (get_commands _); [split; [reflexivity|exact H2]|exact Logic.I].
Qed.
Lemma enter_agrees s : acts_of E s -> agrees_h E (r_enter R rec s) (session_enter E (r_w s)).
Proof.
  intros Hs. unfold r_enter, session_enter. apply bind_agrees; [apply (hook_agrees KCliEnter [] _ HOk); [exact Hs|intros; split; [reflexivity|assumption]]|].
  intros s1 H1. apply (hook_agrees KSesEnter [] _ HOk); [exact H1|intros; split; [reflexivity|assumption]].
Qed.
Lemma builtin_agrees h args s : acts_of E s -> agrees_h E (r_builtin R rec h args s) (builtin E frec h args (r_w s)).
Proof.
  intros Hs. destruct h; cbn [r_builtin builtin]; try exact Logic.I.
  - unfold r_help. destruct (help_text _); [split; [reflexivity|exact Hs]|exact Logic.I].
  - apply exit_agrees, Hs.
  - unfold r_show. destruct (show _); [split; [reflexivity|exact Hs]|split; [reflexivity|split; [reflexivity|exact Hs]]].
  - destruct args as [|[] []]; try exact Logic.I. unfold r_from_history. destruct (forget_latest _) as [h|]; [|exact Logic.I].
    destruct (at_id h _) as [l| |]; [|split; [reflexivity|split; [reflexivity|exact Hs]]|exact Logic.I].
    pose proof (Hrec l (upd (set_hist h) s) Hs) as H. cbn [upd r_w] in H. unfold agrees_h.
    destruct (frec l (set_hist h (r_w s))); exact H.
Qed.
Lemma attempt_agrees bi hbi t s : (forall h args s, acts_of E s -> agrees_h E (bi h args s) (hbi h args (r_w s))) -> acts_of E s ->
  xagrees (r_attempt R rec bi t s) (attempt E hbi t (r_w s)).
Proof.
  intros Hbi Hs. destruct t as [h pars args|h args|id]; cbn [r_attempt attempt plain re_env]; [| |split; [reflexivity|split; [reflexivity|exact Hs]]].
  - destruct (convert_all E pars args) as [vs| |]; [|split; [reflexivity|split; [reflexivity|exact Hs]]|exact Logic.I]. unfold r_run_fn, run_fn.
    assert (Hn : forall n, h <> HUser n -> xagrees
      match bi h vs s with ROk _ s' => XDone true s' | RExc (XBadCast _) s' => XDone false s' | RExc x s' => XExc x s' | RUB => XUB | RFuel => XFuel end
      match hbi h vs (r_w s) with HOk w' => EDone true w' | HExc (XBadCast _) w' => EDone false w' | HExc x w' => EExc x w' | HUB => EUB | HFuel => EFuel end).
    { intros n _. specialize (Hbi h vs s Hs). unfold agrees_h in Hbi.
      destruct (bi h vs s) as [a s'|x s'| |], (hbi h vs (r_w s)) as [w|y w| |]; cbn in Hbi; try tauto; [split; auto|].
      destruct Hbi as (<- & Hw). destruct x; cbn; auto. }
    destruct h as [n| | | |]; try (specialize (Hn 0 ltac:(discriminate)));
      try (destruct (bi _ vs s) as [a s'|[x|x|] s'| |]; exact Hn).
    unfold r_call_user, call_user, plain, re_handler, code. cbn [upd r_w]. rewrite straight_run. cbn zeta. cbn [upd r_w r_touched r_acts log w_sid w_trace].
    match goal with |- context[ur_end ?r] => destruct (ur_end r) as [|[x|x|]] end; cbn [xagrees r_w]; auto.
    cbn [r_touched]. rewrite tree_ops_zero. match goal with |- context[existsb ?a ?b] => destruct (existsb a b) end; cbn; auto.
  - destruct h as [n| | | |]; try exact Logic.I. unfold r_run_free, run_free, r_call_user, call_user, plain, re_handler, code. cbn [upd r_w]. rewrite straight_run. cbn zeta.
    cbn [upd r_w r_touched r_acts log w_sid w_trace]. dend; cbn; auto.
Qed.
Lemma xbind_agrees r h f g : xagrees r h -> (forall s, acts_of E s -> xagrees (f s) (g (r_w s))) -> xagrees (x_bind r f) (e_bind h g).
Proof.
  intros H Hf. destruct r as [a s|x s| |], h as [b w|y w| |]; cbn in *; try tauto; destruct H as (-> & <- & H); try destruct b; cbn; auto.
Qed.
Lemma attempts_agrees bi hbi l : (forall h args s, acts_of E s -> agrees_h E (bi h args s) (hbi h args (r_w s))) ->
  forall s, acts_of E s -> xagrees (r_attempts R rec bi l s) (attempts E hbi l (r_w s)).
Proof.
  intros Hbi. induction l as [|x l IH]; intros s Hs; cbn [r_attempts attempts]; [split; [reflexivity|split; [reflexivity|exact Hs]]|].
  apply xbind_agrees; [apply attempt_agrees; assumption|exact IH].
Qed.
Lemma feed_agrees line s : acts_of E s -> agrees E (r_feed R rec line s) (feed_body E frec line (r_w s)).
Proof.
  intros Ha. destruct (split line) as [[|t toks]|] eqn:Hs; try (unfold r_feed, feed_body; rewrite Hs; first [exact Logic.I|split; [reflexivity|exact Ha]]).
  destruct (new_command (w_hist (r_w s)) line) as [h|] eqn:Hh; [|unfold r_feed, feed_body; rewrite Hs, Hh; exact Logic.I].
  rewrite (r_feed_spec R _ line s _ h Hs ltac:(discriminate) Hh).
  rewrite (feed_body_spec E _ line (r_w s) (t :: toks) (set_hist h (r_w s))) by (split; [exact Hs|split; [discriminate|eauto]]).
  unfold dispatch. rewrite scan_attempts by discriminate.
  assert (Hx : xagrees (x_bind (r_attempts R rec (r_builtin R rec) (choices (t :: toks) [global_menu]) (upd (set_hist h) s)) (r_menus R rec (t :: toks) line))
    (e_bind (attempts E (builtin E frec) (choices (t :: toks) [global_menu]) (set_hist h (r_w s))) (fun w1 =>
       match locate (w_cur w1) [] (w_root w1) with
       | None => EUB
       | Some ctx => e_bind (scan E no_builtin (t :: toks) ctx w1) (fun w2 =>
           match wrong_command E line w2 with HOk w3 => EDone false w3 | HExc x w3 => EExc x w3 | HUB => EUB | HFuel => EFuel end)
       end))).
  { apply xbind_agrees; [apply (attempts_agrees _ _ _ builtin_agrees (upd (set_hist h) s)), Ha|]. intros s1 H1. unfold r_menus.
    destruct (locate _ _ _) as [ctx|]; [|exact Logic.I]. rewrite scan_attempts by discriminate.
    apply xbind_agrees; [apply attempts_agrees; [intros; exact Logic.I|exact H1]|]. intros s2 H2. unfold r_wrong_command, wrong_command.
    match goal with |- xagrees (x_of (r_hook R rec KWrong [line] ?n s2)) _ =>
      pose proof (hook_agrees KWrong [line] n (fun w => HOk (out (lit "wrong command: " ++ line ++ nl) w)) s2 H2) as H end.
    specialize (H ltac:(intros s3 H3; split; [reflexivity|exact H3])). unfold agrees_h in H.
    destruct (r_hook _ _ _ _ _ _), (if e_has E KWrong then _ else _); cbn in H |- *; try tauto. }
  destruct (x_bind _ _) as [b s'|x s'| |], (e_bind _ _) as [b' w'|y w'| |]; cbn in Hx; try tauto; [cbn; tauto|].
  destruct Hx as (<- & <- & Hx). unfold r_finish, finish.
  assert (Hstd : forall what, agrees E (r_std_exception R rec line what s') (report E line (XStd what) (r_w s'))).
  { intros what. rewrite <- std_exception_report. unfold r_std_exception, std_exception.
    apply (hook_agrees KExcept [line; what] _ (fun w => HOk (out (what ++ nl) w)) s' Hx). intros s3 H3; split; [reflexivity|exact H3]. }
  destruct x; [apply Hstd|apply Hstd|split; [reflexivity|exact Hx]].
Qed.
End Plain.
Lemma run_agrees E fuel : forall line s, acts_of E s -> agrees E (run_call (plain E) fuel (KFeed line) s) (feed E fuel line (r_w s)).
Proof. induction fuel as [|n IH]; intros line s Hs; [exact Logic.I|]. cbn [run_call feed r_call]. apply feed_agrees; assumption. Qed.

(** ** What escapes from [Feed] *)
Lemma prog_exc rec p : forall s x s', run_prog rec p s = RExc x s' -> ends p (UThrow x).
Proof.
  induction p as [e|[o|c] k IH]; intros s x s'; cbn [run_prog].
  - destruct e; intros H; inversion H; constructor.
  - intros H. eapply ends_later, IH, H.
  - destruct (rec c s); intros H; try discriminate; eapply ends_later, IH, H.
Qed.
Lemma feed_escape R fuel line s x s' : run_call R fuel (KFeed line) s = RExc x s' ->
  exists a sid what tr, ends (re_hook R a sid KExcept [line; what] tr) (UThrow x).
Proof.
  destruct fuel as [|n]; [discriminate|]. cbn [run_call r_call]. set (rec := run_call R n). clearbody rec.
  destruct (split line) as [[|t toks]|] eqn:Hs; try (unfold r_feed; rewrite Hs; discriminate).
  destruct (new_command (w_hist (r_w s)) line) as [h|] eqn:Hh; [|unfold r_feed; rewrite Hs, Hh; discriminate].
  rewrite (r_feed_spec R _ line s _ h Hs ltac:(discriminate) Hh).
  destruct (x_bind _ _) as [b s1|y s1| |]; cbn [r_finish]; try discriminate.
  assert (Hstd : forall what, r_std_exception R rec line what s1 = RExc x s' ->
    exists a sid what tr, ends (re_hook R a sid KExcept [line; what] tr) (UThrow x)).
  { intros what. unfold r_std_exception, r_hook. destruct (a_now _ _); [|discriminate]. intros H.
    apply prog_exc in H. eauto. }
  destruct y; [apply Hstd|apply Hstd|discriminate].
Qed.

(** ** Exit *)
Lemma exit_done R fuel s a s' : run_call R fuel KExit s = ROk a s' ->
  w_exit (r_w s') = true /\
  exists st cmds, get_commands (w_hist (r_w s')) = Some cmds /\ w_store (r_w s') = st_store st cmds.
Proof.
  destruct fuel as [|n]; [discriminate|]. cbn [run_call r_call]. unfold r_exit.
  destruct (r_hook _ _ KSesExit _ _ _) as [a1 s1|x s1| |]; cbn [r_bind]; try discriminate.
  destruct (r_hook _ _ KCliExit _ _ _) as [a2 s2|x s2| |]; cbn [r_bind]; try discriminate.
  destruct (get_commands (w_hist (r_w s2))) as [cmds|] eqn:Hg; [|discriminate]. intros H. inversion H; subst.
  split; [reflexivity|]. exists (w_store (r_w s2)), cmds. split; [exact Hg|reflexivity].
Qed.

(** ** Feeding a line that means something *)
Section Feed.
Context (R : renv) (fuel : nat) (line : str) (w w0 : world) (t : nat) (ac : acts) (toks : list str) (ctx : list cmd).
Notation E := (re_env R).
Notation rec := (run_call R fuel).
Context (Hrec : recorded line w toks w0) (Hu : unique_ids (w_root w)) (Hm : in_menu w ctx).

Lemma hook_spec k args none s :
  r_hook R rec k args (fun s => ROk None (upd none s)) s = hook_code R fuel k args none s.
Proof. destruct s as [w1 t1 [now l]]. reflexivity. Qed.
Lemma finish_reported r :
  r_finish R rec line (match r with ROk _ s => XDone true s | RExc x s => XExc x s | RUB => XUB | RFuel => XFuel end) = reported R fuel line r.
Proof.
  destruct r as [a s|x s| |]; try reflexivity. cbn [r_finish reported]. destruct x; [apply hook_spec|apply hook_spec|destruct s; reflexivity].
Qed.
Lemma feed_resolved tg : resolves E ctx toks tg ->
  (forall bi s', r_attempt R rec bi tg (mkR w0 t ac) <> XDone false s') ->
  (forall bi bi', r_attempt R rec bi tg (mkR w0 t ac) = r_attempt R rec bi' tg (mkR w0 t ac)) ->
  run_call R (S fuel) (KFeed line) (mkR w t ac) = r_finish R rec line (r_attempt R rec r_no_builtin tg (mkR w0 t ac)).
Proof.
  intros Hr Hd Hsame. pose proof (recorded_same _ _ _ _ Hrec) as (Hroot & Hcur & _). destruct Hrec as (Hs & Hne & h & Hh & ->).
  cbn [run_call r_call]. rewrite (r_feed_spec R _ line (mkR w t ac) toks h Hs Hne Hh). f_equal.
  change (upd (set_hist h) (mkR w t ac)) with (mkR (set_hist h w) t ac). destruct Hr as [Hf|(Hn & Hf)].
  - rewrite (r_first R rec _ toks [global_menu] tg _ Hne Hf (Hd _)). rewrite (Hsame _ r_no_builtin). specialize (Hd r_no_builtin).
    destruct (r_attempt _ _ _ _ _) as [[] ?| | |]; try reflexivity. exfalso. eapply Hd. reflexivity.
  - rewrite (r_no_match R rec _ toks [global_menu] _ Hne Hn). cbn [x_bind]. unfold r_menus. cbn [r_w].
    rewrite (in_menu_locate (set_hist h w) ctx Hu Hm). rewrite (r_first R rec _ toks ctx tg _ Hne Hf (Hd _)). specialize (Hd r_no_builtin).
    destruct (r_attempt _ _ _ _ _) as [[] ?| | |]; try reflexivity. exfalso. eapply Hd. reflexivity.
Qed.
Lemma reent_run u pars args vs : resolves E ctx toks (TRun (HUser u) pars args) -> converts E pars args vs ->
  (forall what s, command_code R fuel u vs (mkR w0 t ac) <> RExc (XBadCast what) s) ->
  run_call R (S fuel) (KFeed line) (mkR w t ac) = reported R fuel line (command_code R fuel u vs (mkR w0 t ac)).
Proof.
  intros Hr Hc Hb.
  assert (Hl : length args = length pars).
  { destruct Hr as [(p & H & _)|(_ & p & H & _)]; apply reading_sized in H; exact H. }
  apply (convert_all_ok E) in Hc; [|exact Hl].
  assert (Ha : forall bi, r_attempt R rec bi (TRun (HUser u) pars args) (mkR w0 t ac) =
    match command_code R fuel u vs (mkR w0 t ac) with ROk _ s => XDone true s | RExc x s => XExc x s | RUB => XUB | RFuel => XFuel end).
  { intros bi. cbn [r_attempt]. rewrite Hc. unfold r_run_fn. change (r_call_user R rec u vs (mkR w0 t ac)) with (command_code R fuel u vs (mkR w0 t ac)).
    destruct (command_code R fuel u vs (mkR w0 t ac)) as [a s|[x|x|] s| |]; try reflexivity. exfalso. apply (Hb x s). reflexivity. }
  rewrite (feed_resolved _ Hr).
  - rewrite Ha. apply finish_reported.
  - intros bi s'. rewrite Ha. destruct (command_code _ _ _ _ _); discriminate.
  - intros bi bi'. rewrite !Ha. reflexivity.
Qed.
Lemma reent_free u args : resolves E ctx toks (TFree (HUser u) args) ->
  run_call R (S fuel) (KFeed line) (mkR w t ac) = reported R fuel line (command_code R fuel u [VList args] (mkR w0 t ac)).
Proof.
  intros Hr.
  assert (Ha : forall bi, r_attempt R rec bi (TFree (HUser u) args) (mkR w0 t ac) =
    match command_code R fuel u [VList args] (mkR w0 t ac) with ROk _ s => XDone true s | RExc x s => XExc x s | RUB => XUB | RFuel => XFuel end) by reflexivity.
  rewrite (feed_resolved _ Hr).
  - rewrite Ha. apply finish_reported.
  - intros bi s'. rewrite Ha. destruct (command_code _ _ _ _ _); discriminate.
  - intros bi bi'. rewrite !Ha. reflexivity.
Qed.
Lemma reent_goto id : resolves E ctx toks (TGoto id) -> run_call R (S fuel) (KFeed line) (mkR w t ac) = ROk None (mkR (set_cur id w0) t ac).
Proof. intros Hr. rewrite (feed_resolved _ Hr); [reflexivity| |]; intros; try discriminate; reflexivity. Qed.
Lemma reent_unresolved : unresolved E ctx toks ->
  run_call R (S fuel) (KFeed line) (mkR w t ac) =
  reported R fuel line (hook_code R fuel KWrong [line] (out (lit "wrong command: " ++ line ++ nl)) (mkR w0 t ac)).
Proof.
  intros (Hg & Hc). destruct Hrec as (Hs & Hne & h & Hh & ->).
  cbn [run_call r_call]. rewrite (r_feed_spec R _ line (mkR w t ac) toks h Hs Hne Hh).
  rewrite (r_no_match R rec _ toks [global_menu] _ Hne Hg). cbn [x_bind]. unfold r_menus. cbn [r_w upd].
  rewrite (in_menu_locate (set_hist h w) ctx Hu Hm). rewrite (r_no_match R rec _ toks ctx _ Hne Hc). cbn [x_bind].
  unfold r_wrong_command. rewrite hook_spec. change (upd (set_hist h) (mkR w t ac)) with (mkR (set_hist h w) t ac).
  rewrite <- finish_reported. destruct (hook_code _ _ _ _ _ _); reflexivity.
Qed.
Lemma reent_global c : global_call E toks c ->
  (forall what s, run_call R (S fuel) c (mkR w0 t ac) <> RExc (XBadCast what) s) ->
  run_call R (S fuel) (KFeed line) (mkR w t ac) = reported R fuel line (run_call R (S fuel) c (mkR w0 t ac)).
Proof.
  intros Hc Hb. destruct Hrec as (Hs & Hne & h & Hh & ->).
  assert (Hat : r_attempts R rec (r_builtin R rec) (choices toks [global_menu]) (mkR (set_hist h w) t ac) =
    match run_call R (S fuel) c (mkR (set_hist h w) t ac) with ROk _ s => XDone true s | RExc x s => XExc x s | RUB => XUB | RFuel => XFuel end).
  { assert (Hbc : forall r, (forall what s, r <> RExc (XBadCast what) s) ->
      x_bind (match r with ROk _ s' => XDone true s' | RExc (XBadCast _) s' => XDone false s' | RExc x s' => XExc x s' | RUB => XUB | RFuel => XFuel end) (XDone false) =
      match r with ROk _ s => XDone true s | RExc x s => XExc x s | RUB => XUB | RFuel => XFuel end).
    { intros r H. destruct r as [a s|[x|x|] s| |]; try reflexivity. exfalso. eapply H. reflexivity. }
    destruct Hc as [| | |a n Hc].
    - exact (Hbc _ Hb).
    - exact (Hbc _ Hb).
    - exact (Hbc _ Hb).
    - assert (Hch : choices [lit "!"; a] [global_menu] = [([3], TRun HBang [PInt UInt] [a])]) by reflexivity.
      rewrite Hch. cbn [r_attempts snd r_attempt convert_all]. rewrite Hc. cbn [cbind cmap]. exact (Hbc _ Hb). }
  change (run_call R (S fuel) (KFeed line) (mkR w t ac)) with (r_feed R rec line (mkR w t ac)).
  rewrite (r_feed_spec R _ line (mkR w t ac) toks h Hs Hne Hh).
  change (upd (set_hist h) (mkR w t ac)) with (mkR (set_hist h w) t ac). rewrite Hat.
  destruct (run_call R (S fuel) c (mkR (set_hist h w) t ac)) as [a s|[x|x|] s1| |]; try reflexivity; [exact (hook_spec _ _ _ s1)|exact (hook_spec _ _ _ s1)|destruct s1; reflexivity].
Qed.
End Feed.

Lemma feeding_run R fuel ls : forall s, run_prog (run_call R fuel) (feeding ls) s = r_feeds R fuel ls s.
Proof.
  induction ls as [|l ls IH]; intros s; [reflexivity|]. cbn [feeding run_prog r_feeds].
  destruct (run_call R fuel (KFeed l) s) as [a s'|x s'| |]; try reflexivity. apply IH.
Qed.


(** ** Fair user code never leads to undefined behaviour *)
Section Safe.
Context (R : renv) (D M : nat -> Prop) (size : nat).
Notation E := (re_env R).
Context (Hsz : size >= 1) (Hcode : fair_code R D M).

Definition keeps_menus (w : world) : Prop := forall id, M id -> In id (menu_ids (w_root w)).
Definition base (w : world) : Prop :=
  (sound w /\ guarded D w /\ user_tree (w_root w) /\ keeps_menus w) /\
  reachable size (w_hist w) /\ Forall (legible E) (h_buf (w_hist w)) /\ no_recalls E w.
Definition good (w : world) : Prop := base w /\ used w.
Notation safe := (r_safe E good).

Lemma good_log e w : good w -> good (log e w).
Proof. intros H. exact H. Qed.
Lemma good_op w o : tame_op D o -> good w -> good (apply_op w o).
Proof.
  intros Ho (((A & B & C & K) & F & G & I) & J). destruct (apply_op_same w o) as (_ & _ & _ & Hh & _).
  unfold good, base, no_recalls, used. rewrite Hh.
  split; [split; [split; [apply sound_op; exact A|split; [exact (guarded_op D w o (tame_guard D o Ho) B)|split; [eapply user_op; eassumption|]]]|]|exact J];
    [|split; [exact F|split; assumption]].
  - intros id Hid. pose proof (guarded_op D (set_cur id w) o (tame_guard D o Ho)) as Hg.
    assert (Hgi : guarded D (set_cur id w)) by (split; [apply (proj1 B)|apply live_spec; cbn; apply K; exact Hid]).
    apply Hg in Hgi as (_ & Hl). apply live_spec in Hl. destruct (apply_op_same (set_cur id w) o) as (_ & _ & Hc & _). rewrite Hc in Hl. cbn in Hl.
    assert (Hroot : w_root (apply_op (set_cur id w) o) = w_root (apply_op w o)).
    { destruct o; try reflexivity. cbn. destruct (relabel (w_next w) c). reflexivity. }
    rewrite Hroot in Hl. exact Hl.
Qed.
Lemma good_cur id w : good w -> In id (menu_ids (w_root w)) -> good (set_cur id w).
Proof.
  intros (((A & (B & _) & C & K) & F) & J) Hid. split; [split; [|exact F]|exact J].
  split; [exact A|]. split; [|split; assumption]. split; [exact B|]. apply live_spec. exact Hid.
Qed.
Lemma good_hist w h : good w -> reachable size h -> Forall (legible E) (h_buf h) -> (forall s, In s (h_buf h) -> ~ recall E s) -> hused h -> good (set_hist h w).
Proof. intros ((A & _) & _) H1 H2 H3 H4. split; [|exact H4]. split; [exact A|]. split; [exact H1|]. split; assumption. Qed.

Section Rec.
Context (rec : call -> rstate -> rres) (Hrec : forall c s, fair_call E M c -> good (r_w s) -> safe (rec c s)).
Lemma prog_safe p : fair E D M p -> forall s, good (r_w s) -> safe (run_prog rec p s).
Proof.
  intros Hp. induction Hp as [e He|o k Ho Hk IH|c k Hc Hk IH]; intros s Hs; cbn [run_prog].
  - destruct e as [|x]; cbn; [split; [exact Hs|exact Logic.I]|]. split; [exact Hs|]. apply He. reflexivity.
  - cbn zeta. apply IH. cbn. apply good_op; assumption.
  - pose proof (Hrec c s Hc Hs) as H. destruct (rec c s) as [a s'|x s'| |]; cbn in H; try tauto.
    + apply IH; [exact (proj2 H)|exact (proj1 H)].
    + apply IH; [exact (proj2 H)|exact (proj1 H)].
Qed.
Lemma hook_safe k args none s : good (r_w s) -> (forall s, good (r_w s) -> safe (none s)) -> safe (r_hook R rec k args none s).
Proof.
  intros H Hn. unfold r_hook. destruct (a_now _ _); [|apply Hn; exact H]. apply prog_safe; [apply Hcode|].
  apply (good_log _ (r_w s)). exact H.
Qed.
Lemma user_safe n args s : good (r_w s) -> safe (r_call_user R rec n args s).
Proof. intros H. apply prog_safe; [apply Hcode|]. apply good_log. exact H. Qed.
Lemma bind_safe r f : safe r -> (forall s, good (r_w s) -> safe (f s)) -> safe (r_bind r f).
Proof. intros H Hf. destruct r as [a s|x s| |]; cbn in *; auto. apply Hf, H. Qed.
Lemma exit_safe s : good (r_w s) -> safe (r_exit R rec s).
Proof.
  intros Hs. unfold r_exit. apply bind_safe.
  - apply hook_safe; [exact Hs|]. intros s1 H1. cbn. split; [exact H1|]. intros (what & H). discriminate H.
  - intros s1 H1. apply bind_safe; [apply hook_safe; [exact H1|intros s2 H2; split; [exact H2|exact Logic.I]]|]. intros s2 H2.
    assert (Hr : reachable size (w_hist (r_w s2))) by apply H2. destruct (reachable_inv size _ Hsz Hr) as (HI & _).
    rewrite (get_commands_spec _ HI). split; [exact H2|exact Logic.I].
Qed.
Lemma enter_safe s : good (r_w s) -> safe (r_enter R rec s).
Proof.
  intros Hs. unfold r_enter. apply bind_safe; [apply hook_safe; [exact Hs|intros s1 H1; split; [exact H1|exact Logic.I]]|]. intros s1 H1.
  apply hook_safe; [exact H1|intros s2 H2; split; [exact H2|exact Logic.I]].
Qed.
Lemma live_locate w : live w -> exists ctx, locate (w_cur w) [] (w_root w) = Some ctx.
Proof. intros H. apply live_spec in H. apply (menu_ids_locate _ []) in H. exact H. Qed.
Lemma help_safe s : good (r_w s) -> safe (r_help s).
Proof.
  intros Hs. unfold r_help, help_text. assert (Hl : live (r_w s)) by (destruct Hs as (((_ & (_ & H) & _) & _) & _); exact H).
  destruct (live_locate _ Hl) as (ctx & ->). split; [exact Hs|exact Logic.I].
Qed.
Lemma prompt_safe tty color force s : good (r_w s) -> safe (match prompt tty color force (r_w s) with None => RUB | Some (t, _) => ROk None (upd (out t) s) end).
Proof.
  intros Hs. assert (Hl : live (r_w s)) by (destruct Hs as (((_ & (_ & H) & _) & _) & _); exact H). assert (Hu : unique_ids (w_root (r_w s))) by (destruct Hs as ((((H & _) & _) & _) & _); exact H).
  destruct (w_exit (r_w s)) eqn:Ex; [rewrite (prompt_exited _ _ _ _ Ex); split; [exact Hs|exact Logic.I]|].
  destruct Hl as (ctx & Hm). destruct ctx as [|m anc]; [destruct Hm as (_ & m & anc & H & _); discriminate|].
  destruct (prompt_bytes tty color force _ m anc Hu Hm Ex) as (p & f & _ & ->). split; [exact Hs|exact Logic.I].
Qed.
Lemma show_safe s : good (r_w s) -> safe (r_show s).
Proof.
  intros Hs. unfold r_show. assert (Hr : reachable size (w_hist (r_w s))) by apply Hs. destruct (reachable_inv size _ Hsz Hr) as (HI & _).
  rewrite (show_spec _ (inv_oldest _ HI)). split; [exact Hs|exact Logic.I].
Qed.

(** Attempts: [XDone false] leaves the state alone. *)
Definition x_safe (s : rstate) (r : xres) : Prop :=
  match r with
  | XDone true s' => good (r_w s')
  | XDone false s' => s' = s
  | XExc x s' => good (r_w s') /\ ~ bad_cast x
  | XUB => False
  | XFuel => True
  end.
Lemma run_x_safe s r : safe r ->
  x_safe s (match r with ROk _ s' => XDone true s' | RExc x s' => XExc x s' | RUB => XUB | RFuel => XFuel end).
Proof. destruct r; cbn; tauto. Qed.
Lemma fn_safe s (h : hid) (r : rres) : safe r -> x_safe s
  match r with
  | ROk _ s' => XDone true s'
  | RExc (XBadCast _) s' => match h with HUser _ => if Nat.eqb (r_touched s) (r_touched s') then XDone false s' else XUB | _ => XDone false s' end
  | RExc x s' => XExc x s'
  | RUB => XUB
  | RFuel => XFuel
  end.
Proof.
  intros H. destruct r as [a s'|[x|x|] s'| |]; cbn in *; try tauto. exfalso. apply (proj2 H). exists x. reflexivity.
Qed.
Lemma user_attempt_ok ctx toks p t s : good (r_w s) -> chain (w_root (r_w s)) ctx -> reading ctx toks p t ->
  Forall (readable (e_plat E)) toks -> x_safe s (r_attempt R rec r_no_builtin t s).
Proof.
  intros Hs Hc Hr Ht.
  assert (Hu : user_target t).
  { eapply reading_user; [exact Hr|]. apply Forall_forall. intros m Hm. eapply chain_user; [apply Hs|exact Hc|exact Hm]. }
  assert (Ha : Forall (readable (e_plat E)) (target_args t)).
  { apply reading_args in Hr. apply Forall_forall. intros x Hx. rewrite Forall_forall in Ht. apply Ht. apply Hr. exact Hx. }
  destruct t as [h pars args|h args|id]; cbn [r_attempt target_args] in *.
  - pose proof (convert_all_defined E (proj1 Hcode) pars args Ha) as Hd.
    destruct (convert_all E pars args) as [vs| |]; [|reflexivity|congruence]. destruct Hu as (n & ->).
    apply (fn_safe s (HUser n)), user_safe, Hs.
  - destruct Hu as (n & ->). apply run_x_safe, user_safe, Hs.
  - cbn. apply good_cur; [exact Hs|]. destruct (reading_goto _ _ _ _ _ Hr Hc) as (ctx' & m & anc & Hc' & -> & Hid).
    apply chain_menu_ids. eauto.
Qed.
Lemma attempts_ok bi s l : (forall p t, In (p, t) l -> x_safe s (r_attempt R rec bi t s)) -> x_safe s (r_attempts R rec bi l s).
Proof.
  induction l as [|(p, t) l IH]; intros Hl; cbn [r_attempts snd]; [reflexivity|].
  pose proof (Hl p t (or_introl eq_refl)) as H. destruct (r_attempt R rec bi t s) as [[] s'|x s'| |]; cbn in H |- *; try exact H.
  subst s'. apply IH. intros p' t' Hin. apply (Hl p'). right. exact Hin.
Qed.
Definition d_safe (r : xres) : Prop :=
  match r with XDone _ s' => good (r_w s') | XExc x s' => good (r_w s') /\ ~ bad_cast x | XUB => False | XFuel => True end.
Lemma menus_ok toks line s : toks <> [] -> Forall (readable (e_plat E)) toks -> good (r_w s) -> d_safe (r_menus R rec toks line s).
Proof.
  intros Hne Ht Hs. unfold r_menus. assert (Hl : live (r_w s)) by (destruct Hs as (((_ & (_ & H) & _) & _) & _); exact H).
  destruct (live_locate _ Hl) as (ctx & Hloc). rewrite Hloc. apply locate_in_menu in Hloc as (Hc & _).
  assert (Hx : x_safe s (r_attempts R rec r_no_builtin (choices toks ctx) s)).
  { apply attempts_ok. intros p t Hin. apply in_choices in Hin; [|exact Hne]. eapply user_attempt_ok; eassumption. }
  destruct (r_attempts R rec r_no_builtin (choices toks ctx) s) as [[] s'|x s'| |]; cbn in Hx |- *; try exact Hx.
  subst s'. unfold r_wrong_command.
  match goal with |- d_safe (x_of (r_hook R rec KWrong [line] ?n s)) => pose proof (hook_safe KWrong [line] n s Hs) as H end.
  specialize (H ltac:(intros s1 H1; split; [exact H1|exact Logic.I])). destruct (r_hook _ _ _ _ _ _); cbn in *; tauto.
Qed.
Lemma finish_safe line r : d_safe r -> safe (r_finish R rec line r).
Proof.
  intros H. destruct r as [b s|x s| |]; cbn [r_finish d_safe] in *; try exact H; [split; [exact H|exact Logic.I]|].
  assert (Hstd : forall what, safe (r_std_exception R rec line what s)).
  { intros what. unfold r_std_exception. apply hook_safe; [apply H|]. intros s1 H1. split; [exact H1|exact Logic.I]. }
  destruct x; try apply Hstd. split; [apply H|exact Logic.I].
Qed.
(** A line that recalls nothing. *)
Lemma feed_once_safe line s : legible E line -> ~ recall E line -> base (r_w s) ->
  match split line with Some [] => r_feed R rec line s = ROk None s | _ => safe (r_feed R rec line s) end.
Proof.
  intros Hl Hn Hb. destruct (split_safe line) as (toks & Hs & _). rewrite Hs. destruct toks as [|t toks]; [unfold r_feed; rewrite Hs; reflexivity|].
  destruct Hb as (A & Hr & F & G). destruct (reachable_inv size _ Hsz Hr) as (I & Mx).
  destruct (new_command_inv (w_hist (r_w s)) line I ltac:(lia)) as (h & Hh & _).
  rewrite (r_feed_spec R _ line s _ h Hs ltac:(discriminate) Hh). apply finish_safe.
  assert (Hrd : Forall (readable (e_plat E)) (t :: toks)) by (eapply legible_words; eassumption).
  assert (Hg : good (r_w (upd (set_hist h) s))).
  { split; [split; [exact A|]|].
    - cbn. split; [eapply (reachable_step size (w_hist (r_w s)) (ONew line)); [exact Hr|exact Hh]|]. split.
      + apply Forall_forall. intros x Hin. destruct (new_command_in _ _ _ _ Hh Hin) as [->|Hi]; [exact Hl|].
        rewrite Forall_forall in F. auto.
      + intros x Hin. destruct (new_command_in _ _ _ _ Hh Hin) as [->|Hi]; [exact Hn|]. apply G. exact Hi.
    - left. cbn. eapply new_used; eassumption. }
  assert (Hx : x_safe (upd (set_hist h) s) (r_attempts R rec (r_builtin R rec) (choices (t :: toks) [global_menu]) (upd (set_hist h) s))).
  { apply attempts_ok. intros p tg Hin. apply in_choices in Hin; [|discriminate].
    apply global_readings in Hin as [(_ & _ & ->)|[(_ & _ & ->)|[(_ & _ & ->)|(a & Ht & _ & ->)]]]; cbn [r_attempt convert_all].
    - apply (fn_safe _ HHelp), help_safe, Hg.
    - apply (fn_safe _ HExit), exit_safe, Hg.
    - apply (fn_safe _ HHistory), show_safe, Hg.
    - assert (Hra : readable (e_plat E) a) by (rewrite Forall_forall in Hrd; apply Hrd; rewrite Ht; right; left; reflexivity).
      pose proof (convert_defined E (PInt UInt) a (proj1 Hcode) Hra) as Hd.
      destruct (convert E (PInt UInt) a) as [v| |] eqn:Hv; cbn [cbind cmap]; [|reflexivity|congruence].
      destruct (convert_uint _ _ _ Hv) as (n & ->). exfalso. apply Hn. exists a, n. split; [rewrite Hs, Ht; reflexivity|exact Hv]. }
  destruct (r_attempts _ _ _ _ _) as [[] s'|x s'| |]; cbn in Hx |- *; try exact Hx.
  subst s'. apply menus_ok; [discriminate|exact Hrd|exact Hg].
Qed.
(** A recall. *)
Lemma feed_recall_safe line s : recall E line -> good (r_w s) -> safe (r_feed R rec line s).
Proof.
  intros (a & n & Hs & Hc) ((A & Hr & F & G) & Hu).
  destruct (record_forget size (w_hist (r_w s)) line Hsz Hr) as (h1 & h2 & id & E1 & E2 & Hv & Hr2).
  assert (Hnin : ~ In line (h_buf (w_hist (r_w s)))).
  { intros Hin. apply (G line Hin). exists a, n. auto. }
  destruct (bang_next size (w_hist (r_w s)) line h1 h2 Hsz Hr Hnin Hu E1 E2) as (Hnx & Hb2).
  assert (Hg : good (r_w (upd (set_hist h2) s))).
  { apply (good_hist (r_w s) h2); [split; [split; [exact A|split; [exact Hr|split; assumption]]|exact Hu]|exact Hr2| | |].
    - apply Forall_forall. intros x Hin. rewrite Forall_forall in F. apply F. eapply bang_in; eassumption.
    - intros x Hin. apply G. eapply bang_in; eassumption.
    - apply next_used; assumption. }
  rewrite (r_feed_spec R _ line s _ h1 Hs ltac:(discriminate) E1). apply finish_safe.
  assert (Hch : choices [lit "!"; a] [global_menu] = [([3], TRun HBang [PInt UInt] [a])]) by reflexivity.
  rewrite Hch. cbn [r_attempts snd r_attempt convert_all]. rewrite Hc. cbn [cbind cmap]. rewrite x_bind_ret.
  assert (Hb : safe (r_builtin R rec HBang [VInt n] (upd (set_hist h1) s))).
  { cbn [r_builtin]. unfold r_from_history. cbn [upd r_w set_hist w_hist]. rewrite E2.
    change (upd (set_hist h2) (upd (set_hist h1) s)) with (upd (set_hist h2) s).
    destruct (reachable_inv size h2 Hsz Hr2) as (I2 & _).
    destruct (at_id h2 n) as [l| |] eqn:Hat.
    - apply Hrec; [|exact Hg]. cbn. apply at_id_in in Hat. destruct Hg as ((_ & _ & F' & _) & _). cbn in F'. rewrite Forall_forall in F'. auto.
    - split; [exact Hg|]. intros (what & H). discriminate H.
    - exfalso. destruct (id_dec n (view h2)) as [(x & Hin)|Hno].
      + rewrite (at_id_found h2 n x (inv_oldest h2 I2) Hin) in Hat. discriminate.
      + rewrite (at_id_missing h2 n (uint_nonneg _ _ _ Hc) (inv_oldest h2 I2) Hnx Hno) in Hat. discriminate. }
  pose proof (fn_safe (upd (set_hist h1) s) HBang _ Hb) as Hx. unfold r_run_fn.
  destruct (r_builtin R rec HBang [VInt n] (upd (set_hist h1) s)) as [b s'|[x|x|] s'| |]; cbn in Hb |- *; try tauto.
  exfalso. apply (proj2 Hb). exists x. reflexivity.
Qed.
Lemma call_safe c s : fair_call E M c -> good (r_w s) -> safe (r_call R rec c s).
Proof.
  intros Hc Hs. destruct c as [line| | | | |n|id|line| |k a|tty color force]; cbn [r_call fair_call] in *.
  - destruct (recall_dec E line) as [Hrc|Hn]; [apply feed_recall_safe; assumption|].
    pose proof (feed_once_safe line s Hc Hn (proj1 Hs)) as H. destruct (split line) as [[|t toks]|]; try exact H.
    rewrite H. split; [exact Hs|exact Logic.I].
  - apply exit_safe, Hs.
  - apply enter_safe, Hs.
  - apply help_safe, Hs.
  - apply show_safe, Hs.
  - destruct Hc.
  - split; [|exact Logic.I]. cbn. apply good_cur; [exact Hs|]. apply Hs. exact Hc.
  - assert (Hr : reachable size (w_hist (r_w s))) by apply Hs. destruct (reachable_inv size _ Hsz Hr) as (I & Mx).
    destruct (previous_inv (w_hist (r_w s)) line I (eq_ind_r (fun n => n >= 1) Hsz Mx)) as (h & t & Hp & _).
    unfold previous_cmd. rewrite Hp. destruct Hc as (Hl & Hn). destruct Hs as ((A & _ & F & G) & Hu).
    destruct (previous_all (legible E) _ _ _ _ F Hl Hp) as (F1 & F2).
    destruct (previous_all (fun x => ~ recall E x) (w_hist (r_w s)) line t h) as (_ & G2); [apply Forall_forall; exact G|exact Hn|exact Hp|].
    split; [|exact F1]. cbn. apply good_hist; [split; [split; [exact A|split; [exact Hr|split; assumption]]|exact Hu]| |exact F2|apply Forall_forall; exact G2|].
    + eapply (reachable_step size (w_hist (r_w s)) (OUp line)); [exact Hr|]. cbn. rewrite Hp. reflexivity.
    + eapply used_previous; [exact Hsz|exact Hr|exact Hp|exact Hu].
  - assert (Hr : reachable size (w_hist (r_w s))) by apply Hs. destruct (reachable_inv size _ Hsz Hr) as (I & Mx).
    destruct (next_inv (w_hist (r_w s)) I) as (h & t & Hp & _).
    unfold next_cmd. rewrite Hp. destruct Hs as ((A & _ & F & G) & Hu).
    destruct (next_all (legible E) _ _ _ F (or_intror (Forall_nil _)) Hp) as (F1 & F2).
    assert (G2 : Forall (fun x => ~ recall E x) (h_buf h)).
    { destruct (next_inv (w_hist (r_w s)) I) as (h' & t' & Hp' & _ & _ & Hb & _). rewrite Hp in Hp'. injection Hp' as <- <-. rewrite Hb. apply Forall_forall. exact G. }
    split; [|exact F1]. cbn. apply good_hist; [split; [split; [exact A|split; [exact Hr|split; assumption]]|exact Hu]| |exact F2|apply Forall_forall; exact G2|].
    + eapply (reachable_step size (w_hist (r_w s)) ODown); [exact Hr|]. cbn. rewrite Hp. reflexivity.
    + eapply used_next; [exact Hsz|exact Hr|exact Hp|exact Hu].
  - split; [exact Hs|exact Logic.I].
  - apply prompt_safe, Hs.
Qed.
End Rec.
Lemma run_safe fuel : forall c s, fair_call E M c -> good (r_w s) -> safe (run_call R fuel c s).
Proof. induction fuel as [|n IH]; intros c s Hc Hs; [exact Logic.I|]. cbn [run_call]. apply call_safe; assumption. Qed.

Lemma base_iff w : base w <-> healthy E D size w /\ have M w.
Proof.
  unfold base, healthy, have, keeps_menus. rewrite <- removable_guarded.
  assert (H : (forall id, M id -> In id (menu_ids (w_root w))) <-> forall id, M id -> exists m anc, chain (w_root w) (m :: anc) /\ cmd_id m = id).
  { split; intros H id Hid; [apply chain_menu_ids|apply chain_menu_ids]; auto. }
  rewrite H. tauto.
Qed.
Lemma safe_impl (P Q : world -> Prop) r : (forall w, P w -> Q w) -> r_safe E P r -> r_safe E Q r.
Proof. intros H. destruct r; cbn; intuition. Qed.
Lemma reent_safe fuel c s : fair_call E M c -> healthy E D size (r_w s) -> have M (r_w s) ->
  used (r_w s) \/ (exists line, c = KFeed line /\ ~ recall E line) ->
  r_safe E (fun w => healthy E D size w /\ have M w /\ (used (r_w s) -> used w)) (run_call R fuel c s).
Proof.
  intros Hc Hh Hm Hu.
  assert (Hb : base (r_w s)) by (apply base_iff; auto).
  assert (Himp : forall w, good w -> healthy E D size w /\ have M w /\ (used (r_w s) -> used w)).
  { intros w (H & H'). apply base_iff in H. tauto. }
  destruct Hu as [Hu|(line & -> & Hn)].
  - apply (safe_impl good); [exact Himp|]. apply run_safe; [exact Hc|]. split; assumption.
  - destruct fuel as [|n]; [exact Logic.I|]. cbn [run_call r_call].
    pose proof (feed_once_safe (run_call R n) (run_safe n) line s Hc Hn Hb) as H.
    destruct (split line) as [[|t toks]|]; try (apply (safe_impl good); [exact Himp|exact H]).
    rewrite H. cbn. tauto.
Qed.
End Safe.

Theorem prompt_called R fuel tty color force w t ac m anc : unique_ids (w_root w) -> in_menu w (m :: anc) ->
  exists p text, menu_prompt m = Some p /\ run_call R (S fuel) (KPrompt tty color force) (mkR w t ac) = ROk None (mkR (log (EvOut (w_sid w) text) w) t ac) /\
    text = if w_exit w then [] else (if color then sgr 32 ++ sgr 1 else []) ++ p ++ (if force || color || tty then sgr 0 else []) ++ lit "> ".
Proof.
  intros Hu Hm. cbn [run_call r_call r_w]. destruct (w_exit w) eqn:Ex.
  - assert (Hmm : is_menu m) by (destruct Hm as (Hc & _); inversion Hc; subst; assumption). destruct Hmm as (i & n & e & d & p & k & ->).
    exists p, []. split; [reflexivity|]. rewrite (prompt_exited _ _ _ _ Ex). split; reflexivity.
  - destruct (prompt_bytes tty color force w m anc Hu Hm Ex) as (p & f & Hp & ->). exists p. eexists. split; [exact Hp|]. split; reflexivity.
Qed.
