(** * Proofs about file sessions (C38) *)

From Verif Require Import Base SplitModel FromStringModel HistoryModel HistorySpec HistoryProofs TerminalModel MenuModel SessionModel
  ResolveSpec ResolveProofs SessionSpec TreeProofs SessionProofs InvariantProofs FeatureProofs FileModel FileSpec.
Open Scope nat_scope.
Open Scope list_scope.

(** ** Lines of a text *)
Lemma upto_nl_line l r : ~ In "010"%char l -> upto_nl (l ++ nl ++ r) = Some (l, r).
Proof.
  induction l as [|c l IH]; intros H; [reflexivity|]. cbn [app upto_nl].
  destruct (Ascii.eqb_spec c "010") as [->|Hc]; [exfalso; apply H; left; reflexivity|].
  rewrite IH; [reflexivity|]. intros Hx. apply H. right. exact Hx.
Qed.
Lemma upto_nl_none r : ~ In "010"%char r -> upto_nl r = None.
Proof.
  induction r as [|c r IH]; intros H; [reflexivity|]. cbn [upto_nl].
  destruct (Ascii.eqb_spec c "010") as [->|Hc]; [exfalso; apply H; left; reflexivity|].
  rewrite IH; [reflexivity|]. intros Hx. apply H. right. exact Hx.
Qed.
(** Every text has lines. *)
Lemma lines_exist text : exists ls rest, lines_of text ls rest.
Proof.
  induction text as [|c t (ls & rest & -> & H1 & H2)]; [exists [], []; split; [reflexivity|split; [constructor|intros []]]|].
  destruct (Ascii.eqb_spec c "010") as [->|Hc].
  - exists ([] :: ls), rest. split; [reflexivity|]. split; [constructor; [intros []|exact H1]|exact H2].
  - destruct ls as [|l ls].
    + exists [], (c :: rest). split; [reflexivity|]. split; [constructor|]. intros [Hx|Hx]; [congruence|auto].
    + inversion H1; subst. exists ((c :: l) :: ls), rest. split; [reflexivity|]. split; [|exact H2].
      constructor; [|assumption]. intros [Hx|Hx]; [congruence|auto].
Qed.

(** ** How often exit actions are called *)
Lemma hooked_app k sid a b : hooked k sid (a ++ b) = hooked k sid a + hooked k sid b.
Proof. unfold hooked. rewrite filter_app, app_length. reflexivity. Qed.

Section Count.
Context (E : env) (Hses : e_has E KSesExit = true)
  (Hret : forall sid args tr, ur_end (e_hook E sid KSesExit args tr) = UReturn).

Definition both (n : nat) : nat := if e_has E KCliExit then n else 0.
Definition bumps (n : nat) (w w' : world) : Prop :=
  w_sid w' = w_sid w /\ exists evs, w_trace w' = w_trace w ++ evs /\
    hooked KSesExit (w_sid w) evs = n /\ hooked KCliExit (w_sid w) evs = both n.
Lemma both_0 : both 0 = 0.
Proof. unfold both. destruct (e_has E KCliExit); reflexivity. Qed.
Lemma both_add n m : both (n + m) = both n + both m.
Proof. unfold both. destruct (e_has E KCliExit); reflexivity. Qed.
Lemma bumps_refl w : bumps 0 w w.
Proof. split; [reflexivity|]. exists []. rewrite app_nil_r, both_0. auto. Qed.
Lemma bumps_trans n m a b c : bumps n a b -> bumps m b c -> bumps (n + m) a c.
Proof.
  intros (S1 & e1 & T1 & A1 & B1) (S2 & e2 & T2 & A2 & B2). split; [congruence|]. exists (e1 ++ e2).
  rewrite T2, T1, app_assoc, !hooked_app, both_add. rewrite S1 in A2, B2. repeat split; congruence.
Qed.
Lemma bumps_log e w : (forall i k a, e = EvHook i k a -> k <> KSesExit /\ k <> KCliExit) -> bumps 0 w (log e w).
Proof.
  intros H. split; [reflexivity|]. exists [e]. rewrite both_0. split; [reflexivity|].
  destruct e as [| | |i k a| |]; try (split; reflexivity). specialize (H i k a eq_refl). unfold hooked. cbn.
  destruct (Nat.eqb i (w_sid w)), k; try (split; reflexivity); destruct H; congruence.
Qed.
Lemma bumps_same w w' : w_sid w' = w_sid w -> w_trace w' = w_trace w -> bumps 0 w w'.
Proof. intros H1 H2. split; [exact H1|]. exists []. rewrite app_nil_r, both_0. auto. Qed.
Lemma bumps_out s w : bumps 0 w (out s w).
Proof. apply bumps_log. discriminate. Qed.
Lemma bumps_op w o : bumps 0 w (apply_op w o).
Proof.
  destruct o as [s|s|id|id|id|pid c]; cbn [apply_op]; try (apply bumps_log; discriminate); try (apply bumps_same; reflexivity).
  destruct (relabel (w_next w) c) as (c', n). apply (bumps_trans 0 0 _ (set_root (insert_cmd pid c' (w_root w)) n w)).
  - apply bumps_same; reflexivity.
  - apply bumps_log. discriminate.
Qed.
Lemma bumps_ops os w : bumps 0 w (apply_ops os w).
Proof.
  apply (apply_ops_ind (bumps 0 w)); [apply bumps_refl|]. intros w' o _ H. apply (bumps_trans 0 0 _ w'); [exact H|apply bumps_op].
Qed.

Definition h_bumps (n : nat) (w : world) (r : hres) : Prop := match r with HOk w' | HExc _ w' => bumps n w w' | _ => True end.
Definition e_bumps (P : nat -> Prop) (w : world) (r : eres) : Prop :=
  match r with EDone _ w' | EExc _ w' => exists n, P n /\ bumps n w w' | _ => True end.
Definition f_bumps (P : nat -> Prop) (w : world) (r : fres) : Prop :=
  match r with FOk w' | FExc _ w' => exists n, P n /\ bumps n w w' | _ => True end.

Lemma hook_bumps k args w : k <> KSesExit -> k <> KCliExit -> h_bumps 0 w (run_hook E k args w).
Proof.
  intros H1 H2. rewrite hook_spec. cbn zeta.
  match goal with |- context[apply_ops ?os ?w1] => assert (H : bumps 0 w (apply_ops os w1)) end.
  { apply (bumps_trans 0 0 _ (log (EvHook (w_sid w) k args) w)); [|apply bumps_ops]. apply bumps_log. intros i k' a He. injection He as _ <- _. auto. }
  dend; exact H.
Qed.
Lemma exit_hook_same k args w : match run_hook E k args w with
  HOk w' | HExc _ w' => w_sid w' = w_sid w /\ exists evs, w_trace w' = w_trace w ++ EvHook (w_sid w) k args :: evs /\
     hooked KSesExit (w_sid w) evs = 0 /\ hooked KCliExit (w_sid w) evs = 0 | _ => True end.
Proof.
  rewrite hook_spec. cbn zeta.
  match goal with |- context[apply_ops ?os ?w1] => pose proof (bumps_ops os w1) as (H1 & evs & H2 & H3 & H4) end.
  rewrite both_0 in H4.
  dend; (split; [exact H1|]; exists evs; split; [rewrite H2; cbn; rewrite <- app_assoc; reflexivity|auto]).
Qed.
Lemma hooked_here sid args evs :
  hooked KSesExit sid (EvHook sid KSesExit args :: evs) = S (hooked KSesExit sid evs) /\
  hooked KSesExit sid (EvHook sid KCliExit args :: evs) = hooked KSesExit sid evs /\
  hooked KCliExit sid (EvHook sid KSesExit args :: evs) = hooked KCliExit sid evs /\
  hooked KCliExit sid (EvHook sid KCliExit args :: evs) = S (hooked KCliExit sid evs).
Proof. unfold hooked. cbn [filter]. rewrite Nat.eqb_refl. repeat split; reflexivity. Qed.
Ltac hcount := rewrite ?(proj1 (hooked_here _ _ _)), ?(proj1 (proj2 (hooked_here _ _ _))),
  ?(proj1 (proj2 (proj2 (hooked_here _ _ _)))), ?(proj2 (proj2 (proj2 (hooked_here _ _ _)))).

Lemma exit_bumps w : h_bumps 1 w (session_exit E w).
Proof.
  unfold session_exit. rewrite Hses. pose proof (exit_hook_same KSesExit [] w) as H1.
  assert (Hok : exists w1, run_hook E KSesExit [] w = HOk w1).
  { rewrite hook_spec. cbn zeta. rewrite Hret. eauto. }
  destruct Hok as (w1 & Hok). rewrite Hok in H1 |- *. cbn [h_bind]. destruct H1 as (S1 & e1 & T1 & A1 & B1).
  destruct (e_has E KCliExit) eqn:Hc.
  - pose proof (exit_hook_same KCliExit [] w1) as H2.
    assert (H : forall w2, w_sid w2 = w_sid w1 /\ (exists evs, w_trace w2 = w_trace w1 ++ EvHook (w_sid w1) KCliExit [] :: evs /\
      hooked KSesExit (w_sid w1) evs = 0 /\ hooked KCliExit (w_sid w1) evs = 0) -> bumps 1 w w2).
    { intros w2 (S2 & e2 & T2 & A2 & B2). split; [congruence|]. exists ((EvHook (w_sid w) KSesExit [] :: e1) ++ EvHook (w_sid w1) KCliExit [] :: e2).
      split; [rewrite T2, T1; rewrite <- app_assoc; reflexivity|]. rewrite S1 in *. rewrite !hooked_app. hcount. unfold both. rewrite Hc. lia. }
    destruct (run_hook E KCliExit [] w1) as [w2|x w2| |]; cbn [h_bind]; try exact Logic.I; [|apply H, H2].
    destruct (get_commands (w_hist w2)); [|exact Logic.I]. apply H in H2. exact H2.
  - cbn [h_bind]. destruct (get_commands (w_hist w1)); [|exact Logic.I]. cbn [h_bumps]. split; [exact S1|].
    exists (EvHook (w_sid w) KSesExit [] :: e1). split; [exact T1|]. hcount. unfold both. rewrite Hc. lia.
Qed.

Lemma user_bumps t w : e_bumps (eq 0) w (attempt E no_builtin t w).
Proof.
  assert (Hcall : forall u vs, bumps 0 w (snd (call_user E u vs w))).
  { intros u vs. cbn [call_user snd]. apply (bumps_trans 0 0 _ (log (EvCall (w_sid w) u vs) w)); [apply bumps_log; discriminate|apply bumps_ops]. }
  destruct t as [h pars args|h args|id]; cbn [attempt].
  - destruct (convert_all E pars args) as [vs| |]; [|exists 0; split; [reflexivity|apply bumps_refl]|exact Logic.I].
    destruct h as [u| | | |]; cbn [run_fn no_builtin]; try exact Logic.I.
    pose proof (Hcall u vs) as Hc. destruct (call_user E u vs w) as (r, w'). cbn [snd] in Hc.
    destruct (ur_end r) as [|[s|s|]]; cbn; eauto. destruct (existsb is_tree_op (ur_ops r)); [exact Logic.I|]. cbn. eauto.
  - destruct h as [u| | | |]; cbn [run_free]; try exact Logic.I.
    pose proof (Hcall u [VList args]) as Hc. destruct (call_user E u [VList args] w) as (r, w'). cbn [snd] in Hc. destruct (ur_end r); cbn; eauto.
  - cbn. exists 0. split; [reflexivity|]. apply bumps_same; reflexivity.
Qed.
Lemma e_bind_bumps (P Q T : nat -> Prop) w r f : e_bumps P w r -> (forall w', e_bumps Q w' (f w')) ->
  (forall n, P n -> T n) -> (forall n m, P n -> Q m -> T (n + m)) -> e_bumps T w (e_bind r f).
Proof.
  intros Hr Hf H1 H2. destruct r as [[] w'|x w'| |]; cbn in *; auto; try (destruct Hr as (n & Hn & Hr); eauto).
  specialize (Hf w'). destruct (f w') as [b w2|x w2| |]; cbn in *; auto; destruct Hf as (m & Hm & Hf); exists (n + m); split; auto; eapply bumps_trans; eassumption.
Qed.
Lemma users_bumps l : forall w, e_bumps (eq 0) w (attempts E no_builtin l w).
Proof.
  induction l as [|x l IH]; intros w; cbn [attempts]; [exists 0; split; [reflexivity|apply bumps_refl]|].
  eapply e_bind_bumps; [apply user_bumps|exact IH|auto|]. intros n m <- <-. reflexivity.
Qed.

Lemma global_choices toks : toks <> [] -> choices toks [global_menu] = [] \/ exists p t, choices toks [global_menu] = [(p, t)].
Proof.
  intros Hne.
  assert (Hnil : (forall p t, ~ reading [global_menu] toks p t) -> choices toks [global_menu] = []).
  { intros H. destruct (choices toks [global_menu]) as [|(p, g) l] eqn:Hc; [reflexivity|]. exfalso. apply (H p g), in_choices; [exact Hne|].
    rewrite Hc. left. reflexivity. }
  destruct toks as [|t [|a [|b toks]]]; [congruence| | |].
  - destruct (str_eqb_spec t (lit "help")) as [->|H1]; [right; do 2 eexists; reflexivity|].
    destruct (str_eqb_spec t (lit "exit")) as [->|H2]; [right; do 2 eexists; reflexivity|].
    destruct (str_eqb_spec t (lit "history")) as [->|H3]; [right; do 2 eexists; reflexivity|].
    left. apply Hnil. intros p g H. apply global_readings in H as [(H & _)|[(H & _)|[(H & _)|(a & H & _)]]]; congruence.
  - destruct (str_eqb_spec t (lit "!")) as [->|H1]; [right; do 2 eexists; reflexivity|].
    left. apply Hnil. intros p g H. apply global_readings in H as [(H & _)|[(H & _)|[(H & _)|(c & H & _)]]]; congruence.
  - left. apply Hnil. intros p g H. apply global_readings in H as [(H & _)|[(H & _)|[(H & _)|(c & H & _)]]]; congruence.
Qed.
Lemma report_bumps line x w : f_bumps (eq 0) w (report E line x w).
Proof.
  unfold report. destruct x as [s|s|]; try (exists 0; split; [reflexivity|apply bumps_out]);
   (destruct (e_has E KExcept); [|exists 0; split; [reflexivity|apply bumps_out]]; cbn zeta;
    match goal with |- context[apply_ops ?o ?w1] => assert (H : bumps 0 w (apply_ops o w1))
      by (apply (bumps_trans 0 0 _ w1); [apply bumps_log; intros i k a He; injection He as _ <- _; split; discriminate|apply bumps_ops]) end;
    dend; exists 0; auto).
Qed.

Lemma feed_bumps fuel : forall line w, f_bumps (fun n => n <= 1) w (feed E fuel line w).
Proof.
  induction fuel as [|fuel IH]; intros line w; [exact Logic.I|]. cbn [feed].
  destruct (split line) as [[|t toks]|] eqn:Hs.
  1,3: unfold feed_body; rewrite Hs; first [exact Logic.I|exists 0; split; [lia|apply bumps_refl]].
  destruct (new_command (w_hist w) line) as [h|] eqn:Hh; [|unfold feed_body; rewrite Hs, Hh; exact Logic.I].
  rewrite (feed_body_spec E _ line w (t :: toks) (set_hist h w)) by (split; [exact Hs|split; [discriminate|eauto]]).
  assert (Hset : forall w h, bumps 0 w (set_hist h w)) by (intros; apply bumps_same; reflexivity).
  assert (Hg : e_bumps (fun n => n <= 1) (set_hist h w) (dispatch E (builtin E (feed E fuel)) (t :: toks) line (set_hist h w))).
  { unfold dispatch. rewrite scan_attempts by discriminate.
    eapply (e_bind_bumps (fun n => n <= 1) (eq 0)); [| |auto|intros n m Hn <-; lia].
    - assert (Ha : forall t w, e_bumps (fun n => n <= 1) w (attempt E (builtin E (feed E fuel)) t w)).
      { clear t Hs. intros t w1.
        assert (Hu : forall r, e_bumps (eq 0) w1 r -> e_bumps (fun n => n <= 1) w1 r).
        { intros [b w2|x w2| |]; cbn; auto; intros (n & <- & Hn); exists 0; split; auto. }
        destruct t as [hd pars args|hd args|id]; [|apply Hu, (user_bumps (TFree hd args))|apply Hu, (user_bumps (TGoto id))].
        cbn [attempt]. destruct (convert_all E pars args) as [vs| |] eqn:Hc; [|exists 0; split; [lia|apply bumps_refl]|exact Logic.I].
        destruct hd as [u| | | |].
        - apply Hu. pose proof (user_bumps (TRun (HUser u) pars args) w1) as Hub. cbn [attempt] in Hub. rewrite Hc in Hub. exact Hub.
        - cbn. destruct (help_text w1); [|exact Logic.I]. exists 0. split; [lia|apply bumps_out].
        - cbn. pose proof (exit_bumps w1) as He. destruct (session_exit E w1) as [w2|[s|s|] w2| |]; cbn in *; auto; exists 1; auto.
        - cbn. destruct (show (w_hist w1)); cbn; exists 0; (split; [lia|]); [apply bumps_out|apply bumps_refl].
        - cbn [run_fn builtin]. destruct vs as [|[n| | | | | |] [|]]; try exact Logic.I.
          destruct (forget_latest (w_hist w1)) as [h2|]; [|exact Logic.I].
          destruct (at_id h2 n) as [l| |]; try exact Logic.I.
          + specialize (IH l (set_hist h2 w1)). destruct (feed E fuel l (set_hist h2 w1)) as [w2|[s|s|] w2| |]; cbn in *; auto;
              destruct IH as (m & Hm & IH); exists m; (split; [exact Hm|]); exact (bumps_trans 0 m _ _ _ (Hset w1 h2) IH).
          + cbn. exists 0. split; [lia|apply Hset]. }
      destruct (global_choices (t :: toks)) as [->|(p & g & ->)]; [discriminate| |]; cbn [attempts snd].
      + exists 0. split; [lia|apply bumps_refl].
      + eapply (e_bind_bumps (fun n => n <= 1) (eq 0)); [apply Ha| |auto|intros n m Hn <-; lia].
        intros w2. exists 0. split; [reflexivity|apply bumps_refl].
    - intros w1. destruct (locate (w_cur w1) [] (w_root w1)) as [ctx|]; [|exact Logic.I].
      rewrite scan_attempts by discriminate. eapply (e_bind_bumps (eq 0) (eq 0)); [apply users_bumps| |auto|intros n m <- <-; reflexivity].
      intros w2. assert (Hw : h_bumps 0 w2 (wrong_command E line w2)).
      { unfold wrong_command. destruct (e_has E KWrong); [apply hook_bumps; discriminate|apply bumps_out]. }
      destruct (wrong_command E line w2); cbn in *; eauto. }
  specialize (Hset w h).
  destruct (dispatch E _ _ _ _) as [b w1|x w1| |]; cbn [finish e_bumps f_bumps] in *; try exact Logic.I.
  - destruct Hg as (n & Hn & Hg). exists n. split; [exact Hn|]. exact (bumps_trans 0 n _ _ _ Hset Hg).
  - destruct Hg as (n & Hn & Hg). pose proof (report_bumps line x w1) as Hr. pose proof (bumps_trans 0 n _ _ _ Hset Hg) as Hwg.
    destruct (report E line x w1) as [w2|y w2| |]; cbn in *; auto; destruct Hr as (m & <- & Hr); exists (n + 0); (split; [lia|]); eapply bumps_trans; eassumption.
Qed.
Lemma enter_bumps w : h_bumps 0 w (session_enter E w).
Proof.
  unfold session_enter.
  assert (Ho : forall k w, k <> KSesExit -> k <> KCliExit -> h_bumps 0 w (if e_has E k then run_hook E k [] w else HOk w)).
  { intros k w1 H1 H2. destruct (e_has E k); [apply hook_bumps; assumption|apply bumps_refl]. }
  pose proof (Ho KCliEnter w ltac:(discriminate) ltac:(discriminate)) as H1.
  destruct (if e_has E KCliEnter then _ else _) as [w1|x w1| |]; cbn [h_bind]; try exact H1.
  pose proof (Ho KSesEnter w1 ltac:(discriminate) ltac:(discriminate)) as H2.
  destruct (if e_has E KSesEnter then _ else _) as [w2|x w2| |]; cbn in *; auto; exact (bumps_trans 0 0 _ _ _ H1 H2).
Qed.
End Count.

(** ** The loop *)
Lemma exit_called_hooked sid evs : exit_called sid evs = Nat.ltb 0 (hooked KSesExit sid evs).
Proof.
  induction evs as [|e evs IH]; [reflexivity|]. cbn [exit_called existsb]. fold (exit_called sid evs). rewrite IH. unfold hooked. cbn [filter].
  destruct e as [| | |i k a| |]; try reflexivity. destruct (Nat.eqb i sid), k; reflexivity.
Qed.
Lemma skipn_len {A} (a b : list A) : skipn (length a) (a ++ b) = b.
Proof. rewrite skipn_app, skipn_all, Nat.sub_diag. reflexivity. Qed.

Section Loop.
Context (E : env) (fuel : nat) (tty : bool) (color : list event -> bool).
Definition FE : env := file_env E.
Lemma fe_has : e_has FE KSesExit = true.
Proof. reflexivity. Qed.
Lemma fe_ret sid args tr : ur_end (e_hook FE sid KSesExit args tr) = UReturn.
Proof. reflexivity. Qed.

Lemma arrive_exit n s w' : bumps FE n (fs_world s) w' ->
  arrive true s w' = mkFs w' (fs_force s) (fs_in s) (fs_exit s || Nat.ltb 0 n).
Proof.
  intros (Hs & evs & Ht & Hn & _). unfold arrive. rewrite Ht, skipn_len, exit_called_hooked, Hs, Hn. reflexivity.
Qed.

(** The session ran as specified, and the exit actions once. *)
Definition done_once (w : world) (r : lres) : Prop :=
  match r with
  | LOk f => fs_exit f = true /\ bumps FE 1 w (fs_world f)
  | LExc _ f => exists n, n <= 1 /\ bumps FE n w (fs_world f)
  | _ => True
  end.

Lemma leave_end w0 s : bumps FE 0 w0 (fs_world s) ->
  match fs_leave E true s, session_exit FE (fs_world s) with
  | LOk f, HOk w => f = mkFs w (fs_force s) (fs_in s) true /\ bumps FE 1 w0 w
  | LExc x f, HExc y w => x = y /\ fs_world f = w /\ bumps FE 1 w0 w
  | LUB, HUB | LFuel, HFuel => True
  | _, _ => False
  end.
Proof.
  intros H0. unfold fs_leave. cbn [fenv]. fold FE. pose proof (exit_bumps FE fe_has fe_ret (fs_world s)) as H.
  destruct (session_exit FE (fs_world s)) as [w|x w| |]; cbn [of_h h_bumps] in *; try exact Logic.I.
  - rewrite (arrive_exit 1 s w H). rewrite orb_true_r. split; [reflexivity|]. exact (bumps_trans FE 0 1 _ _ _ H0 H).
  - rewrite (arrive_exit 1 s w H). split; [reflexivity|]. split; [reflexivity|]. exact (bumps_trans FE 0 1 _ _ _ H0 H).
Qed.

Lemma hooked_bumps n w w' : bumps FE n w w' -> hooked KSesExit (w_sid w) (w_trace w') = hooked KSesExit (w_sid w) (w_trace w) + n.
Proof. intros (_ & evs & -> & H & _). rewrite hooked_app, H. reflexivity. Qed.

Lemma loop_script w0 rest : ~ In "010"%char rest -> forall ls n s,
  Forall (fun l => ~ In "010"%char l) ls -> length ls < n -> fs_exit s = false ->
  fs_in s = mkIn (concat (map (fun l => l ++ nl) ls) ++ rest) false false -> bumps FE 0 w0 (fs_world s) ->
  let r := fs_loop E true fuel tty color n s in
  same_end r (script FE fuel tty color ls (fs_force s) (fs_world s)) /\ done_once w0 r.
Proof.
  intros Hrest. induction ls as [|l ls IH]; intros n s Hls Hn Hex Hin Hb; (destruct n as [|n]; [cbn in Hn; lia|]); cbn zeta; cbn [fs_loop script].
  - rewrite Hex. unfold fs_prompt. destruct (prompt tty _ (fs_force s) (fs_world s)) as [(b, force)|]; [|split; exact Logic.I].
    cbn [l_bind fs_in]. rewrite Hin. cbn [in_good in_eof in_fail negb andb l_bind fs_in].
    unfold getline. cbn [in_good in_eof in_fail negb andb in_rest map concat app]. rewrite (upto_nl_none rest Hrest). cbn [in_eof].
    match goal with |- context[fs_leave E true ?s] => pose proof (leave_end w0 s) as Hl; set (s1 := s) in * end.
    specialize (Hl (bumps_trans FE 0 0 _ _ _ Hb (bumps_out FE b _))). cbn [fs_world s1] in Hl |- *.
    destruct (fs_leave E true s1) as [f|x f| |], (session_exit FE (out b (fs_world s))) as [w|y w| |]; try contradiction; cbn [l_bind].
    + destruct Hl as (-> & Hl). destruct n; cbn [fs_loop fs_exit]; (split; [reflexivity|split; [reflexivity|exact Hl]]).
    + destruct Hl as (-> & <- & Hl). split; [split; reflexivity|]. exists 1. split; [lia|exact Hl].
    + split; exact Logic.I.
    + split; exact Logic.I.
  - inversion Hls as [|? ? Hl Hls']; subst. rewrite Hex. unfold fs_prompt.
    destruct (prompt tty _ (fs_force s) (fs_world s)) as [(b, force)|]; [|split; exact Logic.I].
    cbn [l_bind fs_in]. rewrite Hin. cbn [in_good in_eof in_fail negb andb l_bind fs_in].
    unfold getline. cbn [in_good in_eof in_fail negb andb in_rest map concat]. rewrite <- !app_assoc, (upto_nl_line l _ Hl). cbn [in_eof].
    unfold fs_feed. cbn [fenv fs_world fs_force]. fold FE.
    pose proof (feed_bumps FE fe_has fe_ret fuel l (out b (fs_world s))) as Hf.
    pose proof (bumps_trans FE 0 0 _ _ _ Hb (bumps_out FE b (fs_world s))) as Hb1.
    destruct (feed FE fuel l (out b (fs_world s))) as [w|x w| |]; cbn [of_f l_bind f_bumps] in *.
    + destruct Hf as (k & Hk & Hf). erewrite arrive_exit by exact Hf. cbn [fs_world fs_force fs_in fs_exit].
      pose proof (bumps_trans FE 0 k _ _ _ (bumps_out FE b (fs_world s)) Hf) as Hf'. rewrite (hooked_bumps _ _ _ Hf').
      rewrite Hex. cbn [orb plus]. destruct k as [|[|k]]; [| |lia].
      * rewrite Nat.add_0_r, !Nat.ltb_irrefl.
        specialize (IH n (mkFs w force (mkIn (concat (map (fun l => l ++ nl) ls) ++ rest) false false) false) Hls' ltac:(cbn in Hn; lia) eq_refl eq_refl (bumps_trans FE 0 0 _ _ _ Hb1 Hf)).
        exact IH.
      * assert (Hlt : forall m, Nat.ltb m (m + 1) = true) by (intros m; apply Nat.ltb_lt; lia). rewrite !Hlt. change (Nat.ltb 0 1) with true.
        destruct n; cbn [fs_loop fs_exit]; (split; [reflexivity|split; [reflexivity|exact (bumps_trans FE 0 1 _ _ _ Hb1 Hf)]]).
    + destruct Hf as (k & Hk & Hf). split; [split; reflexivity|]. exists k. split; [exact Hk|]. exact (bumps_trans FE 0 k _ _ _ Hb1 Hf).
    + split; exact Logic.I.
    + split; exact Logic.I.
Qed.

Lemma start_script s ls rest n : fs_exit s = false -> fs_in s = mkIn (in_rest (fs_in s)) false false ->
  lines_of (in_rest (fs_in s)) ls rest -> length ls < n ->
  let r := fs_start E true fuel tty color n s in
  same_end r (run_script FE fuel tty color ls (fs_force s) (fs_world s)) /\ done_once (fs_world s) r.
Proof.
  intros Hex Hin (Ht & Hl & Hr) Hn. cbn zeta. unfold fs_start, run_script, fs_enter. cbn [fenv]. fold FE.
  pose proof (enter_bumps FE (fs_world s)) as He.
  destruct (session_enter FE (fs_world s)) as [w|x w| |]; cbn [of_h l_bind h_bumps] in *; try (split; exact Logic.I).
  - rewrite (arrive_exit 0 s w He), Hex. cbn [Nat.ltb Nat.leb orb].
    apply (loop_script (fs_world s) rest Hr ls n (mkFs w (fs_force s) (fs_in s) false)); [exact Hl|exact Hn|reflexivity| |exact He].
    cbn [fs_in]. rewrite <- Ht. exact Hin.
  - rewrite (arrive_exit 0 s w He). split; [split; reflexivity|]. exists 0. split; [lia|exact He].
Qed.
End Loop.
