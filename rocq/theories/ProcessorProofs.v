(** * Proofs about interactive sessions *)

From Verif Require Import Base SplitModel SplitSpec SplitProofs FromStringModel HistoryModel HistorySpec HistoryProofs StorageModel
  PrefixModel PrefixSpec PrefixProofs TerminalModel TerminalSpec TerminalProofs MenuModel SessionModel ResolveSpec ResolveProofs SessionSpec
  TreeProofs SessionProofs InvariantProofs OutputProofs FeatureProofs CompletionModel CompletionSpec CompletionProofs ProcessorModel ProcessorSpec.
Open Scope nat_scope.
Open Scope list_scope.

(** ** Events of each key *)
Lemma p_set_line_world tty color s p : exists b t, p_set_line tty color s p = mkProc (out b (p_world p)) t /\
  set_line tty color s (p_term p) = (b, t).
Proof. unfold p_set_line. destruct (set_line tty color s (p_term p)) as (b, t). exists b, t. split; reflexivity. Qed.
Lemma p_set_line_line tty color s p : tm_line (p_term (p_set_line tty color s p)) = s.
Proof. unfold p_set_line, set_line. rewrite before_input_eq. reflexivity. Qed.
Lemma p_prompt_ok tty color p p' : p_prompt tty color p = POk p' ->
  exists b f, prompt tty color (tm_force (p_term p)) (p_world p) = Some (b, f) /\
    p' = mkProc (out b (p_world p)) (mkTerm (tm_line (p_term p)) (tm_pos (p_term p)) f).
Proof.
  unfold p_prompt. destruct (prompt _ _ _ _) as [(b, f)|]; [|discriminate]. intros H. injection H as <-.
  exists b, f. split; reflexivity.
Qed.
Lemma p_prompt_exc tty color p x p' : p_prompt tty color p <> PExc x p'.
Proof. unfold p_prompt. destruct (prompt _ _ _ _) as [(b, f)|]; discriminate. Qed.

(** The world only grows by events satisfying [Z]. *)
Definition adds (Z : event -> Prop) (w w' : world) : Prop :=
  w_sid w' = w_sid w /\ exists evs, w_trace w' = w_trace w ++ evs /\ Forall Z evs.
Lemma adds_refl (Z : event -> Prop) w : adds Z w w.
Proof. split; [reflexivity|]. exists []. rewrite app_nil_r. split; [reflexivity|constructor]. Qed.
Lemma adds_trans (Z : event -> Prop) a b c : adds Z a b -> adds Z b c -> adds Z a c.
Proof.
  intros (S1 & e1 & T1 & F1) (S2 & e2 & T2 & F2). split; [congruence|]. exists (e1 ++ e2).
  rewrite T2, T1, app_assoc. split; [reflexivity|]. apply Forall_app. split; assumption.
Qed.
Lemma adds_log (Z : event -> Prop) e w : Z e -> adds Z w (log e w).
Proof. intros H. split; [reflexivity|]. exists [e]. split; [reflexivity|]. repeat constructor. exact H. Qed.

(** Nothing in a session but the command processor touches the input device. *)
Lemma feed_no_input E fuel line w : f_inv (adds no_input w) (feed E fuel line w).
Proof.
  set (P := fun w' => adds no_input w w').
  assert (H : fx_inv P (fun _ => True) (feed E fuel line w)).
  { assert (Hl : forall e w1, no_input e -> P w1 -> P (log e w1)).
    { intros e w1 He H. eapply adds_trans; [exact H|apply adds_log; exact He]. }
    apply (out_feed_inv E P (fun _ => True) (fun _ => True) (fun _ => True)); try exact Logic.I; auto.
    - apply code_ops_all.
    - split; auto.
    - intros e w1 He. apply Hl. destruct e; try exact Logic.I; destruct He.
    - intros w1 s H _. apply Hl; [exact Logic.I|exact H].
    - intros w1 s H _. apply Hl; [exact Logic.I|exact H].
    - intros w1 s H _. apply Hl; [exact Logic.I|exact H].
    - intros w1 s H _. apply Hl; [exact Logic.I|exact H].
    - intros w1 s H _. apply Hl; [exact Logic.I|exact H].
    - intros w1 o _ H. destruct o as [s|s|id|id|id|pid c]; try exact H; try (apply Hl; [exact Logic.I|exact H]).
      cbn. destruct (relabel (w_next w1) c) as (c', n). apply (Hl (EvInsert pid (w_next w1)) _ Logic.I). exact H.
    - apply adds_refl. }
  destruct (feed E fuel line w); cbn in H |- *; try exact H. apply H.
Qed.
Lemma run_hook_no_input E k args w : match run_hook E k args w with HOk w' | HExc _ w' => adds no_input w w' | _ => True end.
Proof.
  rewrite hook_spec. cbn zeta.
  assert (H : forall os, adds no_input w (apply_ops os (log (EvHook (w_sid w) k args) w))).
  { intros os. apply (apply_ops_ind (adds no_input w)); [apply adds_log; exact Logic.I|].
    intros w1 o _ H. destruct o as [s|s|id|id|id|pid c]; try exact H; try (eapply adds_trans; [exact H|apply adds_log; exact Logic.I]).
    cbn. destruct (relabel (w_next w1) c) as (c', n).
    eapply adds_trans; [exact H|]. exact (adds_log no_input (EvInsert pid (w_next w1)) w1 Logic.I). }
  dend; apply H.
Qed.
Lemma exit_no_input E w : match session_exit E w with HOk w' | HExc _ w' => adds no_input w w' | _ => True end.
Proof.
  unfold session_exit.
  assert (H1 : match (if e_has E KSesExit then run_hook E KSesExit [] w else HExc bad_function_call w) with HOk w' | HExc _ w' => adds no_input w w' | _ => True end).
  { destruct (e_has E KSesExit); [apply run_hook_no_input|apply adds_refl]. }
  destruct (if e_has E KSesExit then _ else _) as [w1|x w1| |]; cbn [h_bind]; try exact H1.
  assert (H2 : match (if e_has E KCliExit then run_hook E KCliExit [] w1 else HOk w1) with HOk w' | HExc _ w' => adds no_input w1 w' | _ => True end).
  { destruct (e_has E KCliExit); [apply run_hook_no_input|apply adds_refl]. }
  destruct (if e_has E KCliExit then _ else _) as [w2|x w2| |]; cbn [h_bind]; try exact Logic.I; try (eapply adds_trans; eassumption).
  destruct (get_commands (w_hist w2)); [|exact Logic.I]. eapply adds_trans; [exact H1|]. exact H2.
Qed.

(** ** Return (C53, C59) *)
Lemma press_ret E fuel tty k p e : holds (p_term p) e -> ks_key k = KRet ->
  exists t, holds t (mkEd [] []) /\
    press E fuel tty k p = process E fuel tty (ks_color' k) (SyCommand (ed_text e)) (p_out crlf (mkProc (p_world p) t)).
Proof.
  intros H Hk. unfold press. rewrite Hk.
  destruct (keypressed_spec tty (ks_color k) KRet (p_term p) e H) as (t & -> & Ht & _).
  exists t. split; [exact Ht|reflexivity].
Qed.

Lemma ret_events E fuel tty k p : (exists e, holds (p_term p) e) -> ks_key k = KRet ->
  match press E fuel tty k p with
  | POk p' => exists evs b, w_sid (p_world p') = w_sid (p_world p) /\ Forall no_input evs /\
      w_trace (p_world p') = w_trace (p_world p) ++ [EvOut (w_sid (p_world p)) crlf; EvInput (w_sid (p_world p)) false]
        ++ evs ++ [EvOut (w_sid (p_world p)) b; EvInput (w_sid (p_world p)) true]
  | PExc x p' => exists evs, w_sid (p_world p') = w_sid (p_world p) /\ Forall no_input evs /\
      w_trace (p_world p') = w_trace (p_world p) ++ [EvOut (w_sid (p_world p)) crlf; EvInput (w_sid (p_world p)) false] ++ evs /\
      e_has E KExcept = true /\ exists sid args tr, ur_end (e_hook E sid KExcept args tr) = UThrow x
  | _ => True
  end.
Proof.
  intros (e & He) Hk. destruct (press_ret E fuel tty k p e He Hk) as (t & Ht & ->). unfold process.
  cbn [p_out p_log p_world p_term].
  set (w1 := log (EvInput (w_sid (out crlf (p_world p))) false) (out crlf (p_world p))).
  pose proof (feed_no_input E fuel (ed_text e) w1) as Hf.
  destruct (feed E fuel (ed_text e) w1) as [w2|x w2| |] eqn:Hfe; cbn [of_fres p_bind]; try exact Logic.I.
  - destruct Hf as (Hs & evs & Htr & Hev).
    destruct (p_prompt tty (ks_color' k) (mkProc w2 t)) as [p3|x p3| |] eqn:Hp; cbn [p_bind]; try exact Logic.I.
    2:{ exfalso. eapply p_prompt_exc. exact Hp. }
    apply p_prompt_ok in Hp as (b & f & _ & ->). cbn [p_log p_world log out w_sid w_trace].
    exists evs, b. rewrite Hs, Htr. split; [reflexivity|]. split; [exact Hev|]. cbn. rewrite <- !app_assoc. reflexivity.
  - destruct Hf as (Hs & evs & Htr & Hev). exists evs. split; [exact Hs|]. split; [exact Hev|].
    split; [cbn [p_world]; rewrite Htr; cbn; rewrite <- !app_assoc; reflexivity|]. apply feed_exc in Hfe. exact Hfe.
Qed.

(** Other keys do not touch the device and call no command function. *)
Definition idle (e : event) : Prop := match e with EvInput _ _ | EvCall _ _ _ => False | _ => True end.
Lemma adds_weak (Y Z : event -> Prop) w w' : (forall e, Y e -> Z e) -> adds Y w w' -> adds Z w w'.
Proof. intros H (S & evs & T & F). split; [exact S|]. exists evs. split; [exact T|]. eapply Forall_impl; [exact H|exact F]. Qed.
Lemma adds_idle w w' : adds no_input w w' -> grows 0 w w' -> adds idle w w'.
Proof.
  intros (S & evs & T & F) (evs' & T' & C). split; [exact S|]. exists evs. split; [exact T|].
  rewrite T in T'. apply app_inv_head in T' as <-. unfold calls in C. clear T.
  induction F as [|e evs He F IH]; [constructor|]. cbn in C. destruct e; try (constructor; [exact Logic.I|apply IH; cbn in C; lia]); [cbn in C; lia|destruct He].
Qed.
Lemma out_idle s w : adds idle w (out s w).
Proof. apply adds_log. exact Logic.I. Qed.
Lemma press_other E fuel tty k p : ks_key k <> KRet ->
  match press E fuel tty k p with POk p' | PExc _ p' => adds idle (p_world p) (p_world p') | _ => True end.
Proof.
  intros Hk. unfold press. destruct (keypressed tty (ks_color k) (ks_key k) (p_term p)) as [((b & sy) & t)|] eqn:Hp; [|exact Logic.I].
  cbn [p_out p_world p_term].
  assert (Hsy : forall c, sy <> SyCommand c).
  { intros c ->. unfold keypressed in Hp. destruct (ks_key k); try discriminate; try congruence;
      repeat match type of Hp with
      | context[if ?x then _ else _] => destruct x
      | context[let (_, _) := ?x in _] => destruct x
      | context[obind ?x _] => destruct x; cbn [obind] in Hp
      end; discriminate. }
  assert (Hset : forall s p1, adds idle (p_world p1) (p_world (p_set_line tty (ks_color' k) s p1))).
  { intros s p1. destruct (p_set_line_world tty (ks_color' k) s p1) as (b' & t' & -> & _). apply out_idle. }
  assert (Hpr : forall line p1, match p_bind (p_prompt tty (ks_color' k) p1) (fun p1 => POk (p_set_line tty (ks_color' k) line (p_reset_cursor p1))) with
     POk p' | PExc _ p' => adds idle (p_world p1) (p_world p') | _ => True end).
  { intros line p1. destruct (p_prompt tty (ks_color' k) p1) as [p2|x p2| |] eqn:Hp2; try exact Logic.I; cbn [p_bind].
    - apply p_prompt_ok in Hp2 as (b2 & f & _ & ->). eapply adds_trans; [|apply Hset]. apply out_idle.
    - exfalso. eapply p_prompt_exc. exact Hp2. }
  destruct sy; unfold process; cbn [p_world p_term].
  - apply out_idle.
  - exfalso. eapply Hsy. reflexivity.
  - unfold previous_cmd. destruct (previous _ _) as [(s, h)|]; [|exact Logic.I]. eapply adds_trans; [|apply Hset]. apply out_idle.
  - unfold next_cmd. destruct (next _) as [(s, h)|]; [|exact Logic.I]. eapply adds_trans; [|apply Hset]. apply out_idle.
  - destruct (get_completions _ _ _ _) as [[|c [|c' l]]| |]; try exact Logic.I.
    + apply out_idle.
    + eapply adds_trans; [|apply Hset]. apply out_idle.
    + destruct (common_prefix _) as [pre|]; [|exact Logic.I]. destruct (Nat.ltb _ _).
      * eapply adds_trans; [|apply Hset]. apply out_idle.
      * match goal with |- context[p_prompt tty (ks_color' k) ?q] => specialize (Hpr (get_line t) q); set (p1 := q) in * end.
        destruct (p_bind (p_prompt tty (ks_color' k) p1) _) as [p2|x p2| |]; try exact Logic.I;
          (eapply adds_trans; [|exact Hpr]); (eapply adds_trans; apply out_idle).
  - cbn [p_out p_world p_term]. match goal with |- context[session_exit E ?w] => pose proof (exit_no_input E w) as H1; pose proof (session_exit_grows E w) as H2;
      destruct (session_exit E w) as [w1|x w1| |]; cbn [of_hres p_world]; try exact Logic.I;
      (apply (adds_trans _ _ (out b (p_world p))); [apply out_idle|apply adds_idle; assumption]) end.
  - match goal with |- context[p_prompt tty (ks_color' k) ?q] => specialize (Hpr (get_line t) q); set (p1 := q) in * end.
    destruct (p_bind (p_prompt tty (ks_color' k) p1) _) as [p2|x p2| |]; try exact Logic.I;
      (eapply adds_trans; [|exact Hpr]); (eapply adds_trans; apply out_idle).
Qed.

(** The terminal keeps a well-formed state. *)
Lemma process_holds E fuel tty color sy p : (exists e, holds (p_term p) e) ->
  match process E fuel tty color sy p with POk p' | PExc _ p' => exists e, holds (p_term p') e | _ => True end.
Proof.
  intros He.
  assert (Hset : forall s p1, exists e, holds (p_term (p_set_line tty color s p1)) e).
  { intros s p1. destruct (p_set_line_world tty color s p1) as (b & t & -> & Hs). cbn [p_term].
    pose proof (set_line_holds tty color s (p_term p1)) as H. rewrite Hs in H. eauto. }
  assert (Hpr : forall line p1, match p_bind (p_prompt tty color p1) (fun p1 => POk (p_set_line tty color line (p_reset_cursor p1))) with
     POk p' | PExc _ p' => exists e, holds (p_term p') e | _ => True end).
  { intros line p1. destruct (p_prompt tty color p1) as [p2|x p2| |] eqn:Hp2; try exact Logic.I; cbn [p_bind]; [apply Hset|].
    exfalso. eapply p_prompt_exc. exact Hp2. }
  destruct sy as [|c| | | | |]; unfold process.
  - exact He.
  - cbn [p_log p_world p_term]. destruct (feed _ _ _ _) as [w2|x w2| |]; cbn [of_fres p_bind]; try exact Logic.I; [|exact He].
    destruct (p_prompt tty color _) as [p3|x p3| |] eqn:Hp; cbn [p_bind]; try exact Logic.I.
    + apply p_prompt_ok in Hp as (b & f & _ & ->). cbn. destruct He as (e & H1 & H2). exists e. split; assumption.
    + exfalso. eapply p_prompt_exc. exact Hp.
  - unfold previous_cmd. destruct (previous _ _) as [(s, h)|]; [|exact Logic.I]. apply Hset.
  - unfold next_cmd. destruct (next _) as [(s, h)|]; [|exact Logic.I]. apply Hset.
  - destruct (get_completions _ _ _ _) as [[|c [|c' l]]| |]; try exact Logic.I; [exact He|apply Hset|].
    destruct (common_prefix _) as [pre|]; [|exact Logic.I]. destruct (Nat.ltb _ _); [apply Hset|apply Hpr].
  - destruct (session_exit E (p_world p)); cbn [of_hres]; try exact Logic.I; exact He.
  - apply Hpr.
Qed.
Lemma press_holds E fuel tty k p : (exists e, holds (p_term p) e) ->
  match press E fuel tty k p with POk p' | PExc _ p' => exists e, holds (p_term p') e | _ => True end.
Proof.
  intros (e & He). unfold press. destruct (keypressed_spec tty (ks_color k) (ks_key k) (p_term p) e He) as (t & -> & Ht & _).
  apply process_holds. eauto.
Qed.

(** ** C53 *)
Lemma input_on_app sid a b : input_on sid (a ++ b) =
  fold_left (fun on e => match e with EvInput i b => if Nat.eqb i sid then b else on | _ => on end) b (input_on sid a).
Proof. unfold input_on. apply fold_left_app. Qed.
Lemma no_input_fold sid evs : Forall no_input evs -> forall on,
  fold_left (fun on e => match e with EvInput i b => if Nat.eqb i sid then b else on | _ => on end) evs on = on.
Proof. induction 1 as [|e evs He _ IH]; intros on; [reflexivity|]. cbn. destruct e; try apply IH. destruct He. Qed.

Lemma idle_no_input e : idle e -> no_input e.
Proof. destruct e; cbn; auto. Qed.
Lemma key_dec (a b : key) : {a = b} + {a <> b}.
Proof. decide equality. apply ascii_dec. Qed.

(** From a state with input on: when all is well, on again; else off, because the
    user's exception handler threw; command functions run with input off. *)
Definition input_good (E : env) (p : proc) (r : pres) : Prop :=
  match r with
  | POk p' => w_sid (p_world p') = w_sid (p_world p) /\ input_on (w_sid (p_world p)) (w_trace (p_world p')) = true
  | PExc _ p' => w_sid (p_world p') = w_sid (p_world p)
  | _ => True
  end /\
  match r with
  | POk p' | PExc _ p' => exists evs, w_trace (p_world p') = w_trace (p_world p) ++ evs /\
      forall a b sid h args, evs = a ++ EvCall sid h args :: b -> input_on (w_sid (p_world p)) (w_trace (p_world p) ++ a) = false
  | _ => True
  end.
Lemma split_in {A} (l1 l2 a b : list A) x : l1 ++ l2 = a ++ x :: b ->
  (exists b', l1 = a ++ x :: b') \/ (exists a', a = l1 ++ a' /\ l2 = a' ++ x :: b).
Proof.
  revert a. induction l1 as [|y l1 IH]; intros a H.
  - right. exists a. split; [reflexivity|exact H].
  - destruct a as [|z a]; cbn in H; injection H as -> H.
    + left. exists l1. reflexivity.
    + destruct (IH a H) as [(b' & ->)|(a' & -> & H')]; [left; exists b'; reflexivity|right; exists a'; split; [reflexivity|exact H']].
Qed.

Lemma press_input E fuel tty k p : (exists e, holds (p_term p) e) ->
  input_on (w_sid (p_world p)) (w_trace (p_world p)) = true -> input_good E p (press E fuel tty k p).
Proof.
  intros He Hon. unfold input_good. destruct (key_dec (ks_key k) KRet) as [Hk|Hk].
  - pose proof (ret_events E fuel tty k p He Hk) as H. destruct (press E fuel tty k p) as [p'|x p'| |]; try (split; exact Logic.I).
    + destruct H as (evs & b & Hs & Hev & Ht). rewrite Ht. split; [split; [exact Hs|]|].
      * rewrite !input_on_app. rewrite Hon. cbn [app fold_left]. rewrite Nat.eqb_refl, fold_left_app, (no_input_fold _ _ Hev).
        cbn [app fold_left]. rewrite Nat.eqb_refl. reflexivity.
      * eexists. split; [reflexivity|]. intros a c sid h args Hx.
        destruct a as [|x a]; [discriminate|]. destruct a as [|y a]; [discriminate|].
        cbn in Hx. injection Hx as <- <- Hx. apply split_in in Hx as [(b' & ->)|(a' & _ & Hx)].
        2:{ destruct a' as [|z [|z' [|z'' a']]]; discriminate. }
        apply Forall_app in Hev as (Hev & _). rewrite input_on_app, Hon. cbn [app fold_left]. rewrite Nat.eqb_refl. apply no_input_fold. exact Hev.
    + destruct H as (evs & Hs & Hev & Ht & _). split; [exact Hs|]. eexists. split; [exact Ht|]. intros a c sid h args Hx.
      destruct a as [|x0 a]; [discriminate|]. destruct a as [|y a]; [discriminate|].
      cbn in Hx. injection Hx as <- <- Hx. subst evs. apply Forall_app in Hev as (Hev & _).
      rewrite input_on_app, Hon. cbn [app fold_left]. rewrite Nat.eqb_refl. apply no_input_fold. exact Hev.
  - pose proof (press_other E fuel tty k p Hk) as H. unfold input_good.
    assert (Hno : forall evs, Forall idle evs -> forall a b sid h args, evs = a ++ EvCall sid h args :: b -> False).
    { intros evs F a b sid h args ->. apply Forall_app in F as (_ & F). inversion F as [|? ? Hx]. destruct Hx. }
    destruct (press E fuel tty k p) as [p'|x p'| |]; try (split; exact Logic.I); destruct H as (Hs & evs & Ht & Hev).
    + split; [split; [exact Hs|]|].
      * rewrite Ht, input_on_app, Hon. apply no_input_fold. eapply Forall_impl; [|exact Hev]. apply idle_no_input.
      * exists evs. split; [exact Ht|]. intros a b sid h args Hx. exfalso. eapply Hno; eassumption.
    + split; [exact Hs|]. exists evs. split; [exact Ht|]. intros a b sid h args Hx. exfalso. eapply Hno; eassumption.
Qed.

Lemma presses_input E fuel tty ks : forall p, (exists e, holds (p_term p) e) ->
  input_on (w_sid (p_world p)) (w_trace (p_world p)) = true -> input_good E p (presses E fuel tty ks p).
Proof.
  induction ks as [|k ks IH]; intros p He Hon.
  - cbn. split; [split; [reflexivity|exact Hon]|]. exists []. rewrite app_nil_r. split; [reflexivity|]. intros [] b sid h args Hx; discriminate.
  - cbn [presses]. pose proof (press_input E fuel tty k p He Hon) as (H1 & H2). pose proof (press_holds E fuel tty k p He) as Hh.
    destruct (press E fuel tty k p) as [p1|x p1| |]; cbn [p_bind]; try (split; exact Logic.I || assumption).
    destruct H1 as (Hs & Hon1). destruct H2 as (evs & Ht & Hc).
    specialize (IH p1 Hh ltac:(rewrite Hs; exact Hon1)) as (H3 & H4).
    destruct (presses E fuel tty ks p1) as [p2|x p2| |]; try (split; exact Logic.I).
    + destruct H3 as (Hs2 & Hon2). split; [split; [congruence|rewrite <- Hs; exact Hon2]|].
      destruct H4 as (evs2 & Ht2 & Hc2). exists (evs ++ evs2). rewrite app_assoc, <- Ht. split; [exact Ht2|].
      intros a b sid h args Hx. apply split_in in Hx as [(b' & ->)|(a' & -> & ->)]; [eapply Hc; reflexivity|].
      rewrite app_assoc, <- Ht. rewrite <- Hs. eapply Hc2. reflexivity.
    + split; [congruence|].
      destruct H4 as (evs2 & Ht2 & Hc2). exists (evs ++ evs2). rewrite app_assoc, <- Ht. split; [exact Ht2|].
      intros a b sid h args Hx. apply split_in in Hx as [(b' & ->)|(a' & -> & ->)]; [eapply Hc; reflexivity|].
      rewrite app_assoc, <- Ht. rewrite <- Hs. eapply Hc2. reflexivity.
Qed.

(** ** C59 *)
Lemma only_printed_refl w : only_printed w w.
Proof. repeat split. exists []. rewrite app_nil_r. split; [reflexivity|constructor]. Qed.
Lemma only_printed_out s w : only_printed w (out s w).
Proof. repeat split. exists [EvOut (w_sid w) s]. split; [reflexivity|]. repeat constructor. exists s. reflexivity. Qed.
Lemma only_printed_trans a b c : only_printed a b -> only_printed b c -> only_printed a c.
Proof.
  intros (A1 & A2 & A3 & A4 & A5 & A6 & A7 & e1 & T1 & F1) (B1 & B2 & B3 & B4 & B5 & B6 & B7 & e2 & T2 & F2).
  repeat (split; [congruence|]). exists (e1 ++ e2). rewrite T2, T1, app_assoc. split; [reflexivity|].
  apply Forall_app. split; [exact F1|]. rewrite A4 in F2. exact F2.
Qed.

Lemma press_edit E fuel tty k p e : holds (p_term p) e -> editing (ks_key k) = true ->
  exists p', press E fuel tty k p = POk p' /\ only_printed (p_world p) (p_world p') /\
    holds (p_term p') (ed_key (ks_key k) e).
Proof.
  intros He Hk. unfold press.
  destruct (keypressed_spec tty (ks_color k) (ks_key k) (p_term p) e He) as (t & -> & Ht & _).
  assert (Hs : key_symbol (ks_key k) (ed_text e) = SyNothing).
  { destruct (ks_key k); try discriminate Hk; try reflexivity. cbn in Hk |- *. destruct (Ascii.eqb c "009"); [discriminate|reflexivity]. }
  rewrite Hs. unfold process. eexists. split; [reflexivity|]. split; [apply only_printed_out|exact Ht].
Qed.
Lemma presses_edit E fuel tty ks : forall p e, holds (p_term p) e -> Forall (fun k => editing (ks_key k) = true) ks ->
  exists p', presses E fuel tty ks p = POk p' /\ only_printed (p_world p) (p_world p') /\
    holds (p_term p') (snd (ed_run (map (fun k => EKey (ks_key k)) ks) e)).
Proof.
  induction ks as [|k ks IH]; intros p e He Hk.
  - exists p. split; [reflexivity|]. split; [apply only_printed_refl|exact He].
  - inversion Hk as [|? ? H1 H2]; subst. destruct (press_edit E fuel tty k p e He H1) as (p1 & Hp1 & Ho1 & He1).
    destruct (IH p1 _ He1 H2) as (p2 & Hp2 & Ho2 & He2). exists p2. cbn [presses]. rewrite Hp1. cbn [p_bind].
    split; [exact Hp2|]. split; [eapply only_printed_trans; eassumption|]. cbn [map ed_run ed_op].
    destruct (ed_run (map (fun k => EKey (ks_key k)) ks) (ed_key (ks_key k) e)). exact He2.
Qed.
Lemma presses_app E fuel tty ks1 ks2 p :
  presses E fuel tty (ks1 ++ ks2) p = p_bind (presses E fuel tty ks1 p) (presses E fuel tty ks2).
Proof.
  revert p. induction ks1 as [|k ks1 IH]; intros p; [reflexivity|]. cbn [app presses].
  destruct (press E fuel tty k p) as [p1|x p1| |]; cbn [p_bind]; auto.
Qed.

Lemma type_and_return E fuel tty ks kr p e : holds (p_term p) e ->
  Forall (fun k => editing (ks_key k) = true) ks -> ks_key kr = KRet ->
  exists w1, only_printed (p_world p) w1 /\
    let text := ed_text (snd (ed_run (map (fun k => EKey (ks_key k)) ks) e)) in
    let w2 := log (EvInput (w_sid (p_world p)) false) w1 in
    match feed E fuel text w2 with
    | FOk w3 => 
        match presses E fuel tty (ks ++ [kr]) p with
        | POk p' => holds (p_term p') (mkEd [] []) /\
            exists b w4, p_world p' = log (EvInput (w_sid (p_world p)) true) w4 /\ w4 = out b w3 /\
              exists force force', prompt tty (ks_color' kr) force w3 = Some (b, force')
        | PUB => prompt_text w3 = None
        | _ => False
        end
    | FExc x w3 => exists p', presses E fuel tty (ks ++ [kr]) p = PExc x p' /\ p_world p' = w3
    | FUB => presses E fuel tty (ks ++ [kr]) p = PUB
    | FFuel => presses E fuel tty (ks ++ [kr]) p = PFuel
    end.
Proof.
  intros He Hks Hkr. destruct (presses_edit E fuel tty ks p e He Hks) as (p1 & Hp1 & Ho1 & He1).
  set (e1 := snd (ed_run (map (fun k => EKey (ks_key k)) ks) e)) in *. clearbody e1.
  exists (out crlf (p_world p1)). split; [eapply only_printed_trans; [exact Ho1|apply only_printed_out]|].
  rewrite presses_app, Hp1. cbn [p_bind presses].
  destruct (press_ret E fuel tty kr p1 e1 He1 Hkr) as (t & Ht & ->).
  assert (Hsid : w_sid (p_world p1) = w_sid (p_world p)) by apply Ho1.
  unfold process. cbn [p_out p_log p_world p_term out log w_sid]. rewrite Hsid.
  match goal with |- context[feed E fuel ?a ?b] => set (ww := b); pose proof (feed_no_input E fuel a ww) as Hn end.
  cbn zeta. destruct (feed E fuel (ed_text e1) ww) as [w3|x w3| |]; cbn [of_fres p_bind f_inv] in *; try reflexivity.
  2:{ eexists. split; reflexivity. }
  destruct Hn as (Hs3 & _). cbn in Hs3.
  unfold p_prompt. cbn [p_term p_world].
  destruct (prompt tty (ks_color' kr) (tm_force t) w3) as [(b, f)|] eqn:Hpr; cbn [p_bind].
  - cbn [p_log p_out p_world p_term]. split; [exact Ht|]. exists b, (out b w3). cbn [w_sid out log]. rewrite Hs3, Hsid.
    split; [reflexivity|]. split; [reflexivity|]. eauto.
  - unfold prompt in Hpr. destruct (w_exit w3); [discriminate|]. destruct (prompt_text w3); [|reflexivity].
    destruct (before_prompt _ _); discriminate.
Qed.

(** ** TAB (C52) *)
Local Arguments white : simpl never.
Fixpoint cut (n : nat) (c : str) : str :=
  match c with
  | [] => []
  | x :: c' => match n with O => [] | S m => x :: cut (if white x then n else m) c' end
  end.
Lemma cut_prefix c : forall n, is_prefix (cut n c) c.
Proof.
  induction c as [|x c IH]; intros n; [exists []; reflexivity|]. cbn [cut]. destruct n as [|m]; [exists (x :: c); reflexivity|].
  destruct (IH (if white x then S m else m)) as (r & Hr). exists r. cbn. congruence.
Qed.
Lemma cut_agree Q : forall n c, is_prefix Q c -> length (squeeze Q) = n -> cut n c = cut n Q /\ squeeze (cut n Q) = squeeze Q.
Proof.
  induction Q as [|x Q IH]; intros n c (r & ->) Hn.
  - cbn in Hn. subst n. split; [destruct r; reflexivity|reflexivity].
  - cbn [app cut]. cbn in Hn. fold (squeeze Q) in Hn. destruct (white x) eqn:Hw; cbn in Hn.
    + destruct n as [|m]; [|destruct (IH (S m) (Q ++ r) (ex_intro _ r eq_refl) Hn) as (H1 & H2); rewrite H1; split; [reflexivity|]; cbn; rewrite Hw; exact H2].
      split; [reflexivity|]. cbn. rewrite Hw. cbn. fold (squeeze Q). destruct (squeeze Q); [reflexivity|discriminate].
    + subst n. destruct (IH _ (Q ++ r) (ex_intro _ r eq_refl) eq_refl) as (H1 & H2). rewrite H1. split; [reflexivity|].
      cbn. rewrite Hw. cbn. fold (squeeze Q). f_equal. exact H2.
Qed.

Lemma is_menu_dec k : is_menu k \/ ~ is_menu k.
Proof.
  destruct k; [right|right|left; repeat eexists]; intros (? & ? & ? & ? & ? & ? & ?); discriminate.
Qed.
Lemma offers_view ctx line c : offers ctx line c -> ctx <> [] /\
  (((exists t, branch ctx c t) /\ is_prefix line c) \/
   exists word ctx' rest c', branch ctx word (Some ctx') /\ line = word ++ rest /\ offers ctx' (trim rest) c' /\ c = word ++ lit " " ++ c').
Proof.
  intros H. inversion H; subst; (split; [discriminate|]).
  - left. split; [|assumption]. destruct (is_menu_dec k); eexists; [eapply br_menu|eapply br_leaf]; eassumption.
  - right. do 4 eexists. split; [eapply br_menu; eassumption|]. repeat split; eassumption.
  - left. split; [|assumption]. eexists. apply br_parent.
  - right. do 4 eexists. split; [apply br_parent|]. repeat split; eassumption.
  - right. do 4 eexists. split; [apply br_dots|]. repeat split; eassumption.
Qed.

Lemma offers_ind' (P : list cmd -> str -> str -> Prop) :
  (forall ctx line c, (exists t, branch ctx c t) -> is_prefix line c -> P ctx line c) ->
  (forall ctx line word ctx' rest c, branch ctx word (Some ctx') -> line = word ++ rest -> offers ctx' (trim rest) c ->
     P ctx' (trim rest) c -> P ctx line (word ++ lit " " ++ c)) ->
  forall ctx line c, offers ctx line c -> P ctx line c.
Proof.
  intros Hf Hs ctx line c H. induction H.
  - apply Hf; [|assumption]. destruct (is_menu_dec k); eexists; [eapply br_menu|eapply br_leaf]; eassumption.
  - eapply Hs; try eassumption. apply br_menu; assumption.
  - apply Hf; [|assumption]. eexists. apply br_parent.
  - eapply Hs; try eassumption. apply br_parent.
  - eapply Hs; try eassumption. apply br_dots.
Qed.
Lemma branch_chain root ctx word ctx' : chain root ctx -> branch ctx word (Some ctx') -> chain root ctx'.
Proof.
  intros Hc Hb. inversion Hb; subst.
  - constructor; assumption.
  - inversion Hc; assumption.
  - inversion Hc; assumption.
Qed.
Lemma prefix_cases (a b : str) c d : a ++ c = b ++ d -> is_prefix a b \/ is_prefix b a.
Proof.
  revert b. induction a as [|x a IH]; intros [|y b] H.
  - left. exists []. reflexivity.
  - left. exists (y :: b). reflexivity.
  - right. exists (x :: a). reflexivity.
  - cbn in H. injection H as -> H. destruct (IH b H) as [(r & ->)|(r & ->)]; [left|right]; exists r; reflexivity.
Qed.
Lemma prefix_trans (a b c : str) : is_prefix a b -> is_prefix b c -> is_prefix a c.
Proof. intros (r & ->) (s & ->). exists (r ++ s). rewrite app_assoc. reflexivity. Qed.
Definition agree (line c1 c2 : str) : Prop := exists Q, is_prefix Q c1 /\ is_prefix Q c2 /\ squeeze Q = squeeze line.
Lemma agree_sym line c1 c2 : agree line c1 c2 -> agree line c2 c1.
Proof. intros (Q & H1 & H2 & H3). exists Q. auto. Qed.
Lemma prefix_self_app (a b : str) : is_prefix a (a ++ b).
Proof. exists b. reflexivity. Qed.

Definition unambiguous_tree (root : cmd) : Prop :=
  forall ctx w1 ctx1 w2 t2, chain root ctx -> branch ctx w1 (Some ctx1) -> branch ctx w2 t2 ->
     is_prefix w1 w2 -> w1 = w2 /\ t2 = Some ctx1.
(** A line ending inside the name [c1], and one going on inside a menu. *)
Lemma final_step root ctx line t1 c1 word ctx' rest c2 : unambiguous_tree root -> chain root ctx ->
  branch ctx c1 t1 -> is_prefix line c1 -> branch ctx word (Some ctx') -> line = word ++ rest ->
  agree line c1 (word ++ lit " " ++ c2).
Proof.
  intros Hu Hc Hb1 Hp Hb2 ->. assert (Hp2 : is_prefix word c1) by (eapply prefix_trans; [apply prefix_self_app|exact Hp]).
  destruct (Hu _ _ _ _ _ Hc Hb2 Hb1 Hp2) as (-> & _). exists c1. split; [exists []; rewrite app_nil_r; reflexivity|].
  split; [apply prefix_self_app|]. rewrite squeeze_app.
  assert (rest = []) as ->; [|rewrite app_nil_r; reflexivity].
  destruct Hp as (r & Hr). rewrite <- app_assoc in Hr. rewrite <- (app_nil_r c1) in Hr at 1. apply app_inv_head in Hr.
  symmetry in Hr. apply app_eq_nil in Hr. tauto.
Qed.
Lemma offers_agree root : unambiguous_tree root -> forall ctx line c1, offers ctx line c1 ->
  chain root ctx -> forall c2, offers ctx line c2 -> agree line c1 c2.
Proof.
  intros Hu. apply (offers_ind' (fun ctx line c1 => chain root ctx -> forall c2, offers ctx line c2 -> agree line c1 c2)).
  - intros ctx line c1 (t1 & Hb1) Hp1 Hc c2 H2. apply offers_view in H2 as (_ & [(_ & Hp2)|(word & ctx' & rest & c' & Hb2 & Hl & _ & ->)]).
    + exists line. auto.
    + eapply final_step; eassumption.
  - intros ctx line word ctx' rest c Hb Hl Ho IH Hc c2 H2.
    apply offers_view in H2 as (_ & [((t2 & Hb2) & Hp2)|(word2 & ctx2 & rest2 & c' & Hb2 & Hl2 & Ho2 & ->)]).
    + apply agree_sym. eapply final_step; eassumption.
    + assert (word = word2 /\ ctx' = ctx2) as (<- & <-).
      { rewrite Hl in Hl2. apply prefix_cases in Hl2 as [H|H].
        - destruct (Hu _ _ _ _ _ Hc Hb Hb2 H) as (-> & Hx). injection Hx as ->. auto.
        - destruct (Hu _ _ _ _ _ Hc Hb2 Hb H) as (-> & Hx). injection Hx as ->. auto. }
      assert (rest = rest2) as <- by (rewrite Hl in Hl2; apply app_inv_head in Hl2; exact Hl2).
      destruct (IH (branch_chain _ _ _ _ Hc Hb) c' Ho2) as (Q & H1 & H2 & H3).
      exists (word ++ lit " " ++ Q). split; [do 2 apply prefix_app_l; exact H1|]. split; [do 2 apply prefix_app_l; exact H2|].
      rewrite Hl, !squeeze_app, H3, squeeze_trim. reflexivity.
Qed.
Lemma global_view line c : offers [global_menu] line c -> In c global_names /\ is_prefix line c.
Proof.
  intros H. apply offers_view in H as (_ & [((t & Hb) & Hp)|(word & ctx' & rest & c' & Hb & _)]).
  - split; [|exact Hp]. inversion Hb; subst; cbn in *;
      match goal with Hk : _ \/ _ |- _ => repeat (destruct Hk as [<-|Hk]; [cbn; tauto|]); destruct Hk end.
  - exfalso. inversion Hb; subst. cbn in *.
    match goal with Hk : _ \/ _, Hm : is_menu _ |- _ => repeat (destruct Hk as [<-|Hk]; [destruct Hm as (? & ? & ? & ? & ? & ? & ?); discriminate|]); destruct Hk end.
Qed.
Lemma offered_agree w line c1 c2 : unique_ids (w_root w) -> unambiguous w -> offered w line c1 -> offered w line c2 ->
  agree line c1 c2.
Proof.
  intros Huid (Hu & Hg) H1 H2.
  assert (Ht : agree (trim line) c1 c2 -> agree line c1 c2).
  { intros (Q & A & B & C). exists Q. rewrite squeeze_trim in C. auto. }
  apply Ht. clear Ht.
  assert (Hmix : forall c1 c2, offers [global_menu] (trim line) c1 -> (exists ctx, in_menu w ctx /\ offers ctx (trim line) c2) -> agree (trim line) c1 c2).
  { intros d1 d2 Hd1 (ctx & Hin & Hd2). apply global_view in Hd1 as (Hn & Hp).
    apply offers_view in Hd2 as (_ & [(_ & Hp2)|(word & ctx' & rest & c' & Hb & Hl & _)]).
    - exists (trim line). auto.
    - exfalso. apply (Hg _ _ _ _ Hin Hb Hn). eapply prefix_trans; [|exact Hp]. rewrite Hl. apply prefix_self_app. }
  destruct H1 as [H1|H1], H2 as [H2|H2].
  - apply global_view in H1 as (_ & H1), H2 as (_ & H2). exists (trim line). auto.
  - apply Hmix; assumption.
  - apply agree_sym, Hmix; assumption.
  - destruct H1 as (ctx1 & I1 & O1), H2 as (ctx2 & I2 & O2).
    assert (ctx1 = ctx2) as <- by (eapply in_menu_unique; eassumption).
    eapply offers_agree; try eassumption. apply I1.
Qed.
Lemma agree_prefix line l pre : l <> [] ->
  (forall c1 c2, In c1 l -> In c2 l -> agree line c1 c2) -> longest_common_prefix l pre ->
  is_prefix (squeeze line) (squeeze pre).
Proof.
  intros Hn Ha (_ & Hl). destruct l as [|c l]; [congruence|].
  set (n := length (squeeze line)).
  assert (Hall : forall c2, In c2 (c :: l) -> cut n c2 = cut n c /\ squeeze (cut n c) = squeeze line).
  { intros c2 H2. destruct (Ha c c2 (or_introl eq_refl) H2) as (Q & P1 & P2 & Hs).
    destruct (cut_agree Q n c P1) as (A & B); [rewrite Hs; reflexivity|]. destruct (cut_agree Q n c2 P2) as (A2 & _); [rewrite Hs; reflexivity|].
    split; congruence. }
  destruct (Hall c (or_introl eq_refl)) as (_ & <-). apply squeeze_prefix, Hl.
  intros x Hx. destruct (Hall x Hx) as (<- & _). apply cut_prefix.
Qed.

(** What TAB does. *)
Lemma press_tab E fuel tty k p e : holds (p_term p) e -> tab_key k -> unique_ids (w_root (p_world p)) ->
  match press E fuel tty k p with
  | POk p' => only_printed (p_world p) (p_world p') /\
      exists l, offers_list (p_world p) (ed_text e) l /\
        ((l = [] /\ holds (p_term p') e) \/
         (exists c, l = [c] /\ holds (p_term p') (mkEd (rev (c ++ lit " ")) [])) \/
         (2 <= length l /\ exists pre, longest_common_prefix l pre /\
            ((length (ed_text e) < length pre /\ holds (p_term p') (mkEd (rev pre) [])) \/
             (length pre <= length (ed_text e) /\ holds (p_term p') (mkEd (rev (ed_text e)) []) /\
              exists e1 e2, w_trace (p_world p') = w_trace (p_world p) ++ e1 ++
                [EvOut (w_sid (p_world p)) (nl ++ flat_map (fun c => tab ++ c) l ++ nl)] ++ e2))))
  | PExc _ _ => False
  | _ => True
  end.
Proof.
  intros He Hk Hu. unfold press. rewrite Hk.
  destruct (keypressed_spec tty (ks_color k) (KAscii "009") (p_term p) e He) as (t & -> & Ht & _).
  change (key_symbol (KAscii "009") (ed_text e)) with SyTab.
  change (ed_key (KAscii "009") e) with e in Ht. set (b := key_out _ _ _ _ _). clearbody b.
  unfold process, p_out. cbn [p_world p_term]. change (get_line t) with (tm_line t). rewrite (proj1 Ht).
  set (w0 := out b (p_world p)).
  assert (H0 : only_printed (p_world p) w0) by apply only_printed_out.
  destruct (get_completions (e_plat E) fuel (ed_text e) w0) as [l| |] eqn:Hg; try exact Logic.I.
  assert (Hl : offers_list (p_world p) (ed_text e) l).
  { split; [eapply completions_sorted; exact Hg|]. apply (completions_exact _ _ _ _ _ Hg). exact Hu. }
  assert (Hset : forall s p1, only_printed (p_world p1) (p_world (p_set_line tty (ks_color' k) s p1)) /\
     holds (p_term (p_set_line tty (ks_color' k) s p1)) (mkEd (rev s) [])).
  { intros s p1. destruct (p_set_line_world tty (ks_color' k) s p1) as (b' & t' & -> & Hs). cbn [p_world p_term].
    split; [apply only_printed_out|]. pose proof (set_line_holds tty (ks_color' k) s (p_term p1)) as H. rewrite Hs in H. exact H. }
  destruct l as [|c [|c' l]].
  - split; [exact H0|]. exists []. split; [exact Hl|]. left. split; [reflexivity|exact Ht].
  - destruct (Hset (c ++ lit " ") (mkProc w0 t)) as (Ho & Hh). split; [eapply only_printed_trans; eassumption|].
    exists [c]. split; [exact Hl|]. right. left. exists c. split; [reflexivity|exact Hh].
  - destruct (common_prefix_spec (c :: c' :: l)) as (pre & -> & Hpre); [discriminate|].
    destruct (Nat.ltb_spec (length (ed_text e)) (length pre)) as [Hlt|Hge].
    + destruct (Hset pre (mkProc w0 t)) as (Ho & Hh). split; [eapply only_printed_trans; eassumption|].
      exists (c :: c' :: l). split; [exact Hl|]. right. right. split; [cbn; lia|]. exists pre. split; [exact Hpre|]. left. auto.
    + match goal with |- context[out ?s w0] => set (listing := s) end.
      destruct (p_prompt tty (ks_color' k) _) as [p3|x p3| |] eqn:Hp; cbn [p_bind]; try exact Logic.I.
      2:{ eapply p_prompt_exc. exact Hp. }
      apply p_prompt_ok in Hp as (b3 & f & _ & ->). cbn [p_world p_term tm_line tm_pos].
      match goal with |- context[p_set_line tty (ks_color' k) (ed_text e) ?q] => destruct (p_set_line_world tty (ks_color' k) (ed_text e) q) as (b4 & t4 & Heq & Hs4);
         destruct (Hset (ed_text e) q) as (Ho & Hh); rewrite Heq in *; clear Heq end.
      cbn [p_reset_cursor p_world p_term] in *.
      split; [eapply only_printed_trans; [exact H0|]; eapply only_printed_trans; [apply only_printed_out|]; eapply only_printed_trans; [apply only_printed_out|exact Ho]|].
      exists (c :: c' :: l). split; [exact Hl|]. right. right. split; [cbn; lia|]. exists pre. split; [exact Hpre|]. right.
      split; [exact Hge|]. split; [exact Hh|]. subst w0. exists [EvOut (w_sid (p_world p)) b]. eexists.
      cbn. rewrite <- !app_assoc. reflexivity.
Qed.
Lemma tab_kept E fuel tty k p e p' : holds (p_term p) e -> tab_key k -> unique_ids (w_root (p_world p)) ->
  unambiguous (p_world p) -> press E fuel tty k p = POk p' ->
  exists e', holds (p_term p') e' /\ is_prefix (squeeze (ed_text e)) (squeeze (ed_text e')).
Proof.
  intros He Hk Hu Ha H. pose proof (press_tab E fuel tty k p e He Hk Hu) as Ht. rewrite H in Ht.
  assert (Htext : forall s, ed_text (mkEd (rev s) []) = s) by (intros s; unfold ed_text; cbn; rewrite rev_involutive; apply app_nil_r).
  destruct Ht as (_ & l & (_ & Hin) & Hcases). destruct Hcases as [(_ & Hh)|[(c & Hl & Hh)|(Hlen & pre & Hpre & [(_ & Hh)|(_ & Hh & _)])]].
  - exists e. split; [exact Hh|]. exists []. rewrite app_nil_r. reflexivity.
  - eexists. split; [exact Hh|]. rewrite Htext, squeeze_app. subst l.
    assert (Ho : offered (p_world p) (ed_text e) c) by (apply Hin; left; reflexivity).
    eapply prefix_trans; [|apply prefix_self_app].
    destruct Ho as [Ho|(ctx & _ & Ho)]; apply offers_extends in Ho; rewrite squeeze_trim in Ho; exact Ho.
  - eexists. split; [exact Hh|]. rewrite Htext.
    apply (agree_prefix (ed_text e) l pre); [intros ->; cbn in Hlen; lia| |exact Hpre].
    intros c1 c2 H1 H2. apply Hin in H1, H2. exact (offered_agree _ _ _ _ Hu Ha H1 H2).
  - eexists. split; [exact Hh|]. rewrite Htext. exists []. rewrite app_nil_r. reflexivity.
Qed.
