(** * Proofs about [Exit] when memory runs out *)

From Verif Require Import Base StorageModel HistoryModel MenuModel SessionModel SessionSpec SessionProofs FileSpec FileProofs
  AllocExitModel AllocExitSpec.
Open Scope nat_scope.
Open Scope list_scope.

Lemma same_refl w : same_place w w.
Proof. repeat split. Qed.
Lemma same_trans a b c : same_place a b -> same_place b c -> same_place a c.
Proof. intros (A1 & A2 & A3 & A4) (B1 & B2 & B3 & B4). repeat split; congruence. Qed.
Lemma hook_place E k args w : match run_hook E k args w with
  HOk w' | HExc _ w' => same_place w w' /\ w_store w' = w_store w | _ => True end.
Proof.
  unfold run_hook. cbn zeta.
  assert (H : forall os, let w' := apply_ops os (log (EvHook (w_sid w) k args) w) in same_place w w' /\ w_store w' = w_store w).
  { intros os. cbn zeta. apply (apply_ops_ind (fun w' => same_place w w' /\ w_store w' = w_store w)); [repeat split|].
    intros w1 o _ (H & S). destruct o; cbn [apply_op]; try (split; [exact H|exact S]).
    destruct (relabel (w_next w1) c) as (c', n). split; [exact H|exact S]. }
  match goal with |- context[ur_end ?r] => destruct (ur_end r) end; apply H.
Qed.

(** The part of [Exit] before memory is needed. *)
Definition acts (E : env) (w : world) : hres :=
  h_bind (if e_has E KSesExit then run_hook E KSesExit [] w else HExc bad_function_call w) (fun w1 =>
        if e_has E KCliExit then run_hook E KCliExit [] w1 else HOk w1).
Lemma acts_ok E w w2 : acts E w = HOk w2 -> same_place w w2 /\ w_store w2 = w_store w /\
  exists evs, w_trace w2 = w_trace w ++ evs /\ hooked KSesExit (w_sid w) evs = 1 /\
    hooked KCliExit (w_sid w) evs = (if e_has E KCliExit then 1 else 0).
Proof.
  unfold acts. destruct (e_has E KSesExit); [|discriminate]. intro H.
  pose proof (hook_place E KSesExit [] w) as P. pose proof (exit_hook_same E KSesExit [] w) as C.
  destruct (run_hook E KSesExit [] w) as [w1|x w1| |]; cbn [h_bind] in H; try discriminate.
  destruct P as (P & S). destruct C as (_ & e1 & T1 & A1 & B1).
  destruct (e_has E KCliExit).
  - pose proof (hook_place E KCliExit [] w1) as P'. pose proof (exit_hook_same E KCliExit [] w1) as C'. rewrite H in P', C'.
    destruct P' as (P' & S'). destruct C' as (_ & e2 & T2 & A2 & B2).
    split; [exact (same_trans _ _ _ P P')|]. split; [congruence|].
    assert (Q : w_sid w1 = w_sid w) by apply P. rewrite Q in *.
    exists ((EvHook (w_sid w) KSesExit [] :: e1) ++ EvHook (w_sid w) KCliExit [] :: e2).
    rewrite T2, T1, app_assoc, !hooked_app. split; [reflexivity|].
    pose proof (hooked_here (w_sid w) [] e1) as (X1 & _ & X3 & _). pose proof (hooked_here (w_sid w) [] e2) as (_ & Y2 & _ & Y4).
    rewrite X1, X3, Y2, Y4, A1, A2, B1, B2. split; reflexivity.
  - injection H as <-. split; [exact P|]. split; [exact S|]. exists (EvHook (w_sid w) KSesExit [] :: e1). split; [exact T1|].
    pose proof (hooked_here (w_sid w) [] e1) as (X1 & _ & X3 & _). rewrite X1, X3, A1, B1. split; reflexivity.
Qed.
Lemma exit_acts E w : session_exit E w = h_bind (acts E w) (fun w2 => match get_commands (w_hist w2) with
  | None => HUB | Some cmds => HOk (set_exit true (set_store (st_store (w_store w2) cmds) w2)) end).
Proof.
  unfold session_exit, acts. destruct (e_has E KSesExit); [|reflexivity]. destruct (run_hook E KSesExit [] w); reflexivity.
Qed.

Lemma exit_cases E ok left w :
  (exists w2, acts E w = HOk w2 /\
     ((ok = false /\ exit_m E ok left w = XThrew w2) \/
      (exists st cmds, ok = true /\ left = Some st /\ get_commands (w_hist w2) = Some cmds /\ exit_m E ok left w = XThrew (set_store st w2)))) \/
  exit_m E ok left w = XRan (session_exit E w).
Proof.
  rewrite exit_acts. unfold exit_m. fold (acts E w). destruct (acts E w) as [w2|x w2| |] eqn:A; cbn [h_bind]; try (right; reflexivity).
  destruct ok; cbn [negb]; [|left; exists w2; split; [reflexivity|left; split; reflexivity]].
  destruct (get_commands (w_hist w2)) as [cmds|] eqn:G; [|right; reflexivity].
  destruct left as [st|]; [left; exists w2; split; [reflexivity|right; exists st, cmds; repeat split; exact G]|right; reflexivity].
Qed.

Lemma threw E ok left w w' : exit_m E ok left w = XThrew w' ->
  same_place w w' /\
  ((ok = false /\ w_store w' = w_store w) \/ (ok = true /\ left = Some (w_store w'))) /\
  exists evs, w_trace w' = w_trace w ++ evs /\ hooked KSesExit (w_sid w) evs = 1 /\
    hooked KCliExit (w_sid w) evs = (if e_has E KCliExit then 1 else 0).
Proof.
  intro H. destruct (exit_cases E ok left w) as [(w2 & A & [(O & X)|(st & cmds & O & L & _ & X)])|X]; rewrite H in X; try discriminate.
  - injection X as ->. destruct (acts_ok E w w2 A) as (P & S & V). split; [exact P|]. split; [left; split; assumption|exact V].
  - injection X as ->. destruct (acts_ok E w w2 A) as (P & S & V). split; [exact P|]. split; [right; split; assumption|exact V].
Qed.
Lemma ran E ok left w r : exit_m E ok left w = XRan r -> r = session_exit E w.
Proof.
  intro H. destruct (exit_cases E ok left w) as [(w2 & A & [(O & X)|(st & cmds & O & L & _ & X)])|X]; rewrite H in X; try discriminate.
  injection X as ->. reflexivity.
Qed.
Lemma enough E w : exit_m E true None w = XRan (session_exit E w).
Proof. destruct (exit_cases E true None w) as [(w2 & A & [(O & X)|(st & cmds & O & L & _)])|X]; [discriminate|discriminate|exact X]. Qed.

Lemma tried_same E n w w' : tried E n w w' -> same_place w w' /\ w_store w' = w_store w /\
  exists evs, w_trace w' = w_trace w ++ evs /\ hooked KSesExit (w_sid w) evs = n /\
    hooked KCliExit (w_sid w) evs = (if e_has E KCliExit then n else 0).
Proof.
  induction 1 as [w|n w w1 w2 left T (P & S & evs & Tr & A & B) X].
  - split; [apply same_refl|]. split; [reflexivity|]. exists []. rewrite app_nil_r. destruct (e_has E KCliExit); repeat split.
  - apply threw in X as (P' & [(_ & S')|(O & _)] & evs' & Tr' & A' & B'); [|discriminate].
    split; [exact (same_trans _ _ _ P P')|]. split; [congruence|]. exists (evs ++ evs').
    assert (Q : w_sid w1 = w_sid w) by apply P. rewrite Q in *. rewrite Tr', Tr, app_assoc, !hooked_app, A, B, A', B'.
    split; [reflexivity|]. split; [lia|destruct (e_has E KCliExit); lia].
Qed.
Lemma retried E n w w1 w2 cmds : tried E n w w1 -> get_commands (w_hist w) = Some cmds -> session_exit E w1 = HOk w2 ->
  w_exit w2 = true /\ w_store w2 = st_store (w_store w) cmds /\ w_hist w2 = w_hist w /\
  exists evs, w_trace w2 = w_trace w ++ evs /\ hooked KSesExit (w_sid w) evs = S n /\
    hooked KCliExit (w_sid w) evs = (if e_has E KCliExit then S n else 0).
Proof.
  intros T G X. destruct (tried_same E n w w1 T) as ((P1 & P2 & P3 & P4) & S & evs & Tr & A & B).
  rewrite exit_acts in X. destruct (acts E w1) as [w3|x w3| |] eqn:Ac; cbn [h_bind] in X; try discriminate.
  destruct (acts_ok E w1 w3 Ac) as ((Q1 & Q2 & Q3 & Q4) & S' & evs' & Tr' & A' & B').
  rewrite Q2, P2, G in X. injection X as <-. split; [reflexivity|]. cbn [set_exit set_store w_store w_hist w_trace].
  split; [congruence|]. split; [congruence|]. exists (evs ++ evs'). rewrite P4 in *.
  rewrite Tr', Tr, app_assoc, !hooked_app, A, B, A', B'. split; [reflexivity|]. split; [lia|destruct (e_has E KCliExit); lia].
Qed.
Lemma threw_as E ok left w w' v : exit_m E ok left w = XThrew w' -> session_exit E w = HOk v ->
  w_trace v = w_trace w' /\ w_root v = w_root w' /\ w_next v = w_next w' /\ same_place w w'.
Proof.
  intros H X. pose proof (threw E ok left w w' H) as (P & _). rewrite exit_acts in X.
  destruct (exit_cases E ok left w) as [(w2 & A & [(_ & Y)|(st & cmds & _ & _ & _ & Y)])|Y]; rewrite H in Y; try discriminate;
    injection Y as ->; rewrite A in X; cbn [h_bind] in X; (destruct (get_commands (w_hist w2)); [|discriminate]); injection X as <-; repeat split; apply P.
Qed.

(** No memory for the commands is like an exit action that throws. *)
Lemma starved_last E k args w : last_action E k = true ->
  run_hook (starved E) k args w = match run_hook E k args w with HOk w' => HExc bad_alloc w' | r => r end.
Proof. intro H. unfold run_hook. cbn [starved e_hook]. rewrite H. cbn [ur_ops ur_end]. destruct (ur_end _); reflexivity. Qed.
Lemma starved_other E k args w : last_action E k = false -> run_hook (starved E) k args w = run_hook E k args w.
Proof. intro H. unfold run_hook. cbn [starved e_hook]. rewrite H. reflexivity. Qed.
Lemma starved_exit E left w :
  session_exit (starved E) w = match exit_m E false left w with XThrew w' => HExc bad_alloc w' | XRan r => r end.
Proof.
  unfold session_exit, exit_m. change (e_has (starved E)) with (e_has E).
  destruct (e_has E KSesExit); [|reflexivity]. destruct (e_has E KCliExit) eqn:C.
  - rewrite starved_other by (cbn; rewrite C; reflexivity). destruct (run_hook E KSesExit [] w) as [w1|x w1| |]; cbn [h_bind]; try reflexivity.
    rewrite starved_last by reflexivity. destruct (run_hook E KCliExit [] w1) as [w2|x w2| |]; reflexivity.
  - rewrite starved_last by (cbn; rewrite C; reflexivity). destruct (run_hook E KSesExit [] w) as [w1|x w1| |]; reflexivity.
Qed.
