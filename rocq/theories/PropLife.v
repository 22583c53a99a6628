(** * C78: lifetimes of [Cli] objects and sessions *)

From Verif Require Import Base SplitModel FromStringModel HistoryModel StorageModel TerminalModel MenuModel SessionModel SessionSpec
  CompletionModel ProcessorModel ProcessorSpec StorageSpec IsolationSpec TreeProofs SafetyProofs Demo LifeModel LifeSpec LifeProofs LifeSafeProofs LifePartProofs.
Open Scope nat_scope.
Open Scope list_scope.

(** Programs that follow the rules ([obeys]: a session is used only while its [Cli] is
    where it was when the session was opened) have no undefined behaviour, if user code
    and lines have no other faults. *)
Theorem C78_rules : forall E fn (R : nat -> Prop), decent_code E fn R ->
  forall os, obeys os -> decent E R (fun _ => False) os ->
  exists F rs g, forall fuel, F <= fuel -> l_run E fn fuel os g_init = LEnd rs g.
Proof. exact obeying_runs. Qed.
Print Assumptions C78_rules.
(** Whatever user code does: a fault is one of a session whose [Cli], storage and menus
    are all there. *)
Theorem C78_faults : forall E fn fuel os, obeys os ->
  match l_run E fn fuel os g_init with
  | LEnd _ _ => True
  | LEIll => False
  | LEUndef => fault E fn fuel os CUndef
  | LEDeep => fault E fn fuel os CDeep
  end.
Proof. exact obeying_faults. Qed.
Print Assumptions C78_faults.
(** Moving a [Cli] (by construction or assignment) while no session is open on it (nor on
    the one replaced) changes nothing. *)
Theorem C78_move : forall E fn fuel c c' pre rs g g' mv post, c <> c' -> mv = LMove c c' \/ mv = LAssign c c' ->
  l_run E fn fuel pre g_init = LEnd rs g -> l_step E fn fuel g mv = LOk RNone g' -> unused c g -> unused c' g ->
  Forall (fun o => ~ mentions c' o) post -> Forall (fun o => forall t m, o = LMenu t m -> own_tree g c' <> Some t) post ->
  same_end (l_run E fn fuel post g) (l_run E fn fuel (map (rename c c') post) g').
Proof. exact move_transparent. Qed.
Print Assumptions C78_move.
(** Several [Cli] objects do not interfere: what a part of them returns and does is what
    it does alone. *)
Theorem C78_parts : forall E fn fuel, separate_code E fn -> forall A os rs g, splits A os -> l_run E fn fuel os g_init = LEnd rs g ->
  exists g', l_run E fn fuel (filter (inside A) os) g_init = LEnd (results A os rs) g' /\
    forall s, p_ses A s = true -> own s (g_trace g') = own s (g_trace g).
Proof. exact parts. Qed.
Print Assumptions C78_parts.

(** The function given to a [Cli], or to a session, is set, and no other one is changed. *)
Theorem C78_functions : forall E fn fuel g k f,
  (forall c o, In k [KCliEnter; KCliExit; KWrong; KExcept] -> g_clis g c = Live o ->
     exists g' o', l_step E fn fuel g (LCliFn c k f) = LOk RNone g' /\ g_clis g' c = Live o' /\ c_store o' = c_store o /\ c_tree o' = c_tree o /\
       c_fns o' k = f /\ (forall j, j <> k -> c_fns o' j = c_fns o j) /\ forall i, i <> c -> g_clis g' i = g_clis g i) /\
  (forall s x, In k [KSesEnter; KSesExit] -> g_ses g s = Live x ->
     exists g' x', l_step E fn fuel g (LSesFn s k f) = LOk RNone g' /\ g_ses g' s = Live x' /\ s_hist x' = s_hist x /\ s_cur x' = s_cur x /\
       s_fns x' k = f /\ (forall j, j <> k -> s_fns x' j = s_fns x j) /\ forall i, i <> s -> g_ses g' i = g_ses g i).
Proof. exact set_functions. Qed.
Print Assumptions C78_functions.

(** Two [Cli] objects; the first is moved before it is used. *)
Definition life_env : env :=
  mkEnv (mkPlatform true false) (fun _ _ => None) (fun _ _ => None)
    (fun _ h _ _ => mkURes [OOut (lit "hi"); ORemove 11] (if Nat.eqb h 0 then UReturn else UThrow XOther))
    (fun _ _ _ _ => mkURes [] UReturn) (fun _ => false).
Definition life_fn (n sid : nat) (k : hook) (args : list str) (tr : list event) : uresult := mkURes [OOut (lit "oops")] UReturn.
Definition before_move : list lop :=
  [LNew 0 0 (mkTree demo_root 20) (StVolatile 10 []); LCliFn 0 KWrong (Some 1); LNew 2 1 (mkTree demo_root 20) (StVolatile 10 [lit "old"])].
Definition after_move (c : nat) : list lop :=
  [LOpen 0 c 5; LOpen 1 2 5; LCall 0 CEnter; LCall 0 (CFeed (lit "add 1 2")); LMenu 0 (MEnable 17); LCall 1 (CFeed (lit "nope"));
   LCall 0 (CFeed (lit "nope")); LCall 0 (CComplete (lit "s")); LCall 1 (CPrevious []); LCall 0 CExit; LCall 0 (CPrompt true false true);
   LClose 0; LDelete c; LCall 1 CHelp; LClose 1].
Definition life_demo : list lop := before_move ++ LMove 0 1 :: after_move 1.
Definition first_part : part := mkPart (fun c => Nat.ltb c 2) (Nat.eqb 0) (Nat.eqb 0).

Example C78_nonvacuous :
  decent_code life_env life_fn (fun i => i = 11) /\ separate_code life_env life_fn /\ obeys life_demo /\ decent life_env (fun i => i = 11) (fun _ => False) life_demo /\
  splits first_part life_demo /\
  (exists rs g, l_run life_env life_fn 10 life_demo g_init = LEnd rs g /\
     nth_error rs 11 = Some (RLines [lit "say"; lit "sub"]) /\ nth_error rs 12 = Some (RLine (lit "nope")) /\
     own 1 (g_trace g) <> [] /\ In (EvHook 0 KWrong [lit "nope"]) (g_trace g) /\ In (EvOut 0 (lit "oops")) (g_trace g) /\
     In (EvOut 1 (lit "wrong command: nope" ++ nl)) (g_trace g)) /\
  (exists rs g g', l_run life_env life_fn 10 before_move g_init = LEnd rs g /\ l_step life_env life_fn 10 g (LMove 0 1) = LOk RNone g' /\
     unused 0 g /\ unused 1 g /\ Forall (fun o => ~ mentions 1 o) (after_move 0) /\ map (rename 0 1) (after_move 0) = after_move 1).
Proof.
  split.
  { split; [intros; repeat constructor|]. split; [intros; repeat constructor|]. split; [intros sid h args tr s; cbn; destruct (Nat.eqb h 0); discriminate|].
    split; [intros n sid k args tr s; discriminate|reflexivity]. }
  split; [split; intros; reflexivity|]. split; [intros H; vm_compute in H; discriminate|].
  assert (Hl : forall l, Forall (fun c => (N_of_ascii c < 128)%N) l -> legible life_env l) by (intros l Hl; right; exact Hl).
  assert (Ht : decent_tree life_env (fun i => i = 11) (mkTree demo_root 20)).
  { split; [unfold unique_ids; cbn; repeat (constructor; [cbn; intuition discriminate|]); constructor|]. split; [cbn; repeat constructor|]. split; [repeat eexists|]. split.
    - intros id ->. split; [cbn; lia|]. intros m anc Hc He.
      assert (Hin : In (cmd_id m) (menu_ids demo_root)) by (apply (chain_menu_ids demo_world); eauto).
      rewrite He in Hin. cbn in Hin. intuition discriminate.
    - split; [cbn; repeat split; eexists; reflexivity|]. cbn.
      repeat match goal with
      | |- _ /\ _ => split
      | |- True => exact Logic.I
      | |- legible_name _ _ => split; [apply Hl; repeat constructor|intros _; discriminate]
      end. }
  split.
  { cbn [life_demo before_move after_move app decent decent_lop decent_call].
    repeat match goal with
    | |- _ /\ _ => split
    | |- True => exact Logic.I
    | |- _ >= _ => lia
    | |- decent_tree _ _ _ => exact Ht
    | |- Forall _ (st_commands _) => cbv [st_commands v_commands]
    | |- Forall _ [] => apply Forall_nil
    | |- Forall (plain_line _) _ => apply Forall_cons
    | |- plain_line _ _ => split
    | |- decent_line _ _ => split
    | |- legible _ _ => apply Hl; repeat constructor
    | |- one_line _ => intros H; cbn in H; intuition discriminate
    | |- recall _ _ -> _ => intros (a & n & H & _); discriminate
    | |- ~ recall _ _ => intros (a & n & H & _); discriminate
    end. }
  split; [apply Forall_forall; intros o Ho; cbn in Ho; repeat (destruct Ho as [<-|Ho]; [cbn; auto|]); contradiction|].
  split.
  { eexists _, _. split; [vm_compute; reflexivity|]. split; [reflexivity|]. split; [reflexivity|]. split; [discriminate|]. cbn. intuition. }
  eexists _, _, _. split; [vm_compute; reflexivity|]. split; [reflexivity|]. split; [intros s x H; discriminate|]. split; [intros s x H; discriminate|].
  split; [|reflexivity]. repeat (apply Forall_cons; [cbn; intuition discriminate|]). apply Forall_nil.
Qed.

(** ** Breaking the rules
    A [Cli] is moved while a session is open on it: [exit] uses a null pointer. *)
Theorem C78_moved_while_open_refuted : exists os c' s, ~ In (LDelete 0) os /\
  (exists rs g, l_run life_env life_fn 10 os g_init = LEnd rs g) /\
  l_run life_env life_fn 10 (os ++ [LMove 0 c'; LCall s (CFeed (lit "exit"))]) g_init = LEUndef /\
  (exists rs g, l_run life_env life_fn 10 (os ++ [LCall s (CFeed (lit "exit"))]) g_init = LEnd rs g).
Proof.
  exists [LNew 0 0 (mkTree demo_root 20) (StVolatile 10 []); LOpen 0 0 5], 1, 0.
  split; [cbn; intuition discriminate|]. split; [apply ended_ok; vm_compute; reflexivity|]. split; [vm_compute; reflexivity|].
  apply ended_ok; vm_compute; reflexivity.
Qed.
Print Assumptions C78_moved_while_open_refuted.
(** Its handlers are gone, too. *)
Theorem C78_handlers_lost_refuted : exists os c' s line, (exists rs g, l_run life_env life_fn 10 (os ++ [LCall s (CFeed line)]) g_init = LEnd rs g /\
    In (EvHook s KWrong [line]) (g_trace g)) /\
  exists rs g, l_run life_env life_fn 10 (os ++ [LMove 0 c'; LCall s (CFeed line)]) g_init = LEnd rs g /\
    forall l, ~ In (EvHook s KWrong l) (g_trace g).
Proof.
  exists [LNew 0 0 (mkTree demo_root 20) (StVolatile 10 []); LCliFn 0 KWrong (Some 1); LOpen 0 0 5], 1, 0, (lit "nope"). split.
  - edestruct ended_trace as (rs & g & Hr & Hg); [|exists rs, g; split; [exact Hr|rewrite Hg]]; [vm_compute; reflexivity|]. cbn. auto.
  - edestruct ended_trace as (rs & g & Hr & Hg); [|exists rs, g; split; [exact Hr|rewrite Hg]]; [vm_compute; reflexivity|].
    intros l H. cbn in H. intuition discriminate.
Qed.
Print Assumptions C78_handlers_lost_refuted.
(** A [Cli] is destroyed, or replaced, while a session is open on it: any command is
    undefined; closing the session is not. *)
Theorem C78_outlived_refuted : exists os s, (exists rs g, l_run life_env life_fn 10 os g_init = LEnd rs g) /\
  l_run life_env life_fn 10 (os ++ [LDelete 0; LCall s (CFeed (lit "add 1 2"))]) g_init = LEUndef /\
  l_run life_env life_fn 10 (os ++ [LAssign 1 0; LCall s (CFeed (lit "add 1 2"))]) g_init = LEUndef /\
  (exists rs g, l_run life_env life_fn 10 (os ++ [LDelete 0; LClose s]) g_init = LEnd rs g).
Proof.
  exists [LNew 0 0 (mkTree demo_root 20) (StVolatile 10 []); LNew 1 1 (mkTree demo_root 20) (StVolatile 10 []); LOpen 0 0 5], 0.
  split; [apply ended_ok; vm_compute; reflexivity|]. split; [vm_compute; reflexivity|]. split; [vm_compute; reflexivity|].
  apply ended_ok; vm_compute; reflexivity.
Qed.
Print Assumptions C78_outlived_refuted.
(** In general: [Help], and [Prompt] before the session exited, of a session whose menus are gone. *)
Theorem C78_menus_gone : forall E fn fuel g sid s, g_ses g sid = Live s -> (forall t, g_trees g (s_tree s) <> Live t) ->
  l_step E fn fuel g (LCall sid CHelp) = LUndef /\ (s_exit s = false -> forall tty color force, l_step E fn fuel g (LCall sid (CPrompt tty color force)) = LUndef).
Proof.
  intros E fn fuel g sid s Hs Ht. cbn [l_step]. rewrite Hs. unfold call_ses.
  assert (Hg : match g_trees g (s_tree s) with Live t => t | _ => gone end = gone) by (destruct (g_trees g (s_tree s)) as [|t|]; [reflexivity|destruct (Ht t eq_refl)|reflexivity]).
  rewrite Hg. split; [reflexivity|]. intros He tty color force. rewrite He. destruct (match g_clis g (s_cli s) with Live o => Some o | _ => None end) as [o|]; [destruct (c_store o)|]; reflexivity.
Qed.
Print Assumptions C78_menus_gone.
(** A [Cli] is moved, and what was moved from is destroyed, while a session is open: the menus are still
    there, and commands work, but a wrong line, one that throws, [Enter] and [exit] are undefined. *)
Theorem C78_orphaned_refuted : exists os s,
  (forall c, In c [CFeed (lit "nope"); CFeed (lit "!7"); CFeed (lit "exit"); CEnter; CExit] ->
     (exists rs g, l_run life_env life_fn 10 (os ++ [LCall s c]) g_init = LEnd rs g) /\
     l_run life_env life_fn 10 (os ++ [LMove 0 1; LDelete 0; LCall s c]) g_init = LEUndef) /\
  (exists rs g, l_run life_env life_fn 10 (os ++ [LMove 0 1; LDelete 0; LCall s (CFeed (lit "add 1 2")); LClose s]) g_init = LEnd rs g).
Proof.
  exists [LNew 0 0 (mkTree demo_root 20) (StVolatile 10 []); LOpen 0 0 5; LCall 0 (CFeed (lit "say it"))], 0.
  split; [|apply ended_ok; vm_compute; reflexivity].
  intros c [<-|[<-|[<-|[<-|[<-|[]]]]]]; (split; [apply ended_ok; vm_compute; reflexivity|vm_compute; reflexivity]).
Qed.
Print Assumptions C78_orphaned_refuted.
(** A session opened on a [Cli] that was moved from is undefined. *)
Theorem C78_open_moved_from_refuted : exists os s, (exists rs g, l_run life_env life_fn 10 os g_init = LEnd rs g) /\
  l_run life_env life_fn 10 (os ++ [LOpen s 0 5]) g_init = LEUndef.
Proof.
  exists [LNew 0 0 (mkTree demo_root 20) (StVolatile 10 []); LMove 0 1], 0. split; [apply ended_ok|]; vm_compute; reflexivity.
Qed.
Print Assumptions C78_open_moved_from_refuted.
