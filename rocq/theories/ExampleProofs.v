(** * Proofs about the example programs *)

From Verif Require Import Base SplitModel SplitSpec SplitProofs FromStringModel FromStringSpec FromStringProofs HistoryModel StorageModel TerminalModel MenuModel
  SessionModel SessionSpec ResolveProofs SafetyProofs FileModel FileSpec FileProofs ExampleModel ExampleSpec.
Open Scope nat_scope.
Open Scope list_scope.

Section Example.
Context (P : platform).
Hypothesis Hstrict : strict P = false.
(** The exit actions, of the session and of the [Cli], print these texts; there are no other hooks. *)
Context (hook : nat -> SessionModel.hook -> list str -> list event -> uresult) (has : SessionModel.hook -> bool) (own all : list str).
Hypothesis Hown : forall sid tr, hook sid KSesExit [] tr = mkURes (map OOut own) UReturn.
Hypothesis Hall : forall sid tr, hook sid KCliExit [] tr = mkURes (map OOut all) UReturn.
Hypothesis Hhas : has KSesExit = true /\ has KCliExit = true /\ has KWrong = false /\ has KExcept = false.
Notation E := (mkEnv P (fun _ _ => None) (fun _ _ => None) ex_handler hook has).

(** ** Words *)
Lemma words_split line ws : words line ws <-> split line = Some ws.
Proof.
  split.
  - intros (l & t & Hw & <- & <-). apply split_line, Hw.
  - intros H. destruct (reading_exists line) as (l & t & Hw & Hs). exists l, t. split; [exact Hw|]. split; [exact Hs|].
    pose proof (split_line l t Hw) as H'. rewrite Hs, H in H'. congruence.
Qed.
Lemma words_unique line a b : words line a -> words line b -> a = b.
Proof. rewrite !words_split. congruence. Qed.

(** ** The menus *)
Definition ctx (p : place) : list cmd :=
  match p with Main => [ex_root] | Sub => [ex_sub; ex_root] | SubSub => [ex_subsub; ex_sub; ex_root] end.
Definition pid (p : place) : nat := match p with Main => 10 | Sub => 16 | SubSub => 19 end.
Lemma located p : locate (pid p) [] ex_root = Some (ctx p).
Proof. destruct p; vm_compute; reflexivity. Qed.

Section Scan.
Context (bi : hid -> list value -> world -> hres).
Notation no w := (EDone false w).
Lemma leaf0 i name d pd n t rest w : exec_leaf E bi (CFn i name true d [] pd (HUser n)) (t :: rest) w =
  if str_eqb name t then match rest with [] => run_fn E bi (HUser n) [] w | _ => no w end else no w.
Proof. cbn [exec_leaf negb length Nat.add]. destruct rest as [|r rest]; cbn [length Nat.eqb negb]; destruct (str_eqb name t); reflexivity. Qed.
Lemma leaf1 i name d pd n t rest w : exec_leaf E bi (CFn i name true d [PInt Int] pd (HUser n)) (t :: rest) w =
  if str_eqb name t then match rest with
    | [s] => match int_from_string P Int s with COk v => run_fn E bi (HUser n) [VInt v] w | CBad => no w | CUB => EUB end
    | _ => no w end else no w.
Proof.
  cbn [exec_leaf negb length Nat.add]. destruct rest as [|r [|r' rest]]; cbn [length Nat.eqb negb]; destruct (str_eqb name t); try reflexivity.
  cbn [convert_all convert e_plat]. destruct (int_from_string P Int r); reflexivity.
Qed.
Lemma menu_up up id name d pr kids anc t rest w :
  handle E bi (t :: rest) up (CMenu id name true d pr kids :: anc) w =
  if str_eqb name t || (up && str_eqb (lit "..") t) then match rest with [] => EDone true (set_cur id w) | _ => scan E bi rest (CMenu id name true d pr kids :: anc) w end
  else no w.
Proof.
  destruct rest as [|r rest].
  - cbn [handle negb]. destruct (str_eqb name t || _); reflexivity.
  - rewrite handle_scan. reflexivity.
Qed.
Lemma step_no (f : cmd -> world -> eres) k l w : f k w = no w -> try_all f (k :: l) w = try_all f l w.
Proof. intros H. cbn [try_all]. rewrite H. reflexivity. Qed.
Lemma bind_no r (f : world -> eres) : (forall w, f w = no w) -> e_bind r f = r.
Proof. intros H. destruct r as [[|] w| | |]; cbn; auto. Qed.
Lemma exec_menu id name en d pr kids toks c w : exec E bi toks c (CMenu id name en d pr kids) w = handle E bi toks false (CMenu id name en d pr kids :: c) w.
Proof. reflexivity. Qed.
Ltac skip := rewrite step_no by
  (first [cbn [exec]; rewrite leaf0 | cbn [exec]; rewrite leaf1 | unfold ex_sub at 1; rewrite exec_menu, menu_up | unfold ex_subsub at 1; rewrite exec_menu, menu_up]; cbn [andb orb];
   repeat match goal with H : str_eqb _ _ = false |- _ => rewrite H end; reflexivity).
Ltac each t := match goal with
  | |- context [if str_eqb ?a t then _ else _] => let H := fresh in destruct (str_eqb a t) eqn:H; [apply str_eqb_eq in H; subst t|]
  end.
Lemma scan_main t rest w : scan E bi (t :: rest) (ctx Main) w =
  if str_eqb (lit "hello") t then match rest with [] => run_fn E bi (HUser 0) [] w | _ => no w end
  else if str_eqb (lit "hello_everysession") t then match rest with [] => run_fn E bi (HUser 1) [] w | _ => no w end
  else if str_eqb (lit "answer") t then match rest with
    | [s] => match int_from_string P Int s with COk v => run_fn E bi (HUser 2) [VInt v] w | CBad => no w | CUB => EUB end
    | _ => no w end
  else if str_eqb (lit "color") t then match rest with [] => run_fn E bi (HUser 3) [] w | _ => no w end
  else if str_eqb (lit "nocolor") t then match rest with [] => run_fn E bi (HUser 4) [] w | _ => no w end
  else if str_eqb (lit "sub") t then match rest with [] => EDone true (set_cur 16 w) | _ => scan E bi rest (ctx Sub) w end
  else no w.
Proof.
  repeat each t.
  1-6: destruct rest as [|r [|r' rest]]; try reflexivity.
  - unfold scan. cbn [ctx ex_root cmd_en negb cmd_kids]. skip. skip. cbn [try_all exec]. rewrite leaf1. cbn [str_eqb].
    change (str_eqb (lit "answer") (lit "answer")) with true. cbn iota. destruct (int_from_string P Int r); reflexivity.
  - unfold scan at 1. cbn [ctx ex_root cmd_en negb cmd_kids]. do 5 skip. rewrite bind_no by reflexivity. cbn [try_all].
    rewrite bind_no by reflexivity. unfold ex_sub at 1. rewrite exec_menu, menu_up. reflexivity.
  - unfold scan at 1. cbn [ctx ex_root cmd_en negb cmd_kids]. do 5 skip. rewrite bind_no by reflexivity. cbn [try_all].
    rewrite bind_no by reflexivity. unfold ex_sub at 1. rewrite exec_menu, menu_up. reflexivity.
  - unfold scan. cbn [ctx ex_root cmd_en negb cmd_kids]. repeat skip. reflexivity.
Qed.
Lemma scan_sub t rest w : scan E bi (t :: rest) (ctx Sub) w =
  if str_eqb (lit "hello") t then match rest with [] => run_fn E bi (HUser 5) [] w | _ => no w end
  else if str_eqb (lit "demo") t then match rest with [] => run_fn E bi (HUser 6) [] w | _ => no w end
  else if str_eqb (lit "subsub") t then match rest with [] => EDone true (set_cur 19 w) | _ => scan E bi rest (ctx SubSub) w end
  else if str_eqb (lit "cli") t then match rest with [] => EDone true (set_cur 10 w) | _ => scan E bi rest (ctx Main) w end
  else if str_eqb (lit "..") t then match rest with [] => EDone true (set_cur 10 w) | _ => scan E bi rest (ctx Main) w end
  else no w.
Proof.
  repeat each t.
  1-2: destruct rest as [|r rest]; reflexivity.
  - unfold scan at 1. cbn [ctx ex_sub cmd_en negb cmd_kids]. do 2 skip. rewrite bind_no by (intros; reflexivity). cbn [try_all].
    rewrite bind_no by reflexivity. unfold ex_subsub at 1. rewrite exec_menu, menu_up. reflexivity.
  - unfold scan at 1. cbn [ctx ex_sub cmd_en negb cmd_kids]. do 3 skip. cbn [try_all e_bind]. unfold ex_root at 1. rewrite menu_up. reflexivity.
  - unfold scan at 1. cbn [ctx ex_sub cmd_en negb cmd_kids]. do 3 skip. cbn [try_all e_bind]. unfold ex_root at 1. rewrite menu_up. reflexivity.
  - unfold scan at 1. cbn [ctx ex_sub cmd_en negb cmd_kids]. do 3 skip. cbn [try_all e_bind]. unfold ex_root at 1. rewrite menu_up.
    cbn [andb]. repeat match goal with H : str_eqb _ _ = false |- _ => rewrite H end. reflexivity.
Qed.
Lemma scan_subsub t rest w : scan E bi (t :: rest) (ctx SubSub) w =
  if str_eqb (lit "hello") t then match rest with [] => run_fn E bi (HUser 7) [] w | _ => no w end
  else if str_eqb (lit "sub") t then match rest with [] => EDone true (set_cur 16 w) | _ => scan E bi rest (ctx Sub) w end
  else if str_eqb (lit "..") t then match rest with [] => EDone true (set_cur 16 w) | _ => scan E bi rest (ctx Sub) w end
  else no w.
Proof.
  repeat each t.
  - destruct rest as [|r rest]; reflexivity.
  - unfold scan at 1. cbn [ctx ex_subsub cmd_en negb cmd_kids]. skip. cbn [try_all e_bind]. unfold ex_sub at 1. rewrite menu_up. reflexivity.
  - unfold scan at 1. cbn [ctx ex_subsub cmd_en negb cmd_kids]. skip. cbn [try_all e_bind]. unfold ex_sub at 1. rewrite menu_up. reflexivity.
  - unfold scan at 1. cbn [ctx ex_subsub cmd_en negb cmd_kids]. skip. cbn [try_all e_bind]. unfold ex_sub at 1. rewrite menu_up.
    cbn [andb]. repeat match goal with H : str_eqb _ _ = false |- _ => rewrite H end. reflexivity.
Qed.

(** ** What the functions do *)
Definition upd (cur : nat) (evs : list event) (w : world) : world :=
  mkWorld (w_root w) (w_next w) (w_store w) (w_sid w) cur (w_hist w) (w_exit w) (w_trace w ++ evs).
Definition colour (b : bool) (e : event) : bool := match e with EvCall _ 3 _ => true | EvCall _ 4 _ => false | _ => b end.
Definition did (text : str) (go : option place) (col : option bool) (w w' : world) : Prop :=
  exists evs, w' = upd (match go with Some p => pid p | None => w_cur w end) evs w /\ shown evs = text /\
    (forall b, fold_left colour evs b = match col with Some c => c | None => b end) /\ forall k i, hooked k i evs = 0.
Lemma set_cur_did p w : did [] (Some p) None w (set_cur (pid p) w).
Proof. exists []. split; [unfold upd, set_cur; rewrite app_nil_r; reflexivity|]. split; [reflexivity|]. split; [reflexivity|]. intros [] ?; reflexivity. Qed.
Lemma hooked_nil evs : (forall i k l, ~ In (EvHook i k l) evs) -> forall k i, hooked k i evs = 0.
Proof.
  intros H k i. unfold hooked. induction evs as [|e evs IH]; [reflexivity|]. cbn [filter].
  destruct e; try (apply IH; intros a b c Hin; eapply H; right; exact Hin). exfalso. eapply H; left; reflexivity.
Qed.
Ltac fn := eexists; split; [cbn; reflexivity|]; eexists; split;
  [unfold upd, out, log; cbn; rewrite <- ?app_assoc; reflexivity|]; split; [cbn; rewrite ?app_nil_r; reflexivity|];
  split; [reflexivity|]; apply hooked_nil; cbn; intuition discriminate.
Lemma fn0 w : exists w', run_fn E bi (HUser 0) [] w = EDone true w' /\ did (lit "Hello, world" ++ nl) None None w w'.
Proof. fn. Qed.
Lemma fn1 w : exists w', run_fn E bi (HUser 1) [] w = EDone true w' /\ did (lit "Hello, everybody" ++ nl) None None w w'.
Proof. fn. Qed.
Lemma fn2 x w : exists w', run_fn E bi (HUser 2) [VInt x] w = EDone true w' /\ did (lit "The answer is: " ++ print_Z x ++ nl) None None w w'.
Proof. fn. Qed.
Lemma fn3 w : exists w', run_fn E bi (HUser 3) [] w = EDone true w' /\ did (lit "Colors ON" ++ nl) None (Some true) w w'.
Proof. fn. Qed.
Lemma fn4 w : exists w', run_fn E bi (HUser 4) [] w = EDone true w' /\ did (lit "Colors OFF" ++ nl) None (Some false) w w'.
Proof. fn. Qed.
Lemma fn5 w : exists w', run_fn E bi (HUser 5) [] w = EDone true w' /\ did (lit "Hello, submenu world" ++ nl) None None w w'.
Proof. fn. Qed.
Lemma fn6 w : exists w', run_fn E bi (HUser 6) [] w = EDone true w' /\ did (lit "This is a sample!" ++ nl) None None w w'.
Proof. fn. Qed.
Lemma fn7 w : exists w', run_fn E bi (HUser 7) [] w = EDone true w' /\ did (lit "Hello, subsubmenu world" ++ nl) None None w w'.
Proof. fn. Qed.

(** ** All lines in all places *)
Definition outcome (p : place) (ws : list str) (w : world) (r : eres) : Prop :=
  (exists text go col w', does p ws text go col /\ r = EDone true w' /\ did text go col w w') \/
  ((forall text go col, ~ does p ws text go col) /\ r = no w).
Lemma does_some p text go col : ~ does p [] text go col.
Proof. intros H. inversion H. Qed.
Ltac refute := right; split; [|reflexivity]; intros ? ? ? HD; inversion HD; subst;
  repeat match goal with H : door _ _ _ |- _ => inversion H; subst; clear H end;
  repeat match goal with H : str_eqb _ _ = false |- _ => vm_compute in H end;
  try discriminate; try (eapply does_some; eassumption).
Ltac yes c l := left; let HR := fresh in let HD := fresh in destruct l as (w' & HR & HD); do 3 eexists; exists w'; split; [eapply c; eassumption|]; split; [exact HR|exact HD].
Lemma outcome_through p t q rest w r : door p t q -> (forall q', door p t q' -> q' = q) -> rest <> [] ->
  (forall text go col, does p (t :: rest) text go col -> exists q', door p t q' /\ does q' rest text go col) ->
  outcome q rest w r -> outcome p (t :: rest) w r.
Proof.
  intros Hd Hu Hr Hinv [(text & go & col & w' & H & -> & H')|(H & ->)].
  - left. exists text, go, col, w'. split; [eapply d_through; eassumption|]. auto.
  - right. split; [|reflexivity]. intros text go col HD. destruct (Hinv _ _ _ HD) as (q' & Hq & HD'). rewrite (Hu _ Hq) in HD'. exact (H _ _ _ HD').
Qed.
Ltac through IH := eapply outcome_through; [constructor|intros ? HH; inversion HH; reflexivity|discriminate
  |intros ? ? ? HD; inversion HD; subst; [eexists; split; eassumption]|apply IH; [discriminate|assumption]].
Lemma scan_place ws : ws <> [] -> Forall (readable P) ws -> forall p w, outcome p ws w (scan E bi ws (ctx p) w).
Proof.
  induction ws as [|t rest IH]; [congruence|]. intros _ Hws p w. inversion Hws as [|? ? Ht Hrest]; subst.
  destruct p.
  - rewrite scan_main. repeat each t.
    + destruct rest as [|r rest]; [yes d_hello (fn0 w)|refute].
    + destruct rest as [|r rest]; [yes d_every (fn1 w)|refute].
    + destruct rest as [|r [|r' rest]]; [refute| |refute].
      inversion Hrest as [|? ? Hr _]; subst. destruct (int_types P Int r Hr (or_introl Hstrict)) as (Hi & Hub).
      destruct (int_from_string P Int r) as [v| |] eqn:Hc; [|refute|congruence].
      * pose proof (proj1 (Hi v) eq_refl) as Hv. yes d_answer (fn2 v w).
      * match goal with H : int_text _ _ ?v |- _ => apply Hi in H; discriminate end.
    + destruct rest as [|r rest]; [yes d_color (fn3 w)|refute].
    + destruct rest as [|r rest]; [yes d_nocolor (fn4 w)|refute].
    + destruct rest as [|r rest]; [|through IH].
      left. do 4 eexists. split; [apply d_enter; constructor|]. split; [reflexivity|apply (set_cur_did Sub)].
    + refute.
  - rewrite scan_sub. repeat each t.
    + destruct rest as [|r rest]; [yes d_sub (fn5 w)|refute].
    + destruct rest as [|r rest]; [yes d_demo (fn6 w)|refute].
    + destruct rest as [|r rest]; [|through IH].
      left. do 4 eexists. split; [apply d_enter; constructor|]. split; [reflexivity|apply (set_cur_did SubSub)].
    + destruct rest as [|r rest]; [|through IH].
      left. do 4 eexists. split; [apply d_enter; constructor|]. split; [reflexivity|apply (set_cur_did Main)].
    + destruct rest as [|r rest]; [|through IH].
      left. do 4 eexists. split; [apply d_enter; apply up1'|]. split; [reflexivity|apply (set_cur_did Main)].
    + refute.
  - rewrite scan_subsub. repeat each t.
    + destruct rest as [|r rest]; [yes d_subsub (fn7 w)|refute].
    + destruct rest as [|r rest]; [|through IH].
      left. do 4 eexists. split; [apply d_enter; constructor|]. split; [reflexivity|apply (set_cur_did Sub)].
    + destruct rest as [|r rest]; [|through IH].
      left. do 4 eexists. split; [apply d_enter; apply up2'|]. split; [reflexivity|apply (set_cur_did Sub)].
    + refute.
Qed.
End Scan.

(** ** The global menu *)
Section Global.
Context (rec : str -> world -> fres).
Notation bi := (builtin E rec).
Notation no w := (EDone false w).
Lemma gleaf0 i name d pd h t rest w : exec_leaf E bi (CFn i name true d [] pd h) (t :: rest) w =
  if str_eqb name t then match rest with [] => run_fn E bi h [] w | _ => no w end else no w.
Proof. cbn [exec_leaf negb length Nat.add]. destruct rest as [|r rest]; cbn [length Nat.eqb negb]; destruct (str_eqb name t); reflexivity. Qed.
Lemma gleaf1 i name d pd h t rest w : exec_leaf E bi (CFn i name true d [PInt UInt] pd h) (t :: rest) w =
  if str_eqb name t then match rest with
    | [s] => match int_from_string P UInt s with COk v => run_fn E bi h [VInt v] w | CBad => no w | CUB => EUB end
    | _ => no w end else no w.
Proof.
  cbn [exec_leaf negb length Nat.add]. destruct rest as [|r [|r' rest]]; cbn [length Nat.eqb negb]; destruct (str_eqb name t); try reflexivity.
  cbn [convert_all convert e_plat]. destruct (int_from_string P UInt r); reflexivity.
Qed.
Ltac gskip := rewrite step_no by (cbn [exec]; first [rewrite gleaf0 | rewrite gleaf1];
   repeat match goal with H : str_eqb _ _ = false |- _ => rewrite H end; reflexivity).
Ltac each t := match goal with
  | |- context [if str_eqb ?a t then _ else _] => let H := fresh in destruct (str_eqb a t) eqn:H; [apply str_eqb_eq in H; subst t|]
  end.
Lemma scan_global t rest w : scan E bi (t :: rest) [global_menu] w =
  if str_eqb (lit "help") t then match rest with [] => run_fn E bi HHelp [] w | _ => no w end
  else if str_eqb (lit "exit") t then match rest with [] => run_fn E bi HExit [] w | _ => no w end
  else if str_eqb (lit "history") t then match rest with [] => run_fn E bi HHistory [] w | _ => no w end
  else if str_eqb (lit "!") t then match rest with
    | [s] => match int_from_string P UInt s with COk v => run_fn E bi HBang [VInt v] w | CBad => no w | CUB => EUB end
    | _ => no w end
  else no w.
Proof.
  repeat each t; unfold scan; cbn [global_menu cmd_en negb cmd_kids]; rewrite bind_no by reflexivity.
  - destruct rest as [|r rest]; [|repeat gskip; reflexivity]. cbn [try_all exec]. rewrite bind_no; [apply (gleaf0 1 (lit "help"))|reflexivity].
  - destruct rest as [|r rest]; [|repeat gskip; reflexivity]. gskip. cbn [try_all exec]. rewrite bind_no; [apply (gleaf0 2 (lit "exit"))|reflexivity].
  - destruct rest as [|r rest]; [|repeat gskip; reflexivity]. do 2 gskip. cbn [try_all exec]. rewrite bind_no; [apply (gleaf0 3 (lit "history"))|reflexivity].
  - do 3 gskip. cbn [try_all exec]. rewrite bind_no by reflexivity. rewrite gleaf1. reflexivity.
  - repeat gskip. reflexivity.
Qed.
End Global.

(** ** Lines *)
Definition ok (s : state) : Prop := (0 <= s_number s)%Z /\ forall l ws, s_last s = Some l -> words l ws -> ~ is_recall ws.
Definition fresh (s : state) : Prop := s_last s = None /\ s_number s = 0%Z.
Definition hist_like (s : state) (h : history) : Prop :=
  exists cur n, h = mkHistory 1 (match s_last s with Some l => [l] | None => [] end) cur n false (s_number s).
Definition like (s : state) (w : world) : Prop :=
  w_root w = ex_root /\ w_cur w = pid (s_place s) /\ w_exit w = false /\ ex_color (w_trace w) = s_color s /\ hist_like s (w_hist w).

Lemma new_like s line h : hist_like s h -> exists h', new_command h line = Some h' /\ hist_like (remember line s) h'.
Proof.
  intros (cur & n & ->). unfold new_command, remember. cbn [h_browse h_buf h_max h_cmds h_oldest].
  destruct (s_last s) as [l|]; cbn.
  - destruct (str_eqb l line) eqn:H.
    + apply str_eqb_eq in H. subst l. eexists. split; [reflexivity|]. unfold hist_like. cbn. destruct (list_eq_dec ascii_dec line line); [|congruence]. eauto.
    + eexists. split; [reflexivity|]. unfold hist_like. cbn. destruct (list_eq_dec ascii_dec l line) as [->|]; [rewrite str_eqb_refl in H; discriminate|]. eauto.
  - eexists. split; [reflexivity|]. unfold hist_like. cbn. eauto.
Qed.
Lemma color_app a b : ex_color (a ++ b) = fold_left colour b (ex_color a).
Proof. unfold ex_color. rewrite fold_left_app. reflexivity. Qed.
Lemma shown_app a b : shown (a ++ b) = shown a ++ shown b.
Proof. apply flat_map_app. Qed.
Lemma hooked_app k i a b : hooked k i (a ++ b) = hooked k i a + hooked k i b.
Proof. unfold hooked. rewrite filter_app, app_length. reflexivity. Qed.
Lemma did_like text go col s w w' s' : like s w -> did text go col w w' -> hist_like s' (w_hist w) ->
  s_place s' = match go with Some p => p | None => s_place s end -> s_color s' = match col with Some c => c | None => s_color s end ->
  like s' w' /\ shown (w_trace w') = shown (w_trace w) ++ text /\ (forall k i, hooked k i (w_trace w') = hooked k i (w_trace w)) /\ w_sid w' = w_sid w.
Proof.
  intros (Hr & Hc & Hx & Hcol & _) (evs & -> & <- & He & Hk) Hh Hp Hs. unfold upd. cbn [w_trace w_sid]. unfold like. cbn [w_root w_cur w_exit w_trace w_hist].
  split; [split; [|split; [|split; [|split]]]|split; [|split]].
  - exact Hr.
  - rewrite Hp. destruct go; [reflexivity|exact Hc].
  - exact Hx.
  - rewrite color_app, He, Hs, Hcol. reflexivity.
  - exact Hh.
  - apply shown_app.
  - intros k i. rewrite hooked_app, Hk. lia.
  - reflexivity.
Qed.
Lemma out_like text s w : like s w -> like s (out text w) /\ shown (w_trace (out text w)) = shown (w_trace w) ++ text /\
  (forall k i, hooked k i (w_trace (out text w)) = hooked k i (w_trace w)) /\ w_sid (out text w) = w_sid w.
Proof.
  intros H. apply (did_like text None None s w (out text w) s H).
  - exists [EvOut (w_sid w) text]. split; [reflexivity|]. split; [apply app_nil_r|]. split; [reflexivity|]. intros [] ?; reflexivity.
  - apply H.
  - reflexivity.
  - reflexivity.
Qed.
Lemma ok_remember s line ws : ok s -> words line ws -> ~ is_recall ws -> ok (remember line s).
Proof.
  intros (Hn & Hl) Hw Hr. split.
  - cbn. destruct (s_last s); [destruct (list_eq_dec ascii_dec _ _)|]; lia.
  - cbn. intros l ws' Hs Hw'. injection Hs as <-. rewrite (words_unique _ _ _ Hw' Hw). exact Hr.
Qed.

Definition continues (s : state) (line : str) (w : world) (r : fres) : Prop :=
  exists text s' w', says s line text s' /\ r = FOk w' /\ like s' w' /\ ok s' /\ (fresh s' -> fresh s /\ words line []) /\
    shown (w_trace w') = shown (w_trace w) ++ text /\ (forall k i, hooked k i (w_trace w') = hooked k i (w_trace w)) /\ w_sid w' = w_sid w.
Definition ends (line : str) (w : world) (r : fres) : Prop :=
  words line [lit "exit"] /\ exists w', r = FOk w' /\ shown (w_trace w') = shown (w_trace w) ++ concat own ++ concat all /\
    hooked KSesExit (w_sid w) (w_trace w') = S (hooked KSesExit (w_sid w) (w_trace w)) /\ w_exit w' = true.

(** A line that is no global command. *)
Lemma menus_line rec line s w ws : like (remember line s) w -> ok s -> words line ws -> ws <> [] -> Forall (readable P) ws ->
  ws <> [lit "help"] -> ws <> [lit "exit"] -> ws <> [lit "history"] -> ~ is_recall ws ->
  scan E (builtin E rec) ws [global_menu] w = EDone false w ->
  exists b w', dispatch E (builtin E rec) ws line w = EDone b w' /\ continues s line w (FOk w').
Proof.
  intros Hl Hok Hw Hne Hws H1 H2 H3 H4 Hg. unfold dispatch. rewrite Hg. cbn [e_bind].
  pose proof Hl as (Hr & Hc & _). rewrite Hr, Hc. change (s_place (remember line s)) with (s_place s). rewrite located.
  pose proof (ok_remember s line ws Hok Hw H4) as Hok'.
  destruct (scan_place (no_builtin) ws Hne Hws (s_place s) w) as [(text & go & col & w' & Hd & -> & Hdid)|(Hno & ->)]; cbn [e_bind].
  - exists true, w'. split; [reflexivity|].
    set (s' := mkState (match go with Some p => p | None => s_place s end) (match col with Some c => c | None => s_color s end)
         (s_codes s) (Some line) (s_number (remember line s))).
    exists text, s', w'. split; [apply (y_does s line ws text go col Hw Hd)|]. split; [reflexivity|].
    destruct (did_like text go col (remember line s) w w' s' Hl Hdid) as (A & B & C & D); [apply Hl|reflexivity|reflexivity|].
    split; [exact A|]. split; [split; [apply Hok'|exact (proj2 Hok')]|]. split; [intros (Hx & _); discriminate|]. auto.
  - assert (Hwr : wrong_command E line w = HOk (out (lit "wrong command: " ++ line ++ nl) w)).
    { unfold wrong_command. cbn [e_has]. destruct Hhas as (_ & _ & -> & _). reflexivity. }
    rewrite Hwr. cbn iota.
    exists false. eexists. split; [reflexivity|].
    exists (lit "wrong command: " ++ line ++ nl), (remember line s). eexists. split; [apply (y_wrong s line ws); assumption|]. split; [reflexivity|].
    destruct (out_like (lit "wrong command: " ++ line ++ nl) _ _ Hl) as (A & B & C & D).
    split; [exact A|]. split; [exact Hok'|]. split; [intros (Hx & _); discriminate|]. auto.
Qed.

Lemma outs_app l : forall w, let w' := apply_ops (map OOut l) w in
  shown (w_trace w') = shown (w_trace w) ++ concat l /\ (forall k i, hooked k i (w_trace w') = hooked k i (w_trace w)) /\
  w_hist w' = w_hist w /\ w_sid w' = w_sid w.
Proof.
  cbn zeta. induction l as [|t l IH]; intros w; [rewrite app_nil_r; auto|]. unfold apply_ops in *. cbn [map fold_left apply_op].
  destruct (IH (out t w)) as (A & B & C & D). rewrite A, C, D. change (w_trace (out t w)) with (w_trace w ++ [EvOut (w_sid w) t]). rewrite shown_app. cbn [shown flat_map concat].
  rewrite app_nil_r, <- app_assoc. split; [reflexivity|]. split; [|auto]. intros k i. rewrite B. change (w_trace (out t w)) with (w_trace w ++ [EvOut (w_sid w) t]). rewrite hooked_app. cbn. lia.
Qed.
Lemma exit_ends s w : hist_like s (w_hist w) -> exists w', session_exit E w = HOk w' /\
  shown (w_trace w') = shown (w_trace w) ++ concat own ++ concat all /\
  hooked KSesExit (w_sid w) (w_trace w') = S (hooked KSesExit (w_sid w) (w_trace w)) /\ w_exit w' = true.
Proof.
  intros (cur & n & Hh). unfold session_exit. cbn [e_has]. destruct Hhas as (-> & -> & _).
  unfold run_hook at 1. cbn [e_hook]. rewrite Hown. cbn [ur_ops ur_end h_bind].
  unfold run_hook. cbn [e_hook]. rewrite Hall. cbn [ur_ops ur_end h_bind].
  set (w1 := log (EvHook (w_sid w) KSesExit []) w). set (w2 := apply_ops (map OOut own) w1).
  set (w3 := log (EvHook (w_sid w2) KCliExit []) w2). set (w4 := apply_ops (map OOut all) w3).
  destruct (outs_app own w1) as (A1 & B1 & C1 & D1). fold w2 in A1, B1, C1, D1. destruct (outs_app all w3) as (A2 & B2 & C2 & D2). fold w4 in A2, B2, C2, D2.
  assert (Hg : exists c, get_commands (w_hist w4) = Some c).
  { rewrite C2. change (w_hist w3) with (w_hist w2). rewrite C1. change (w_hist w1) with (w_hist w). rewrite Hh. unfold get_commands. cbn [h_browse]. eauto. }
  destruct Hg as (c & ->). eexists. split; [reflexivity|]. cbn [w_trace set_exit set_store w_exit].
  change (w_trace (set_exit true (set_store (st_store (w_store w4) c) w4))) with (w_trace w4).
  rewrite A2, B2. change (w_trace w3) with (w_trace w2 ++ [EvHook (w_sid w2) KCliExit []]). rewrite shown_app, hooked_app, A1, B1.
  change (w_trace w1) with (w_trace w ++ [EvHook (w_sid w) KSesExit []]). rewrite shown_app, hooked_app. split; [|split].
  - cbn [shown flat_map]. rewrite !app_nil_r, <- app_assoc. reflexivity.
  - assert (H1 : hooked KSesExit (w_sid w) [EvHook (w_sid w) KSesExit []] = 1) by (unfold hooked; cbn [filter]; rewrite Nat.eqb_refl; reflexivity).
    assert (H2 : hooked KSesExit (w_sid w) [EvHook (w_sid w2) KCliExit []] = 0) by (unfold hooked; cbn [filter]; rewrite andb_false_r; reflexivity). lia.
  - reflexivity.
Qed.
Lemma show_one line num cur n : (0 <= num)%Z ->
  show (mkHistory 1 [line] cur n false num) = Some (nl ++ print_Z num ++ tab ++ line ++ nl ++ nl).
Proof.
  intros Hn. unfold show. cbn [h_buf length show_loop nth_error]. unfold index_to_id, h_size, usub. cbn [h_oldest h_buf length].
  change (Z.of_nat 1) with 1%Z. change (Z.of_nat 0) with 0%Z.
  destruct (Z.ltb_spec (num + 1) 1); [lia|]. destruct (Z.ltb_spec (num + 1 - 1) 0); [lia|].
  unfold print_Z. destruct (Z.ltb_spec num 0); [lia|]. replace (num + 1 - 1 - 0)%Z with num by lia.
  unfold nl, tab. cbv beta iota. do 2 f_equal. rewrite <- !app_assoc. reflexivity.
Qed.
Lemma at_none num v cur n : (1 <= num)%Z -> at_id (mkHistory 1 [] cur n false num) v = AtExc.
Proof.
  intros Hn. unfold at_id, id_to_index, h_size, usub. cbn [h_oldest h_buf length]. change (Z.of_nat 0) with 0%Z.
  destruct (Z.ltb_spec (num + 0) 1); [lia|]. destruct (Z.ltb_spec v num); [reflexivity|]. destruct (Z.ltb_spec (num + 0 - 1) v); [reflexivity|lia].
Qed.

Lemma feed_line fuel line s w : like s w -> ok s -> readable P line ->
  (fresh s -> forall ws, words line ws -> ~ is_recall ws) ->
  continues s line w (feed E (S fuel) line w) \/ ends line w (feed E (S fuel) line w).
Proof.
  intros Hl Hok Hread Hf. change (feed E (S fuel) line w) with (feed_body E (feed E fuel) line w). unfold feed_body.
  destruct (split line) as [ws|] eqn:Hs; [|destruct (split_safe line) as (? & H & _); congruence].
  pose proof (proj2 (words_split _ _) Hs) as Hw.
  destruct ws as [|t rest].
  - left. exists [], s, w. split; [apply y_blank, Hw|]. rewrite app_nil_r. auto 10.
  - destruct (new_like s line (w_hist w)) as (h' & Hn & Hh'); [apply Hl|]. rewrite Hn. set (w1 := set_hist h' w).
    assert (Hl1 : like (remember line s) w1).
    { destruct Hl as (A & B & C & D & _). repeat split; assumption. }
    assert (Hws : Forall (readable P) (t :: rest)) by (apply (legible_words E line); [exact Hread|exact Hs]).
    assert (Hmenus : t :: rest <> [lit "help"] -> t :: rest <> [lit "exit"] -> t :: rest <> [lit "history"] -> ~ is_recall (t :: rest) ->
      scan E (builtin E (feed E fuel)) (t :: rest) [global_menu] w1 = EDone false w1 ->
      continues s line w (match dispatch E (builtin E (feed E fuel)) (t :: rest) line w1 with
          | EDone _ w' => FOk w'
          | EExc (XBadCast what) w' | EExc (XStd what) w' => hres_fres (std_exception E line what w')
          | EExc XOther w' => FOk (out (lit "Cli. Unknown exception caught handling command line """ ++ line ++ lit """" ++ nl) w')
          | EUB => FUB
          | EFuel => FFuel
          end) \/ ends line w (match dispatch E (builtin E (feed E fuel)) (t :: rest) line w1 with
          | EDone _ w' => FOk w'
          | EExc (XBadCast what) w' | EExc (XStd what) w' => hres_fres (std_exception E line what w')
          | EExc XOther w' => FOk (out (lit "Cli. Unknown exception caught handling command line """ ++ line ++ lit """" ++ nl) w')
          | EUB => FUB
          | EFuel => FFuel
          end)).
    { intros H1 H2 H3 H4 Hg. left.
      destruct (menus_line (feed E fuel) line s w1 (t :: rest) Hl1 Hok Hw ltac:(discriminate) Hws H1 H2 H3 H4 Hg) as (b & w' & -> & H). exact H. }
    pose proof (scan_global (feed E fuel) t rest w1) as Hg.
    assert (Hbang : t <> lit "!" -> ~ is_recall (t :: rest)).
    { intros Ht (x & v & Hx & _). apply Ht. exact (f_equal (hd []) Hx). }
    destruct (str_eqb (lit "help") t) eqn:E1; [apply str_eqb_eq in E1; subst t; destruct rest as [|r rest]|].
    { left. unfold dispatch. rewrite Hg. cbn [run_fn builtin]. unfold help_text.
      pose proof Hl1 as (Hr & Hc & _). rewrite Hr, Hc. change (s_place (remember line s)) with (s_place s). rewrite located. cbn [e_bind].
      assert (Ht : lit "Commands available:" ++ nl ++ main_help [global_menu] ++ main_help (ctx (s_place s)) = global_help ++ place_help (s_place s))
        by (destruct (s_place s); vm_compute; reflexivity).
      rewrite Ht. exists (global_help ++ place_help (s_place s)), (remember line s). eexists. split; [apply y_help, Hw|]. split; [reflexivity|].
      destruct (out_like (global_help ++ place_help (s_place s)) _ _ Hl1) as (A & B & C & D). split; [exact A|].
      split; [eapply ok_remember; [exact Hok|exact Hw|apply Hbang; discriminate]|]. split; [intros (Hx & _); discriminate|]. auto. }
    { apply Hmenus; try discriminate; [apply Hbang; discriminate|exact Hg]. }
    destruct (str_eqb (lit "exit") t) eqn:E2; [apply str_eqb_eq in E2; subst t; destruct rest as [|r rest]|].
    { right. split; [exact Hw|]. unfold dispatch. rewrite Hg. cbn [run_fn builtin].
      destruct (exit_ends (remember line s) w1 Hh') as (w' & -> & A & B & C). cbn [e_bind]. exists w'. auto. }
    { apply Hmenus; try discriminate; [apply Hbang; discriminate|exact Hg]. }
    destruct (str_eqb (lit "history") t) eqn:E3; [apply str_eqb_eq in E3; subst t; destruct rest as [|r rest]|].
    { left. unfold dispatch. rewrite Hg. cbn [run_fn builtin].
      assert (Hk : ok (remember line s)) by (eapply ok_remember; [exact Hok|exact Hw|apply Hbang; discriminate]).
      destruct Hh' as (cur & n & Hh'). change (w_hist w1) with h'. rewrite Hh'. cbn [s_last remember].
      rewrite show_one by apply Hk. cbn [e_bind].
      exists (nl ++ print_Z (s_number (remember line s)) ++ tab ++ line ++ nl ++ nl), (remember line s). eexists.
      split; [apply y_history, Hw|]. split; [reflexivity|].
      destruct (out_like (nl ++ print_Z (s_number (remember line s)) ++ tab ++ line ++ nl ++ nl) _ _ Hl1) as (A & B & C & D). split; [exact A|].
      split; [exact Hk|]. split; [intros (Hx & _); discriminate|]. auto. }
    { apply Hmenus; try discriminate; [apply Hbang; discriminate|exact Hg]. }
    destruct (str_eqb (lit "!") t) eqn:E4; [apply str_eqb_eq in E4; subst t|].
    { destruct rest as [|x [|x' rest]].
      - apply Hmenus; try discriminate; [|exact Hg]. intros (y & v & Hy & _). discriminate.
      - inversion Hws as [|? ? _ Hws']; subst. inversion Hws' as [|? ? Hx _]; subst.
        destruct (int_types P UInt x Hx (or_introl Hstrict)) as (Hi & Hub).
        destruct (int_from_string P UInt x) as [v| |] eqn:Hc; [| |congruence].
        2: { apply Hmenus; try discriminate; [|exact Hg]. intros (y & v & Hy & Hv). apply (f_equal (@tl _)) in Hy. injection Hy as <-.
             apply Hi in Hv. discriminate. }
        left. assert (Hrec : is_recall [lit "!"; x]) by (exists x, v; split; [reflexivity|apply Hi; reflexivity]).
        assert (Hnum : (1 <= s_number (remember line s))%Z).
        { destruct Hok as (Hn0 & Hlast). cbn. destruct (s_last s) as [l|] eqn:Hsl.
          - destruct (list_eq_dec ascii_dec l line) as [->|]; [|lia]. exfalso. exact (Hlast line _ eq_refl Hw Hrec).
          - assert (s_number s <> 0%Z); [|lia]. intros H0. apply (Hf (conj Hsl H0) _ Hw Hrec). }
        unfold dispatch. rewrite Hg. cbn [run_fn builtin].
        destruct Hh' as (cur & n & Hh'). change (w_hist w1) with h'. rewrite Hh'. cbn [s_last remember forget_latest h_buf].
        unfold with_buf. cbn [h_max h_cur h_cmds h_browse h_oldest]. rewrite at_none by exact Hnum. cbn [out_of_range e_bind].
        assert (Hex : forall w, std_exception E line (lit "Index not found in history") w = HOk (out (lit "Index not found in history" ++ nl) w)).
        { intros w'. unfold std_exception. cbn [e_has]. destruct Hhas as (_ & _ & _ & ->). reflexivity. }
        rewrite Hex. cbn [hres_fres].
        set (s' := mkState (s_place s) (s_color s) (s_codes s) None (s_number (remember line s))).
        exists (lit "Index not found in history" ++ nl), s'. eexists. split; [eapply y_recall; eassumption|]. split; [reflexivity|].
        match goal with |- like _ (out _ ?w') /\ _ => assert (Hl2 : like s' w') end.
        { destruct Hl1 as (A & B & C & D & _). repeat split; try assumption. exists cur, n. reflexivity. }
        destruct (out_like (lit "Index not found in history" ++ nl) _ _ Hl2) as (A & B & C & D). split; [exact A|].
        split; [split; [cbn; cbn in Hnum; lia|intros ? ? Hx'; discriminate]|]. split; [intros (_ & Hx'); cbn in Hx', Hnum; lia|]. auto.
      - apply Hmenus; try discriminate; [|exact Hg]. intros (y & v & Hy & _). discriminate. }
    assert (Hneq : forall a, str_eqb a t = false -> t <> a) by (intros a H ->; rewrite str_eqb_refl in H; discriminate).
    apply Hmenus; [intros H; apply (f_equal (hd [])) in H; cbn [hd] in H; revert H; apply Hneq; assumption..| |exact Hg].
    apply Hbang, Hneq, E4.
Qed.

(** ** Sessions *)
Lemma prompt_like tty s w : like s w ->
  prompt tty (ex_color (w_trace w)) (s_codes s) w = Some (shown_prompt tty s, s_codes (prompted s)).
Proof.
  intros (Hr & Hc & Hx & Hcol & _). unfold prompt, prompt_text. rewrite Hx, Hr, Hc, located, Hcol.
  unfold shown_prompt, prompted. cbn [s_codes]. destruct (s_place s), (s_color s), (s_codes s), tty; vm_compute; reflexivity.
Qed.
End Example.

Section Script.
Context (P : platform).
Hypothesis Hstrict : strict P = false.
Notation E := (file_env (ex_env P)).
Let Hown : forall sid tr, e_hook E sid KSesExit [] tr = mkURes (map OOut []) UReturn := fun _ _ => eq_refl.
Let Hall : forall sid tr, e_hook E sid KCliExit [] tr = mkURes (map OOut [goodbye]) UReturn := fun _ _ => eq_refl.
Let Hhas : e_has E KSesExit = true /\ e_has E KCliExit = true /\ e_has E KWrong = false /\ e_has E KExcept = false := conj eq_refl (conj eq_refl (conj eq_refl eq_refl)).
Lemma file_exit s w : hist_like s (w_hist w) -> exists w', session_exit E w = HOk w' /\
  shown (w_trace w') = shown (w_trace w) ++ goodbye /\
  hooked KSesExit (w_sid w) (w_trace w') = S (hooked KSesExit (w_sid w) (w_trace w)) /\ w_exit w' = true.
Proof. exact (exit_ends P _ _ [] [goodbye] Hown Hall Hhas s w). Qed.
Lemma file_line fuel line s w : like s w -> ok s -> readable P line ->
  (fresh s -> forall ws, words line ws -> ~ is_recall ws) ->
  continues s line w (feed E (S fuel) line w) \/ ends [] [goodbye] line w (feed E (S fuel) line w).
Proof. exact (feed_line P Hstrict _ _ [] [goodbye] Hown Hall Hhas fuel line s w). Qed.
Lemma script_nil fuel tty f w : script E fuel tty ex_color [] f w =
  match prompt tty (ex_color (w_trace w)) f w with
  | None => SUB
  | Some (b, _) => match session_exit E (out b w) with HOk w' => SOk w' | HExc x w' => SExc x w' | HUB => SUB | HFuel => SFuel end
  end.
Proof. reflexivity. Qed.
Lemma script_cons fuel tty l ls f w : script E fuel tty ex_color (l :: ls) f w =
  match prompt tty (ex_color (w_trace w)) f w with
  | None => SUB
  | Some (b, f') =>
      match feed E fuel l (out b w) with
      | FOk w' => if Nat.ltb (hooked KSesExit (w_sid w) (w_trace w)) (hooked KSesExit (w_sid w) (w_trace w')) then SOk w'
                  else script E fuel tty ex_color ls f' w'
      | FExc x w' => SExc x w' | FUB => SUB | FFuel => SFuel
      end
  end.
Proof. reflexivity. Qed.
Lemma script_session fuel tty ls : forall s w, like s w -> ok s -> (fresh s -> ~ recall_first ls) -> Forall (readable P) ls ->
  exists o w', script E (S fuel) tty ex_color ls (s_codes s) w = SOk w' /\ session tty s ls o /\ shown (w_trace w') = shown (w_trace w) ++ o.
Proof.
  induction ls as [|line ls IH]; intros s w Hl Hok Hf Hread; rewrite ?script_nil, ?script_cons, (prompt_like tty s w Hl);
    destruct (out_like (shown_prompt tty s) s w Hl) as (Hl' & Hshown & Hhook & Hsid).
  - destruct (file_exit s (out (shown_prompt tty s) w)) as (w' & -> & A & _); [apply Hl'|].
    exists (shown_prompt tty s ++ goodbye), w'. split; [reflexivity|]. split; [apply x_end|]. rewrite A, Hshown, <- app_assoc. reflexivity.
  - assert (Hl2 : like (prompted s) (out (shown_prompt tty s) w)) by exact Hl'.
    inversion Hread as [|? ? Hr1 Hr2]; subst.
    destruct (file_line fuel line (prompted s) (out (shown_prompt tty s) w) Hl2 Hok Hr1) as [H|H].
    { intros Hfr ws Hw Hrec. apply (Hf Hfr). cbn. left. eauto. }
    + destruct H as (text & s' & w' & Hsays & Hfeed & Hlike & Hok' & Hfr & Hsh & Hhk & Hsd).
      rewrite Hfeed.
      rewrite Hhk, Hhook, Nat.ltb_irrefl.
      assert (Hcodes : s_codes (prompted s) = s_codes s') by (destruct Hsays; reflexivity).
      rewrite Hcodes.
      destruct (IH s' w' Hlike Hok') as (o & w2 & Hs & Hses & Hsh2); [|exact Hr2|].
      { intros Hx Hrec. destruct (Hfr Hx) as (Hx' & Hb). apply (Hf Hx'). cbn. right. auto. }
      exists (shown_prompt tty s ++ text ++ o), w2. split; [exact Hs|]. split; [eapply x_line; eassumption|].
      rewrite Hsh2, Hsh, Hshown, <- !app_assoc. reflexivity.
    + destruct H as (Hw & w' & Hfeed & Hsh & Hk & _). cbn [concat app] in Hsh. rewrite app_nil_r in Hsh.
      rewrite Hfeed.
      rewrite Hsid in Hk. rewrite Hk, Hhook. destruct (Nat.ltb_spec (hooked KSesExit (w_sid w) (w_trace w)) (S (hooked KSesExit (w_sid w) (w_trace w)))); [|lia].
      exists (shown_prompt tty s ++ goodbye), w'. split; [reflexivity|]. split; [apply x_exit, Hw|].
      rewrite Hsh, Hshown, <- app_assoc. reflexivity.
Qed.
Lemma lines_readable text ls rest : lines_of text ls rest -> readable P text -> Forall (readable P) ls.
Proof.
  intros (-> & _) [H|H]; apply Forall_forall; intros l Hl; [left; exact H|right].
  apply Forall_app in H as (H & _). unfold plain in H. rewrite Forall_concat in H. rewrite Forall_forall in H.
  assert (Hin : In (l ++ nl) (map (fun l => l ++ nl) ls)) by (apply (in_map (fun l => l ++ nl)), Hl).
  apply H in Hin. apply Forall_app in Hin as (Hin & _). exact Hin.
Qed.
Lemma main_session tty n fuel text ls rest : readable P text -> lines_of text ls rest -> length ls < n -> ~ recall_first ls ->
  exists f o, ex_main P tty n (S fuel) text = LOk f /\ session tty start ls o /\ shown (w_trace (fs_world f)) = o.
Proof.
  intros Hread Hlines Hn Hrec. unfold ex_main.
  set (w0 := open_session 0 1 ex_root 21 (StVolatile 1000 []) []).
  change (open_file (mkIn text false false) true 0 ex_root 21 (StVolatile 1000 []) []) with (Some (mkFs w0 false (mkIn text false false) false)). cbn iota.
  pose proof (proj1 (start_script (ex_env P) (S fuel) tty ex_color (mkFs w0 false (mkIn text false false) false) ls rest n eq_refl eq_refl Hlines Hn)) as Hse.
  unfold run_script in Hse. change (session_enter _ (fs_world _)) with (HOk w0) in Hse. cbn iota in Hse.
  destruct (script_session fuel tty ls start w0) as (o & w' & Hs & Hses & Hsh).
  - split; [reflexivity|]. split; [reflexivity|]. split; [reflexivity|]. split; [reflexivity|]. exists 0, 0. reflexivity.
  - split; [reflexivity|]. intros l ws Hx; discriminate.
  - intros _. exact Hrec.
  - exact (lines_readable text ls rest Hlines Hread).
  - change (s_codes start) with false in Hs. cbn [fs_force] in Hse. change (FE (ex_env P)) with (file_env (ex_env P)) in Hse. rewrite Hs in Hse.
    destruct (fs_start _ _ _ _ _ _ _) as [f|x f| |]; cbn in Hse; try contradiction. subst w'.
    exists f, o. split; [reflexivity|]. split; [exact Hses|]. exact Hsh.
Qed.
End Script.

(** ** The specification determines the output *)
Lemma digit_value_unique c d e : is_digit c d -> is_digit c e -> d = e.
Proof.
  intros (Hd & H1) (He & H2). assert (H : Z.to_nat d = Z.to_nat e); [|lia].
  assert (ND : NoDup digit_chars) by (vm_compute; repeat constructor; cbn; intuition discriminate).
  eapply (proj1 (NoDup_nth_error digit_chars) ND); [apply nth_error_Some; congruence|congruence].
Qed.
Lemma digits_unique s v v' : digits s v -> digits s v' -> v = v'.
Proof.
  intros H; revert v'; induction H as [|c d s v Hc H IH]; intros v' H'; inversion H' as [|? d' ? u Hc' Hs']; subst; [reflexivity|].
  rewrite (digit_value_unique c d d' Hc Hc'), (IH u Hs'). reflexivity.
Qed.
Lemma signs_not_digits c v : c = "+"%char \/ c = "-"%char -> ~ is_digit c v.
Proof.
  intros Hc (Hv & H). apply nth_error_In in H. vm_compute in H. destruct Hc; subst; intuition discriminate.
Qed.
Lemma decimal_no_sign c s v : c = "+"%char \/ c = "-"%char -> ~ decimal (c :: s) v.
Proof. intros Hc (_ & H). inversion H; subst. eapply signs_not_digits; eassumption. Qed.
Lemma int_text_unique t s v v' : int_text t s v -> int_text t s v' -> v = v'.
Proof.
  intros ([H|[(r & E1 & H)|(_ & r & E1 & H)]] & _) ([H'|[(r' & E2 & H')|(_ & r' & E2 & H')]] & _).
  - exact (digits_unique _ _ _ (proj2 H) (proj2 H')).
  - exfalso. rewrite E2 in H. exact (decimal_no_sign _ _ _ (or_introl eq_refl) H).
  - exfalso. rewrite E2 in H. exact (decimal_no_sign _ _ _ (or_intror eq_refl) H).
  - exfalso. rewrite E1 in H'. exact (decimal_no_sign _ _ _ (or_introl eq_refl) H').
  - rewrite E1 in E2. injection E2 as <-. exact (digits_unique _ _ _ (proj2 H) (proj2 H')).
  - rewrite E1 in E2. discriminate.
  - exfalso. rewrite E1 in H'. exact (decimal_no_sign _ _ _ (or_intror eq_refl) H').
  - rewrite E1 in E2. discriminate.
  - rewrite E1 in E2. injection E2 as <-. pose proof (digits_unique _ _ _ (proj2 H) (proj2 H')). lia.
Qed.
Lemma does_unique p ws t g c : does p ws t g c -> forall t' g' c', does p ws t' g' c' -> t = t' /\ g = g' /\ c = c'.
Proof.
  induction 1 as [| |s v Hv| | | | | |p w q Hd|p w q ws t g c Hd H IH]; intros t' g' c' H'; inversion H'; subst;
    repeat match goal with X : door _ _ _ |- _ => inversion X; subst; clear X end;
    try (exfalso; eapply does_some; eassumption); try discriminate; try (split; [|split]; reflexivity); auto.
  match goal with X : int_text Int s ?u |- _ => rewrite (int_text_unique _ _ _ _ Hv X) end. auto.
Qed.
Definition globals : list str := [lit "help"; lit "exit"; lit "history"; lit "!"].
Lemma no_global p g ws t go c : In g globals -> ~ does p (g :: ws) t go c.
Proof.
  intros Hg H. inversion H; subst; repeat match goal with X : door _ _ _ |- _ => inversion X; subst; clear X end;
    vm_compute in Hg; intuition discriminate.
Qed.
Lemma recall_head ws : is_recall ws -> exists s, ws = [lit "!"; s].
Proof. intros (s & v & H & _). eauto. Qed.
Lemma says_unique s line t r t' r' : says s line t r -> says s line t' r' -> t = t' /\ r = r'.
Proof.
  intros H H'.
  destruct H as [A|A|A|ws A B|ws t go col A B|ws A B1 B2 B3 B4 B5 B6], H' as [A'|A'|A'|ws' A' B'|ws' t' go' col' A' B'|ws' A' B1' B2' B3' B4' B5' B6'];
    pose proof (words_unique _ _ _ A A') as HW; try subst ws; try subst ws';
    try (split; reflexivity); try discriminate HW; try contradiction; try congruence;
    try (destruct (recall_head _ B) as (x & Hx); subst; discriminate);
    try (destruct (recall_head _ B') as (x & Hx); discriminate);
    try (exfalso; eapply does_some; eassumption);
    try (exfalso; eapply no_global; [|eassumption]; vm_compute; intuition congruence);
    try (exfalso; eapply B6; eassumption); try (exfalso; eapply B6'; eassumption);
    try (destruct (recall_head _ B) as (x & Hx); subst; exfalso; eapply no_global; [|eassumption]; vm_compute; intuition congruence);
    try (destruct (recall_head _ B') as (x & Hx); subst; exfalso; eapply no_global; [|eassumption]; vm_compute; intuition congruence).
  destruct (does_unique _ _ _ _ _ B _ _ _ B') as (-> & -> & ->). split; reflexivity.
Qed.
Lemma says_not_exit s line t r : says s line t r -> ~ words line [lit "exit"].
Proof.
  intros H A'. destruct H as [A|A|A|ws A B|ws t go col A B|ws A B1 B2 B3 B4 B5 B6]; pose proof (words_unique _ _ _ A A') as HW; subst; try discriminate.
  - destruct (recall_head _ B) as (x & Hx). discriminate.
  - eapply no_global; [|eassumption]. vm_compute. intuition congruence.
  - congruence.
Qed.
Lemma session_unique tty s ls o o' : session tty s ls o -> session tty s ls o' -> o = o'.
Proof.
  intros H; revert o'; induction H as [s|s line ls A|s line ls t r rest A B IH]; intros o' H'; inversion H' as [|? ? ? A'|? ? ? t' r' rest' A' B']; subst; try reflexivity.
  - exfalso. eapply says_not_exit; eassumption.
  - exfalso. eapply says_not_exit; eassumption.
  - destruct (says_unique _ _ _ _ _ _ A A') as (-> & ->). rewrite (IH _ B'). reflexivity.
Qed.
Lemma text_session P tty text : strict P = false -> readable P text ->
  exists ls rest, lines_of text ls rest /\
    (~ recall_first ls -> exists o, session tty start ls o /\
      forall n fuel, length ls < n -> exists f, ex_main P tty n (S fuel) text = LOk f /\ shown (w_trace (fs_world f)) = o).
Proof.
  intros HP Hr. destruct (lines_exist text) as (ls & rest & Hl). exists ls, rest. split; [exact Hl|]. intros Hrec.
  destruct (main_session P HP tty (S (length ls)) 0 text ls rest Hr Hl (Nat.lt_succ_diag_r _) Hrec) as (_ & o & _ & Ho & _).
  exists o. split; [exact Ho|]. intros n fuel Hn.
  destruct (main_session P HP tty n fuel text ls rest Hr Hl Hn Hrec) as (f & o' & Hf & Ho' & Hsh).
  exists f. split; [exact Hf|]. rewrite Hsh. exact (session_unique _ _ _ _ _ Ho' Ho).
Qed.
