(** * Proofs about the examples with an io_context of their own *)

From Verif Require Import Base SplitModel SplitSpec SplitProofs FromStringModel FromStringSpec FromStringProofs HistoryModel HistorySpec HistoryProofs
  StorageModel StorageSpec StorageProofs TerminalModel CompletionModel CompletionSpec CompletionProofs MenuModel SessionModel SessionSpec ResolveProofs SafetyProofs
  ExampleModel ExampleSpec ExampleProofs CompleteModel CompleteSpec CompleteProofs PluginProofs NonownerModel NonownerSpec.
Open Scope nat_scope.
Open Scope list_scope.

(** ** The specification gives no choice *)
Lemma orders_unique b ws t p : orders b ws t p -> forall t' p', orders b ws t' p' -> t = t' /\ p = p'.
Proof. intros H t' p' H'. destruct H; inversion H'; subst; auto. Qed.
Lemma orders_global b ws t p : orders b ws t p -> ws <> [] /\ ws <> [lit "help"] /\ ws <> [lit "exit"] /\ ws <> [lit "history"] /\ ~ is_recall ws.
Proof. intros H. destruct H; repeat split; try discriminate; intros (? & ? & ? & _); discriminate. Qed.
Lemma answers_unique b line r : answers b line r -> forall r', answers b line r' -> r = r'.
Proof.
  assert (Hrec : forall s v, int_text UInt s v -> is_recall [lit "!"; s]) by (intros s v H; exists s, v; auto).
  assert (Hr0 : ~ is_recall [] /\ ~ is_recall [lit "help"] /\ ~ is_recall [lit "exit"] /\ ~ is_recall [lit "history"])
    by (repeat split; intros (? & ? & H & _); discriminate).
  destruct Hr0 as (R0 & R1 & R2 & R3).
  intros H. induction H as [b line Hw|b line Hw|b line Hw|b line Hw|b line ws Hw Hr Hl Hf|b line s v Hw Hv Hn Hno|b line s v l r Hw Hv Hin Ha IH|b line ws t p Hw He|b line ws Hw N0 N1 N2 N3 N4 Hno];
    intros r' H'; inversion H' as [Xw|Xw|Xw|Xw|ws' Xw Xr Xl Xf|s' v' Xw Xv Xn Xno|s' v' l' r'' Xw Xv Xin Xa|ws' t' p' Xw Xe|ws' Xw M0 M1 M2 M3 M4 Xno]; subst;
    pose proof (words_unique _ _ _ Hw Xw) as Ew; try discriminate; try reflexivity;
    try (subst ws'; contradiction); try (subst ws; contradiction); try (exfalso; subst; auto; fail);
    try (exfalso; try subst ws; try subst ws'; match goal with H : orders _ _ _ _ |- _ => apply orders_global in H as (A0 & A1 & A2 & A3 & A4) end; eauto; fail);
    try (exfalso; subst; match goal with H1 : forall t p, ~ orders _ _ t p, H2 : orders _ _ _ _ |- _ => exact (H1 _ _ H2) end);
    try (exfalso; subst; eauto; fail).
  - exfalso. unfold remembered in Xin. rewrite Hl in Xin. destruct Xin.
  - exfalso. apply (f_equal (@tl _)) in Ew. injection Ew as <-. rewrite (int_text_unique _ _ _ _ Xv Hv) in Xin. exact (Hno _ Xin).
  - exfalso. unfold remembered in Hin. rewrite Xl in Hin. destruct Hin.
  - exfalso. apply (f_equal (@tl _)) in Ew. injection Ew as <-. rewrite (int_text_unique _ _ _ _ Hv Xv) in Hin. exact (Xno _ Hin).
  - apply (f_equal (@tl _)) in Ew. injection Ew as <-. rewrite (int_text_unique _ _ _ _ Xv Hv) in Xin. rewrite (remembered_unique _ _ _ _ Xin Hin) in Xa. apply IH, Xa.
  - subst ws'. destruct (orders_unique _ _ _ _ He _ _ Xe) as (-> & ->). reflexivity.
Qed.
Lemma talk_unique tty codes b hs o f : talk tty codes b hs o f -> forall o' f', talk tty codes b hs o' f' -> o = o' /\ f = f'.
Proof.
  intros H. induction H as [codes b|codes b hs o f Ht IH|codes b line hs text b' o f Ha Ht IH|codes b line text b' Ha|codes b line Ha]; intros o' f' H';
    inversion H' as [|? ? ? o2 f2 Xt|? ? ? ? text2 b2 o2 f2 Xa Xt|? ? ? text2 b2 Xa|? ? ? Xa]; subst; auto;
    try (pose proof (answers_unique _ _ _ Ha _ Xa) as Er; try discriminate).
  - destruct (IH _ _ Xt) as (-> & ->). auto.
  - injection Er as <- <-. destruct (IH _ _ Xt) as (-> & ->). auto.
  - injection Er as <- <-. auto.
Qed.

(** ** The menu *)
Definition can_color (paint : option bool) : bool := match paint with Some true => false | _ => true end.
Definition can_nocolor (paint : option bool) : bool := match paint with Some false => false | _ => true end.
Definition base (paint : option bool) : list cmd := [
  CFn 11 (lit "hello") true (lit "Print hello world") [] [] (HUser 0);
  CFn 12 (lit "color") (can_color paint) (lit "Enable colors in the cli") [] [] (HUser 1);
  CFn 13 (lit "nocolor") (can_nocolor paint) (lit "Disable colors in the cli") [] [] (HUser 2) ].
Definition tree (paint : option bool) : cmd := CMenu 10 (lit "cli") true (lit "(menu)") (lit "cli") (base paint).

Section Nonowner.
Context (P : platform).
Hypothesis Hstrict : strict P = false.
Notation E := (no_env P).
Notation no w := (EDone false w).
Definition pcol (b : bool) (e : event) : bool := match e with EvCall _ 1 _ => true | EvCall _ 2 _ => false | _ => b end.
Lemma color_pcol tr : no_color tr = fold_left pcol tr false.
Proof. reflexivity. Qed.
Lemma text_outs i l : no_text (outs i l) = concat l.
Proof. induction l as [|s l IH]; [reflexivity|]. cbn [outs no_text flat_map concat]. fold (no_text (outs i l)). rewrite IH. reflexivity. Qed.
Lemma color_outs i l b : fold_left pcol (outs i l) b = b.
Proof. induction l as [|x l IH]; [reflexivity|]. exact IH. Qed.

(** ** Words *)
Definition did (b : board) (ws : list str) (w : world) (r : eres) : Prop :=
  (exists text paint evs, orders b ws text paint /\
    r = EDone true (mkWorld (tree paint) (w_next w) (w_store w) (w_sid w) (w_cur w) (w_hist w) (w_exit w) (w_trace w ++ evs)) /\
    no_text evs = text /\ (fold_left pcol evs (painted b) = match paint with Some c => c | None => false end)) \/
  ((forall text paint, ~ orders b ws text paint) /\ r = no w).
Ltac one k := rewrite (scan_sole _ _ _ _ _ _ _ _ _ _ k) by (vm_compute; reflexivity); rewrite bind_not by reflexivity; rewrite exec_meant by reflexivity.
Ltac ran w Hr n text p := left; exists text, p, [EvCall (w_sid w) n []; EvOut (w_sid w) text];
  split; [constructor; discriminate|]; split; [|split; reflexivity];
  unfold run_fn, call_user; cbn [convert_all e_handler no_env no_handler ur_ops ur_end apply_ops fold_left apply_op]; unfold set_root, out, log; cbn [w_root w_next w_store w_sid w_cur w_hist w_exit w_trace];
  rewrite Hr, <- app_assoc; reflexivity.
Ltac refuse := right; split; [intros ? ? Ho; inversion Ho; subst; cbn [b_paint] in *; try discriminate; congruence|reflexivity].
Lemma words_scan bi b t rest w : w_root w = tree (b_paint b) -> did b (t :: rest) w (scan E bi (t :: rest) [tree (b_paint b)] w).
Proof.
  destruct b as [paint u]. cbn [b_paint]. intros Hr. unfold tree, base.
  name t "hello"%string.
  { destruct rest as [|r rest]; [|destruct paint as [[]|]; rewrite scan_nothing by compute_filter; refuse].
    left. exists (lit "Hello, world" ++ nl), paint, [EvCall (w_sid w) 0 []; EvOut (w_sid w) (lit "Hello, world" ++ nl)].
    split; [constructor|]. split; [|destruct paint as [[]|]; split; reflexivity].
    destruct paint as [[]|]; one (CFn 11 (lit "hello") true (lit "Print hello world") [] [] (HUser 0));
    unfold run_fn, call_user; cbn [convert_all e_handler no_env no_handler ur_ops ur_end apply_ops fold_left apply_op]; unfold set_root, out, log; cbn [w_root w_next w_store w_sid w_cur w_hist w_exit w_trace];
    rewrite Hr, <- app_assoc; reflexivity. }
  name t "color"%string.
  { destruct paint as [[]|]; [rewrite scan_nothing by compute_filter; refuse| |].
    all: destruct rest as [|r rest]; [|rewrite scan_nothing by compute_filter; refuse].
    all: one (CFn 12 (lit "color") true (lit "Enable colors in the cli") [] [] (HUser 1)).
    all: ran w Hr 1 (lit "Colors ON" ++ nl) (Some true). }
  name t "nocolor"%string.
  { destruct paint as [[]|]; [|rewrite scan_nothing by compute_filter; refuse|].
    all: destruct rest as [|r rest]; [|rewrite scan_nothing by compute_filter; refuse].
    all: one (CFn 13 (lit "nocolor") true (lit "Disable colors in the cli") [] [] (HUser 2)).
    all: ran w Hr 2 (lit "Colors OFF" ++ nl) (Some false). }
  rewrite scan_nothing by (apply none_meant; not_named). right. split; [intros ? ? Ho|reflexivity]. inversion Ho; subst; rewrite str_eqb_refl in *; discriminate.
Qed.

(** ** Lines *)
Notation size := 200.
Definition fine_user (u : user) : Prop := length (u_lines u) <= size /\ (0 <= u_first u)%Z /\ Forall (fun l => readable P l /\ ~ recalls l) (u_lines u).
Definition like (b : board) (w : world) : Prop :=
  w_root w = tree (b_paint b) /\ w_cur w = 10 /\ w_hist w = hist_of size (b_user b) /\ no_color (w_trace w) = painted b /\ w_exit w = false /\ fine_user (b_user b).
Definition lined (b : board) (line : str) (w : world) (r : fres) : Prop :=
  exists rep, answers b line rep /\
  match rep with
  | Broken => r = FUB
  | Reply text b' lf => exists w' evs, r = FOk w' /\ w_trace w' = w_trace w ++ evs /\ w_exit w' = lf /\ text = no_text evs /\ (lf = false -> like b' w')
  end.
Lemma keeps_fine line u : fine_user u -> readable P line -> ~ recalls line -> fine_user (keeps size line u).
Proof. exact (PluginProofs.keeps_fine P line u). Qed.
Lemma forgets_fine line u : fine_user u -> fine_user (forgets size line u).
Proof. exact (PluginProofs.forgets_fine P line u). Qed.
Lemma hook_says k args l w : no_hook (w_sid w) k args (w_trace w ++ [EvHook (w_sid w) k args]) = mkURes (map OOut l) UReturn ->
  run_hook E k args w = HOk (made (w_root w) (w_cur w) (EvHook (w_sid w) k args :: outs (w_sid w) l) w).
Proof.
  intros H. unfold run_hook. change (w_sid (log (EvHook (w_sid w) k args) w)) with (w_sid w). change (w_trace (log (EvHook (w_sid w) k args) w)) with (w_trace w ++ [EvHook (w_sid w) k args]).
  change (e_hook E) with no_hook. rewrite H. cbn [ur_ops ur_end]. rewrite apply_outs. unfold made, log. cbn. rewrite <- app_assoc. reflexivity.
Qed.
Lemma said b line w text u : like b w -> fine_user u -> answers b line (Reply text (mkBoard (b_paint b) u) false) ->
  lined b line w (FOk (out text (set_hist (hist_of size u) w))).
Proof.
  intros (Hr & Hc & _ & Hcol & Hx & _) Hu Ha. exists (Reply text (mkBoard (b_paint b) u) false). split; [exact Ha|]. do 2 eexists. split; [reflexivity|]. cbn [out log set_hist w_trace w_exit w_sid].
  split; [reflexivity|]. split; [exact Hx|]. split; [cbn; rewrite app_nil_r; reflexivity|]. intros _.
  split; [exact Hr|]. split; [exact Hc|]. split; [reflexivity|]. split; [|split; [exact Hx|exact Hu]].
  unfold out, log, set_hist. cbn [w_trace]. rewrite color_pcol, fold_left_app. exact Hcol.
Qed.
Lemma plain_line rec b line w : like b w -> readable P line -> ~ recalls line -> lined b line w (feed_body E rec line w).
Proof.
  intros Hl Hread Hrec. pose proof Hl as (Hroot & Hcur & Hhist & Hcol & Hexit & Hok). unfold feed_body.
  destruct (split line) as [ws|] eqn:Hs; [|destruct (split_safe line) as (? & H & _); congruence].
  pose proof (proj2 (words_split _ _) Hs) as Hw.
  destruct ws as [|t rest].
  { exists (Reply [] b false). split; [apply a_blank, Hw|]. exists w, []. rewrite app_nil_r. split; [reflexivity|]. split; [reflexivity|]. split; [exact Hexit|]. split; [reflexivity|]. intros _. exact Hl. }
  rewrite Hhist, new_keeps by lia. set (u1 := keeps size line (b_user b)). set (w1 := set_hist (hist_of size u1) w).
  assert (Hok1 : fine_user u1) by (apply keeps_fine; assumption).
  assert (Hws : Forall (readable P) (t :: rest)) by (apply (legible_words E line); [exact Hread|exact Hs]).
  assert (Hnr : ~ is_recall (t :: rest)) by (intros H; apply Hrec; exists (t :: rest); split; [exact Hw|exact H]).
  assert (Hloc : locate (w_cur w1) [] (w_root w1) = Some [tree (b_paint b)]) by (cbn [w1 set_hist w_cur w_root]; rewrite Hroot, Hcur; reflexivity).
  assert (Hmenus : t :: rest <> [lit "help"] -> t :: rest <> [lit "exit"] -> t :: rest <> [lit "history"] ->
    scan E (builtin E rec) (t :: rest) [global_menu] w1 = EDone false w1 ->
    lined b line w (match dispatch E (builtin E rec) (t :: rest) line w1 with
          | EDone _ w' => FOk w'
          | EExc (XBadCast what) w' | EExc (XStd what) w' => hres_fres (std_exception E line what w')
          | EExc XOther w' => FOk (out (lit "Cli. Unknown exception caught handling command line """ ++ line ++ lit """" ++ nl) w')
          | EUB => FUB
          | EFuel => FFuel
          end)).
  { intros H1 H2 H3 Hg. unfold dispatch. rewrite Hg. cbn [e_bind]. rewrite Hloc.
    destruct (words_scan no_builtin b t rest w1 Hroot) as [(text & paint & evs & He & -> & Ht & Hc)|(Hno & ->)].
    - cbn [e_bind]. exists (Reply text (mkBoard paint u1) false). split; [eapply a_order; eassumption|]. do 2 eexists. split; [reflexivity|]. cbn [w_trace w_exit].
      split; [reflexivity|]. split; [exact Hexit|]. split; [symmetry; exact Ht|]. intros _. split; [reflexivity|]. split; [exact Hcur|]. split; [reflexivity|]. split; [|split; [exact Hexit|exact Hok1]].
      cbn [w_trace w1 set_hist]. rewrite color_pcol, fold_left_app, <- color_pcol, Hcol, Hc. reflexivity.
    - cbn [e_bind]. unfold wrong_command. cbn [e_has no_env]. apply said; [exact Hl|exact Hok1|].
      apply (a_wrong b line (t :: rest)); try assumption. discriminate. }
  pose proof (global_any E rec t rest w1) as Hg.
  destruct (str_eqb (lit "help") t) eqn:E1; [apply str_eqb_eq in E1; subst t; destruct rest as [|r rest]|].
  { unfold dispatch. rewrite Hg. cbn [run_fn builtin]. unfold help_text. rewrite Hloc. cbn [e_bind].
    replace (lit "Commands available:" ++ nl ++ main_help [global_menu] ++ main_help [tree (b_paint b)]) with (global_help ++ board_help b)
      by (unfold board_help; destruct (b_paint b) as [[]|]; vm_compute; reflexivity).
    apply said; [exact Hl|exact Hok1|]. apply a_help. assumption. }
  { apply Hmenus; try discriminate. exact Hg. }
  destruct (str_eqb (lit "exit") t) eqn:E2; [apply str_eqb_eq in E2; subst t; destruct rest as [|r rest]|].
  { unfold dispatch. rewrite Hg. cbn [run_fn builtin]. unfold session_exit. cbn [e_has no_env].
    rewrite (hook_says KSesExit [] [lit "Closing App..." ++ nl]) by reflexivity. cbn [h_bind].
    rewrite (hook_says KCliExit [] [fish]) by reflexivity. cbn [h_bind]. unfold made at 1. cbn [w_hist w1 set_hist made]. rewrite commands_hist. cbn [e_bind].
    eexists. split; [apply a_exit, Hw|]. fold u1. do 2 eexists. split; [reflexivity|]. cbn [set_exit set_store made w_trace w_exit w1 set_hist w_sid]. rewrite <- app_assoc.
    split; [reflexivity|]. split; [reflexivity|]. split; [reflexivity|]. discriminate. }
  { apply Hmenus; try discriminate. exact Hg. }
  destruct (str_eqb (lit "history") t) eqn:E3; [apply str_eqb_eq in E3; subst t; destruct rest as [|r rest]|].
  { unfold dispatch. rewrite Hg. cbn [run_fn builtin]. change (w_hist w1) with (hist_of size u1).
    rewrite show_spec by apply Hok1. rewrite view_hist. cbn [e_bind]. apply said; [exact Hl|exact Hok1|]. apply a_history, Hw. }
  { apply Hmenus; try discriminate. exact Hg. }
  assert (Hneq : forall a, str_eqb a t = false -> t <> a) by (intros a H ->; rewrite str_eqb_refl in H; discriminate).
  assert (Hrest : scan E (builtin E rec) (t :: rest) [global_menu] w1 = EDone false w1).
  { destruct (str_eqb (lit "!") t) eqn:E4; [apply str_eqb_eq in E4; subst t|exact Hg].
    destruct rest as [|x [|x' rest]]; [exact Hg| |exact Hg].
    inversion Hws as [|? ? _ Hws']; subst. inversion Hws' as [|? ? Hx _]; subst.
    destruct (int_types P UInt x Hx (or_introl Hstrict)) as (Hi & Hub). cbn [e_plat no_env] in Hg.
    destruct (int_from_string P UInt x) as [v| |] eqn:Hc; [|exact Hg|congruence].
    exfalso. apply Hnr. exists x, v. split; [reflexivity|]. apply Hi. reflexivity. }
  apply Hmenus; [intros H; apply (f_equal (hd [])) in H; cbn [hd] in H; revert H; apply Hneq; assumption..|exact Hrest].
Qed.
Lemma recall_line rec b line w : like b w -> readable P line -> recalls line ->
  (forall b2 l w2, like b2 w2 -> readable P l -> ~ recalls l -> lined b2 l w2 (rec l w2)) ->
  lined b line w (feed_body E rec line w).
Proof.
  intros Hl Hread (ws & Hw & Hrec) Hind. pose proof Hl as (Hroot & Hcur & Hhist & Hcol & Hexit & Hok). unfold feed_body.
  rewrite (proj1 (words_split _ _) Hw). destruct Hrec as (x & v & -> & Hv).
  rewrite Hhist, new_keeps by lia. set (u1 := keeps size line (b_user b)). set (w1 := set_hist (hist_of size u1) w).
  assert (Hws : Forall (readable P) [lit "!"; x]) by (apply (legible_words E line); [exact Hread|apply words_split, Hw]).
  inversion Hws as [|? ? _ Hws']; subst. inversion Hws' as [|? ? Hx _]; subst.
  destruct (int_types P UInt x Hx (or_introl Hstrict)) as (Hi & _). pose proof (proj2 (Hi v) Hv) as Hc.
  pose proof (forgets_fine line (b_user b) Hok) as Hok2. set (u2 := forgets size line (b_user b)) in *.
  assert (Hv0 : (0 <= v < 2 ^ 64)%Z) by (destruct Hv as (_ & Hv); cbn in Hv; lia).
  unfold dispatch. rewrite (global_any E rec (lit "!") [x] w1). change (str_eqb (lit "help") (lit "!")) with false.
  change (str_eqb (lit "exit") (lit "!")) with false. change (str_eqb (lit "history") (lit "!")) with false. rewrite str_eqb_refl. cbn iota. cbn [e_plat no_env]. rewrite Hc.
  cbn [run_fn builtin]. change (w_hist w1) with (hist_of size u1). unfold u1. rewrite forget_keeps. fold u2.
  change (set_hist (hist_of size u2) w1) with (set_hist (hist_of size u2) w). set (w2 := set_hist (hist_of size u2) w).
  assert (Hl2 : like (mkBoard (b_paint b) u2) w2) by (split; [exact Hroot|split; [exact Hcur|split; [reflexivity|split; [exact Hcol|split; [exact Hexit|exact Hok2]]]]]).
  assert (Hcases : (u_lines u2 = [] /\ u_first u2 = 0%Z) \/ ~ (u_lines u2 = [] /\ u_first u2 = 0%Z)).
  { destruct (u_lines u2); [|right; intros (? & _); discriminate]. destruct (Z.eq_dec (u_first u2) 0); [left; auto|right; intros (_ & ?); contradiction]. }
  destruct Hcases as [Hz|Hnz].
  { pose proof Hz as (Z1 & Z2). rewrite at_id_ub; [|exact Hv0|exact Z2|unfold hist_of; cbn [h_buf]; rewrite Z1; reflexivity].
    exists Broken. split; [apply (a_recall_first _ _ [lit "!"; x]); [exact Hw|exists x, v; auto|apply Hz|apply Hz]|]. reflexivity. }
  assert (Hin : (exists l, In (v, l) (remembered u2)) \/ forall l, ~ In (v, l) (remembered u2)).
  { unfold remembered. destruct (Z_le_dec (u_first u2) v); [|right; intros l H; apply number_in in H; lia].
    destruct (nth_error (u_lines u2) (Z.to_nat (v - u_first u2))) as [l'|] eqn:En.
    - left. exists l'. apply number_in. auto.
    - right. intros l' H. apply number_in in H as (_ & H). congruence. }
  destruct Hin as [(l & Hin)|Hno].
  - rewrite (at_id_found _ _ l); [|apply Hok2|rewrite view_hist; exact Hin].
    assert (Hgood : readable P l /\ ~ recalls l).
    { destruct Hok2 as (_ & _ & Hg). rewrite Forall_forall in Hg. apply Hg. unfold remembered in Hin. apply number_in in Hin as (_ & Hin). eapply nth_error_In, Hin. }
    destruct Hgood as (G1 & G2). destruct (Hind (mkBoard (b_paint b) u2) l w2 Hl2 G1 G2) as (rep & Hans & Hrep).
    exists rep. split; [eapply a_recall; [exact Hw|exact Hv|exact Hin|exact Hans]|].
    destruct rep as [text b' lf|].
    + destruct Hrep as (w' & evs & -> & A). exists w', evs. split; [reflexivity|exact A].
    + rewrite Hrep. reflexivity.
  - rewrite at_id_missing; [|apply Hv0|apply Hok2| |rewrite view_hist; exact Hno].
    2: { unfold next_id, hist_of. cbn [h_oldest h_buf]. rewrite rev_length. destruct Hok2 as (_ & Hg & _).
         destruct (u_lines u2) as [|y l] eqn:El; [|cbn [length]; lia]. destruct (Z.eq_dec (u_first u2) 0); [|cbn [length]; lia]. exfalso. apply Hnz. auto. }
    cbn [out_of_range e_bind]. unfold std_exception. cbn [e_has no_env].
    rewrite (hook_says KExcept [line; lit "Index not found in history"] [lit "Exception caught in cli handler: "; lit "Index not found in history"; lit " handling command: "; line; lit "." ++ nl]) by reflexivity.
    cbn [hres_fres]. eexists. split; [eapply a_recall_none; [exact Hw|exact Hv|exact Hnz|exact Hno]|]. fold u2. do 2 eexists. split; [reflexivity|].
    unfold made. cbn [w_trace w_exit w2 set_hist w_sid w_root w_cur]. split; [reflexivity|]. split; [exact Hexit|].
    split; [change (no_text (?e :: ?l)) with (no_text l); rewrite text_outs; cbn [concat]; rewrite app_nil_r; reflexivity|]. intros _.
    split; [exact Hroot|]. split; [exact Hcur|]. split; [reflexivity|]. split; [|split; [exact Hexit|exact Hok2]].
    cbn [w_trace]. rewrite color_pcol, fold_left_app. cbn [fold_left pcol]. rewrite color_outs. exact Hcol.
Qed.
Lemma any_line fuel b line w : like b w -> readable P line -> lined b line w (feed E (S (S fuel)) line w).
Proof.
  intros Hl Hr. change (feed E (S (S fuel)) line w) with (feed_body E (feed E (S fuel)) line w).
  destruct (recalls_dec P (fun _ => None) (fun _ => []) Hstrict (fun _ _ _ _ => mkURes [] UReturn) (fun _ => true) line Hr) as [H|H].
  - apply recall_line; [assumption..|]. intros d2 l w2 H1 H2 H3. apply plain_line; assumption.
  - apply plain_line; assumption.
Qed.
Lemma like_prompt b w tty codes : like b w -> prompt tty (no_color (w_trace w)) codes w = Some (asks tty codes b, painted b || codes).
Proof.
  intros (Hroot & Hcur & _ & Hcol & Hx & _). unfold prompt, prompt_text. rewrite Hx, Hcol, Hroot, Hcur. change (locate 10 [] (tree (b_paint b))) with (Some [tree (b_paint b)]).
  cbn [tree]. unfold asks. destruct (painted b), codes, tty; reflexivity.
Qed.
Lemma fresh_like : like fresh no_open.
Proof. split; [reflexivity|]. split; [reflexivity|]. split; [reflexivity|]. split; [reflexivity|]. split; [reflexivity|]. split; [cbn; lia|]. split; [cbn; lia|]. constructor. Qed.

(** ** The program *)
Definition of_work (x : work) : happening := match x with QLine l => Types l | QTimer => Expires end.
Definition easy (x : work) : Prop := match x with QLine l => readable P l | QTimer => True end.
Definition easy_input (i : ninput) : Prop := match i with ITyped l => readable P l | _ => True end.
Lemma run_stopped tty fuel is r : match r with NRuns _ => False | _ => True end -> no_run P tty fuel is r = r.
Proof. intros H. induction is as [|i is IH]; [reflexivity|]. cbn [no_run]. destruct r; [destruct H|..]; exact IH. Qed.
Definition outcome (o f' : str) (waiting : list happening) (f : finish) (r : nres) : Prop :=
  match r with
  | NRuns p => (exists b, f = Waits b) /\ q_out p = o ++ f' /\ waiting = map of_work (q_queue p)
  | NReturned t => f = Leaves /\ t = o ++ f'
  | NUndef => f = Undef
  | _ => False
  end.
Lemma run_talk tty fuel is : Forall easy_input is -> forall p b, like b (q_world p) -> Forall easy (q_queue p) ->
  exists taken waiting o f, map of_work (q_queue p) ++ happens (q_timer p) is = taken ++ waiting /\ talk tty (q_codes p) b taken o f /\
    outcome (q_out p) o waiting f (no_run P tty (S (S fuel)) is (NRuns p)).
Proof.
  induction 1 as [|i is Hi _ IH]; intros p b Hl Hq.
  { exists [], (map of_work (q_queue p)), [], (Waits b). split; [rewrite app_nil_r; reflexivity|]. split; [constructor|]. cbn [no_run outcome]. split; [eauto|]. rewrite app_nil_r. auto. }
  destruct i as [line| |]; cbn [no_run no_step happens].
  - destruct (IH (mkN (q_world p) (q_codes p) (q_queue p ++ [QLine line]) (q_timer p) (q_out p)) b Hl) as (taken & waiting & o & f & H1 & H2 & H3).
    { apply Forall_app. split; [exact Hq|]. constructor; [exact Hi|constructor]. }
    exists taken, waiting, o, f. cbn [q_queue q_timer q_codes q_out] in *. rewrite map_app, <- app_assoc in H1. auto.
  - destruct (q_timer p) eqn:Ht.
    + destruct (IH (mkN (q_world p) (q_codes p) (q_queue p ++ [QTimer]) false (q_out p)) b Hl) as (taken & waiting & o & f & H1 & H2 & H3).
      { apply Forall_app. split; [exact Hq|]. constructor; [exact Logic.I|constructor]. }
      exists taken, waiting, o, f. cbn [q_queue q_timer q_codes q_out] in *. rewrite map_app, <- app_assoc in H1. auto.
    + destruct (IH p b Hl Hq) as (taken & waiting & o & f & H1 & H2 & H3). rewrite Ht in H1. exists taken, waiting, o, f. auto.
  - destruct (q_queue p) as [|x l] eqn:Hqq.
    { destruct (IH p b Hl) as (taken & waiting & o & f & H1 & H2 & H3); [rewrite Hqq; exact Hq|]. rewrite Hqq in H1. exists taken, waiting, o, f. auto. }
    inversion Hq as [|? ? Hx Hq']; subst. destruct x as [line|]; cbn [no_take q_world q_codes q_queue q_timer q_out map of_work].
    + destruct (any_line fuel b line (q_world p) Hl Hx) as (rep & Hans & Hrep). destruct rep as [text b' lf|].
      * destruct Hrep as (w' & evs & -> & Ht & Hex & -> & Hl'). rewrite Ht, skip_trace, Hex. destruct lf.
        -- rewrite run_stopped by exact Logic.I. exists [Types line], (map of_work l ++ happens (q_timer p) is), (no_text evs), Leaves.
           split; [reflexivity|]. split; [eapply t_exit, Hans|]. split; reflexivity.
        -- specialize (Hl' eq_refl). unfold no_prompt. rewrite (like_prompt b' w' tty (q_codes p) Hl').
           destruct (IH (mkN w' (painted b' || q_codes p) l (q_timer p) ((q_out p ++ no_text evs) ++ asks tty (q_codes p) b')) b' Hl' Hq') as (taken & waiting & o & f & H1 & H2 & H3).
           exists (Types line :: taken), waiting, (no_text evs ++ asks tty (q_codes p) b' ++ o), f. cbn [q_queue q_timer q_codes q_out] in *.
           split; [cbn [app]; rewrite <- H1; reflexivity|]. split; [eapply t_line; eassumption|]. unfold outcome in *. rewrite <- !app_assoc in H3. rewrite <- ?app_assoc. exact H3.
      * rewrite Hrep. rewrite run_stopped by exact Logic.I. exists [Types line], (map of_work l ++ happens (q_timer p) is), [], Undef. split; [reflexivity|]. split; [apply t_broken, Hans|reflexivity].
    + destruct (IH (mkN (q_world p) (q_codes p) l (q_timer p) (q_out p ++ lit "Timer expired!" ++ nl)) b Hl Hq') as (taken & waiting & o & f & H1 & H2 & H3).
      exists (Expires :: taken), waiting, (lit "Timer expired!" ++ nl ++ o), f. cbn [q_queue q_timer q_codes q_out] in *.
      split; [cbn [app]; rewrite <- H1; reflexivity|]. split; [apply t_timer, H2|]. unfold outcome in *. rewrite <- !app_assoc in H3. rewrite <- ?app_assoc. exact H3.
Qed.
Lemma main_runs tty fuel is : no_main P tty fuel is = no_run P tty fuel is (NRuns (mkN no_open false [] true (asks tty false fresh))).
Proof. unfold no_main, no_prompt. rewrite (like_prompt fresh no_open tty false fresh_like). reflexivity. Qed.
Lemma main_talk tty fuel is : Forall easy_input is ->
  exists taken waiting o f, happens true is = taken ++ waiting /\ talk tty false fresh taken o f /\
    outcome (asks tty false fresh) o waiting f (no_main P tty (S (S fuel)) is).
Proof.
  intros H. rewrite main_runs. exact (run_talk tty fuel is H (mkN no_open false [] true (asks tty false fresh)) fresh fresh_like (Forall_nil _)).
Qed.
End Nonowner.

Lemma run_app P tty fuel is is' r : no_run P tty fuel (is ++ is') r = no_run P tty fuel is' (no_run P tty fuel is r).
Proof. revert r. induction is as [|i is IH]; intros r; [reflexivity|]. cbn [app no_run]. apply IH. Qed.
Lemma happens_runs t is n : happens t (is ++ repeat IRun n) = happens t is.
Proof.
  revert t. induction is as [|i is IH]; intros t.
  - induction n as [|n IHn]; [reflexivity|exact IHn].
  - cbn [app happens]. destruct i; [rewrite IH; reflexivity|destruct t; rewrite IH; reflexivity|apply IH].
Qed.
Definition idle (r : nres) : Prop := match r with NRuns p => q_queue p = [] | _ => True end.
Lemma drains P tty fuel : forall n r, match r with NRuns p => length (q_queue p) <= n | _ => True end -> idle (no_run P tty fuel (repeat IRun n) r).
Proof.
  induction n as [|n IH]; intros r Hn.
  - cbn [repeat no_run]. destruct r as [p| | | |]; try exact Logic.I. cbn [idle]. destruct (q_queue p); [reflexivity|cbn in Hn; lia].
  - cbn [repeat no_run]. apply IH. destruct r as [p| | | |]; try exact Logic.I. cbn [no_step]. destruct (q_queue p) as [|x l] eqn:Hq; [rewrite Hq; cbn; lia|]. cbn [length] in Hn.
    destruct x; cbn [no_take q_world q_codes q_queue q_timer q_out]; [|lia].
    destruct (feed _ _ _ _); try exact Logic.I. destruct (w_exit w); [exact Logic.I|]. unfold no_prompt. destruct (prompt _ _ _ _) as [[? ?]|]; [cbn [q_queue]; lia|exact Logic.I].
Qed.
Lemma settles P tty fuel is : exists n, idle (no_main P tty fuel (is ++ repeat IRun n)).
Proof.
  destruct (no_main P tty fuel is) as [p| | | |] eqn:H.
  2-5: exists 0; rewrite app_nil_r, H; exact Logic.I.
  exists (length (q_queue p)). unfold no_main in *. rewrite run_app, H. apply drains. lia.
Qed.
(** The line exit is reached. *)
Lemma talk_split tty codes b hs o f : talk tty codes b hs o f -> (exists b', f = Waits b') -> forall line, In (Types line) hs -> ~ words line [lit "exit"].
Proof.
  induction 1 as [codes b|codes b hs o f Ht IH|codes b line hs text b1 o f Ha Ht IH|codes b line text b1 Ha|codes b line Ha]; intros (b' & Hf) l Hin; try discriminate.
  - destruct Hin.
  - destruct Hin as [Hin|Hin]; [discriminate|]. apply IH; [eauto|exact Hin].
  - destruct Hin as [Hin|Hin]; [|apply IH; [eauto|exact Hin]]. injection Hin as <-. intros Hw. pose proof (answers_unique _ _ _ Ha _ (a_exit b line Hw)). discriminate.
Qed.
Lemma happens_typed t is line : In (ITyped line) is -> In (Types line) (happens t is).
Proof.
  revert t. induction is as [|i is IH]; intros t; [intros []|]. cbn [happens]. intros [->|H]; [left; reflexivity|]. destruct i; [right; auto|destruct t; [right|]; auto|auto].
Qed.
Lemma program_exits P tty fuel is line : strict P = false -> Forall (easy_input P) is -> In (ITyped line) is -> words line [lit "exit"] ->
  exists n, match no_main P tty (S (S fuel)) (is ++ repeat IRun n) with NReturned _ | NUndef => True | _ => False end.
Proof.
  intros Hs He Hin Hw. destruct (settles P tty (S (S fuel)) is) as (n & Hn). exists n.
  assert (He' : Forall (easy_input P) (is ++ repeat IRun n)) by (apply Forall_app; split; [exact He|]; clear; induction n; constructor; [exact Logic.I|assumption]).
  destruct (main_talk P Hs tty fuel _ He') as (taken & waiting & o & f & H1 & H2 & H3). rewrite happens_runs in H1.
  destruct (no_main P tty (S (S fuel)) (is ++ repeat IRun n)) as [p| | | |]; try exact Logic.I; [|destruct H3..].
  cbn [idle] in Hn. destruct H3 as (Hf & _ & Hwait). rewrite Hn in Hwait. cbn in Hwait. subst waiting. rewrite app_nil_r in H1.
  apply (talk_split _ _ _ _ _ _ H2 Hf line); [|exact Hw]. rewrite <- H1. apply happens_typed, Hin.
Qed.
