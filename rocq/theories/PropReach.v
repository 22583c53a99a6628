(** * C96: every command can be called, with every value of its parameters but the empty string *)

From Verif Require Import Base SplitModel FromStringModel FromStringSpec FromStringProofs HistoryModel HistorySpec StorageModel MenuModel SessionModel ResolveSpec
  SessionSpec SessionProofs SafetyProofs ProcessorSpec ReachSpec ReachProofs Demo.
Open Scope nat_scope.
Open Scope list_scope.

(** C96: if the names of the menus are different, not empty, not [..] and not those of the global commands, then from any menu
    some line runs any enabled function, below any menu on the way to the root, with any values that can be passed; *)
Theorem C96_function : forall E fuel size w l m anc ws id name desc pars pdesc u vs,
  strict (e_plat E) = false -> size >= 1 -> reachable size (w_hist w) -> unique_ids (w_root w) -> well_named (w_root w) ->
  in_menu w (l ++ m :: anc) -> Forall (fun x => cmd_en x = true) l ->
  named_by m ws (CFn id name true desc pars pdesc (HUser u)) -> Forall2 (passable E) pars vs -> handlers_no_bad_cast E ->
  exists line w0 args, recorded line w (repeat (lit "..") (length l) ++ ws ++ args) w0 /\ length args = length pars /\
    feed E (S fuel) line w = after_call E line u vs w0.
Proof.
  intros E fuel size w l m anc ws id name desc pars pdesc u vs Hp Hs Hr Hu Hw Hm He Hn Hv Hb.
  destruct (passable_texts E pars vs Hp Hv) as (args & Fa & C & L).
  destruct (route E size w l m anc ws _ Hs Hr Hw Hm He Hn args (TRun (HUser u) pars args)) as (line & w0 & Rec & Res);
    [constructor; exact L|eapply converts_usable; exact C|exact Fa|].
  exists line, w0, args. split; [exact Rec|]. split; [exact L|].
  eapply feed_run; eauto.
Qed.
Print Assumptions C96_function.
(** some line runs any free form function with any words that are not empty; *)
Theorem C96_free : forall E fuel size w l m anc ws id name desc pdesc u args,
  size >= 1 -> reachable size (w_hist w) -> unique_ids (w_root w) -> well_named (w_root w) ->
  in_menu w (l ++ m :: anc) -> Forall (fun x => cmd_en x = true) l ->
  named_by m ws (CFree id name true desc pdesc (HUser u)) -> ~ In [] args ->
  exists line w0, recorded line w (repeat (lit "..") (length l) ++ ws ++ args) w0 /\
    feed E (S fuel) line w = after_call E line u [VList args] w0.
Proof.
  intros E fuel size w l m anc ws id name desc pdesc u args Hs Hr Hu Hw Hm He Hn Ha.
  destruct (route E size w l m anc ws _ Hs Hr Hw Hm He Hn args (TFree (HUser u) args)) as (line & w0 & Rec & Res);
    [constructor|intros H; inversion H|apply Forall_forall; intros x Hx ->; exact (Ha Hx)|].
  exists line, w0. split; [exact Rec|]. eapply feed_free; eauto.
Qed.
Print Assumptions C96_free.
(** and some line enters any menu. *)
Theorem C96_menu : forall E fuel size w l m anc ws id name desc pr kids,
  size >= 1 -> reachable size (w_hist w) -> unique_ids (w_root w) -> well_named (w_root w) ->
  in_menu w (l ++ m :: anc) -> Forall (fun x => cmd_en x = true) l ->
  named_by m ws (CMenu id name true desc pr kids) ->
  exists line w0, recorded line w (repeat (lit "..") (length l) ++ ws) w0 /\ feed E (S fuel) line w = FOk (set_cur id w0).
Proof.
  intros E fuel size w l m anc ws id name desc pr kids Hs Hr Hu Hw Hm He Hn.
  destruct (route E size w l m anc ws _ Hs Hr Hw Hm He Hn [] (TGoto id)) as (line & w0 & Rec & Res);
    [constructor|intros H; inversion H|constructor|].
  rewrite app_nil_r in Rec, Res. exists line, w0. split; [exact Rec|]. eapply feed_goto; eauto.
Qed.
Print Assumptions C96_menu.
(** These are all the values: the words of a line convert to no others, *)
Theorem C96_only : forall E line toks pars args vs, strict (e_plat E) = false -> legible E line -> split line = Some toks ->
  incl args toks -> converts E pars args vs -> Forall2 (passable E) pars vs.
Proof.
  intros E line toks pars args vs Hp Hl Hs Hi C. apply (texts_passable E pars args vs Hp); [|exact C].
  pose proof (legible_words E line toks Hl Hs) as Fr. destruct (SplitProofs.split_safe line) as (toks' & Hs' & Hn). rewrite Hs in Hs'. injection Hs' as <-.
  apply Forall_forall. intros a Ha. specialize (Hi a Ha). rewrite Forall_forall in Fr. split; [auto|]. intros ->. exact (Hn Hi).
Qed.
Print Assumptions C96_only.
(** and no line makes a function run with an empty string. *)
Theorem C96_never_empty : forall E fuel line w,
  f_inv (fun w' => exists evs, w_trace w' = w_trace w ++ evs /\ Forall full_call evs) (feed E fuel line w).
Proof. exact feed_good. Qed.
Print Assumptions C96_never_empty.

(** A command with the empty name is never meant by a line. *)
Theorem C96_unnamed : forall line toks m anc i q t k, split line = Some toks -> reading (m :: anc) toks (i :: q) t ->
  nth_error (cmd_kids m) i = Some k -> cmd_name k <> [].
Proof.
  intros line toks m anc i q t k Hs R Hk En. destruct (SplitProofs.split_safe line) as (toks' & Hs' & Hn). rewrite Hs in Hs'. injection Hs' as <-.
  destruct toks as [|x rest]; [inversion R|]. destruct (first_word _ _ _ _ _ _ _ R) as [(k' & Hk' & <-)|El].
  - rewrite Hk in Hk'. injection Hk' as <-. apply Hn. left. exact En.
  - assert (i < length (cmd_kids m)) by (apply nth_error_Some; congruence). lia.
Qed.
Print Assumptions C96_unnamed.

(** A session two menus down; [take] has one parameter of each kind and a name with a blank. *)
Definition pick_kids : list cmd := [CFn 21 (lit "take it") true [] [PInt Short; PBool; PChar; PString] [] (HUser 5)].
Definition pick : cmd := CMenu 20 (lit "pick") true [] (lit "pick") pick_kids.
Definition low : cmd := CMenu 23 (lit "low") true [] (lit "low") [CFree 24 (lit "say") true [] [] (HUser 6)].
Definition mid : cmd := CMenu 22 (lit "mid") true [] (lit "mid") [low].
Definition reach_root : cmd := CMenu 19 (lit "cli") true [] (lit "cli") [pick; mid].
Definition reach_env : env :=
  mkEnv (mkPlatform true false) (fun _ _ => None) (fun _ _ => None) (fun _ _ _ _ => mkURes [] UReturn) demo_hook (fun _ => false).
Definition reach_world : world := set_cur 23 (open_session 0 5 reach_root 30 (StVolatile 10 []) []).
Example C96_nonvacuous :
  reachable 5 (w_hist reach_world) /\ unique_ids (w_root reach_world) /\ well_named (w_root reach_world) /\
  in_menu reach_world ([low; mid] ++ [reach_root]) /\ named_by reach_root [lit "pick"; lit "take it"] (hd reach_root pick_kids) /\
  named_by mid [lit "low"; lit "say"] (CFree 24 (lit "say") true [] [] (HUser 6)) /\
  Forall2 (passable reach_env) [PInt Short; PBool; PChar; PString] [VInt (-32768); VBool false; VChar """"; VStr (lit " ")] /\
  handlers_no_bad_cast reach_env /\
  exists w', feed reach_env 1 (lit ".. .. pick ""take it"" -32768 false '""' ' '") reach_world = FOk w' /\
    w_trace w' = [EvCall 0 5 [VInt (-32768); VBool false; VChar """"; VStr (lit " ")]].
Proof.
  split; [exists [OLoad []]; reflexivity|]. split; [repeat constructor; cbn; intuition discriminate|].
  split.
  { unfold well_named, names_ok, reserved. cbn.
    repeat match goal with |- _ /\ _ => split | |- True => exact Logic.I | |- NoDup _ => constructor | |- Forall _ _ => constructor end;
      cbn; intuition discriminate. }
  split.
  { split; [|do 2 eexists; split; reflexivity]. cbn [app].
    apply chain_sub; [apply chain_sub; [apply chain_root|right; left; reflexivity|]|left; reflexivity|]; do 6 eexists; reflexivity. }
  split.
  { apply (named_sub reach_root pick [lit "take it"]); [reflexivity|left; reflexivity|do 6 eexists; reflexivity|].
    apply (named_kid pick (hd reach_root pick_kids)); [reflexivity|left; reflexivity|reflexivity]. }
  split.
  { apply (named_sub mid low [lit "say"]); [reflexivity|left; reflexivity|do 6 eexists; reflexivity|].
    apply (named_kid low (CFree 24 (lit "say") true [] [] (HUser 6))); [reflexivity|left; reflexivity|reflexivity]. }
  split; [repeat constructor; cbn; try lia; discriminate|].
  split; [intros sid h args tr s; discriminate|]. eexists. split; reflexivity.
Qed.


(** So not every value of a parameter can be passed: the empty string converts, but no line passes it. *)
Theorem C96_empty_string_refuted : exists E w u, live w /\
  In (CFn 21 (lit "s") true [] [PString] [] (HUser u)) (cmd_kids (w_root w)) /\ convert E PString [] = COk (VStr []) /\
  forall fuel line w', feed E fuel line w = FOk w' -> ~ In (EvCall (w_sid w) u [VStr []]) (w_trace w').
Proof.
  exists reach_env, (open_session 0 5 (CMenu 20 (lit "cli") true [] (lit "cli") [CFn 21 (lit "s") true [] [PString] [] (HUser 7)]) 30 (StVolatile 10 []) []), 7.
  split; [eexists; split; [apply chain_root; do 6 eexists; reflexivity|do 2 eexists; split; reflexivity]|].
  split; [left; reflexivity|]. split; [reflexivity|]. intros fuel line w' H Hin.
  pose proof (C96_never_empty reach_env fuel line (open_session 0 5 (CMenu 20 (lit "cli") true [] (lit "cli") [CFn 21 (lit "s") true [] [PString] [] (HUser 7)]) 30 (StVolatile 10 []) [])) as G.
  rewrite H in G. cbn [f_inv] in G. destruct G as (evs & Et & F). rewrite Et in Hin. cbn [app open_session w_trace] in Hin.
  rewrite Forall_forall in F. specialize (F _ Hin). inversion F as [|? ? Hx _]. exact (Hx eq_refl).
Qed.
Print Assumptions C96_empty_string_refuted.
