(** * Navigation and prompt of sessions *)

From Verif Require Import Base SplitModel SplitSpec SplitProofs FromStringModel HistoryModel HistorySpec HistoryProofs StorageModel TerminalModel TerminalSpec TerminalProofs
  MenuModel SessionModel ResolveSpec ResolveProofs SessionSpec TreeProofs SessionProofs InvariantProofs FeatureProofs.
Open Scope nat_scope.
Open Scope list_scope.

Lemma global_no_match E toks : ~ In (hd [] toks) global_names -> no_match E [global_menu] toks.
Proof.
  intros H p t Hr. exfalso. apply H. apply global_readings in Hr as [(-> & _)|[(-> & _)|[(-> & _)|(a & -> & _)]]]; cbn; auto.
Qed.

Lemma nav_chain root ctx ws ctx1 : nav ctx ws ctx1 -> chain root ctx -> chain root ctx1.
Proof.
  induction 1 as [|ctx w ctx1 ws ctx2 Hs Hn IH]; intros Hc; [exact Hc|]. apply IH. destruct Hs.
  - apply chain_sub; [exact Hc|rewrite H0; apply in_or_app; right; left; reflexivity|assumption].
  - eapply chain_tail. exact Hc.
Qed.

(** A path on one line. *)
Lemma nav_feed E fuel line w w0 ws ctx m anc : unique_ids (w_root w) -> in_menu w ctx -> recorded line w ws w0 ->
  ~ In (hd [] ws) global_names -> nav ctx ws (m :: anc) ->
  feed E (S fuel) line w = FOk (set_cur (cmd_id m) w0) /\ in_menu (set_cur (cmd_id m) w0) (m :: anc).
Proof.
  intros Hu Hm Hr Hg Hn. pose proof (recorded_ne _ _ _ _ Hr) as Hne. split.
  - destruct (nav_match E _ _ _ Hn Hne) as (m' & anc' & Hx & _ & Hf). injection Hx as <- <-.
    apply (feed_goto E fuel line w w0 ws ctx Hr Hu Hm). right. split; [apply global_no_match; exact Hg|exact Hf].
  - destruct (recorded_same _ _ _ _ Hr) as (Hroot & _). split; [|exists m, anc; split; reflexivity].
    cbn. rewrite Hroot. eapply nav_chain; [exact Hn|apply Hm].
Qed.

(** The words of the path on successive lines. *)
Lemma nav_feeds E size fuel ws : size >= 1 -> Forall (fun x => ~ In x global_names) ws ->
  forall lines w ctx m anc, Forall2 (fun l x => split l = Some [x]) lines ws ->
  unique_ids (w_root w) -> in_menu w ctx -> reachable size (w_hist w) -> nav ctx ws (m :: anc) ->
  exists h, feeds E (S fuel) lines w = FOk (set_cur (cmd_id m) (set_hist h w)) /\ reachable size h.
Proof.
  intros Hsz Hg. induction Hg as [|x ws Hx Hws IH]; intros lines w ctx m anc Hl Hu Hm Hr Hn.
  - inversion Hl; subst. inversion Hn; subst. exists (w_hist w). split; [|exact Hr]. cbn.
    destruct Hm as (_ & m' & anc' & Hx & Hid). injection Hx as <- <-. rewrite Hid. destruct w; reflexivity.
  - inversion Hl as [|l ? ls ? Hsp Hls]; subst. inversion Hn as [|? ? ctx1 ? ? Hs Hn']; subst.
    destruct (reachable_inv size _ Hsz Hr) as (I & M).
    destruct (new_command_inv (w_hist w) l I ltac:(lia)) as (h & Hh & _).
    assert (Hrec : recorded l w [x] (set_hist h w)) by (split; [exact Hsp|split; [discriminate|eauto]]).
    assert (exists m1 anc1, ctx1 = m1 :: anc1) as (m1 & anc1 & ->) by (destruct Hs; eauto).
    destruct (nav_feed E fuel l w (set_hist h w) [x] ctx m1 anc1 Hu Hm Hrec Hx) as (Hf & Hm1).
    { econstructor; [exact Hs|constructor]. }
    assert (Hr1 : reachable size h) by (eapply (reachable_step size (w_hist w) (ONew l)); [exact Hr|exact Hh]).
    destruct (IH ls (set_cur (cmd_id m1) (set_hist h w)) (m1 :: anc1) m anc Hls Hu Hm1 Hr1 Hn') as (h' & Hfs & Hr').
    exists h'. cbn [feeds]. rewrite Hf. split; [exact Hfs|exact Hr'].
Qed.

(** Both ways lead to the same menu. *)
Lemma nav_same E size fuel ws line lines w ctx m anc : size >= 1 -> ws <> [] -> Forall (fun x => ~ In x global_names) ws ->
  split line = Some ws -> Forall2 (fun l x => split l = Some [x]) lines ws ->
  unique_ids (w_root w) -> in_menu w ctx -> reachable size (w_hist w) -> nav ctx ws (m :: anc) ->
  exists h1 h2, feed E (S fuel) line w = FOk (set_cur (cmd_id m) (set_hist h1 w)) /\
    feeds E (S fuel) lines w = FOk (set_cur (cmd_id m) (set_hist h2 w)).
Proof.
  intros Hsz Hne Hg Hs Hl Hu Hm Hr Hn.
  destruct (nav_feeds E size fuel ws Hsz Hg lines w ctx m anc Hl Hu Hm Hr Hn) as (h2 & H2 & _).
  destruct (reachable_inv size _ Hsz Hr) as (I & M).
  destruct (new_command_inv (w_hist w) line I ltac:(lia)) as (h1 & Hh & _).
  assert (Hrec : recorded line w ws (set_hist h1 w)) by (split; [exact Hs|split; [exact Hne|eauto]]).
  exists h1, h2. split; [|exact H2]. eapply nav_feed; try eassumption.
  inversion Hg; subst; [congruence|]. assumption.
Qed.

(** ** Prompt *)
Lemma prompt_bytes tty color force w m anc : unique_ids (w_root w) -> in_menu w (m :: anc) -> w_exit w = false ->
  exists p force', menu_prompt m = Some p /\
    prompt tty color force w =
      Some ((if color then sgr 32 ++ sgr 1 else []) ++ p ++ (if force || color || tty then sgr 0 else []) ++ lit "> ", force').
Proof.
  intros Hu Hm Hx. unfold prompt, prompt_text. rewrite Hx, (in_menu_locate _ _ Hu Hm).
  assert (Hmm : is_menu m) by (destruct Hm as (Hc & _); inversion Hc; subst; assumption).
  destruct Hmm as (i & n & e & d & p & k & ->). exists p. unfold before_prompt, after_prompt.
  destruct color; eexists; (split; [reflexivity|]); rewrite ?orb_true_r, ?orb_false_r; reflexivity.
Qed.
Lemma prompt_exited tty color force w : w_exit w = true -> prompt tty color force w = Some ([], force).
Proof. unfold prompt. intros ->. reflexivity. Qed.

Lemma prompt_screen tty color force w m anc p above row : unique_ids (w_root w) -> in_menu w (m :: anc) -> w_exit w = false ->
  menu_prompt m = Some p -> Forall printable p ->
  exists out force', prompt tty color force w = Some (out, force') /\
    display out (mkScreen above row [] (length row) Ground) =
      mkScreen above (row ++ p ++ lit "> ") [] (length (row ++ p ++ lit "> ")) Ground.
Proof.
  intros Hu Hm Hx Hp Hpr. destruct (prompt_bytes tty color force w m anc Hu Hm Hx) as (p' & force' & Hp' & ->).
  rewrite Hp in Hp'. injection Hp' as <-. do 2 eexists. split; [reflexivity|]. rewrite !display_app.
  assert (H1 : forall r, display (if color then sgr 32 ++ sgr 1 else []) (mkScreen above r [] (length r) Ground) = mkScreen above r [] (length r) Ground).
  { intros r. destruct color; [|reflexivity]. rewrite display_app, !display_sgr by (cbn; tauto). reflexivity. }
  assert (H2 : forall r, display (if force || color || tty then sgr 0 else []) (mkScreen above r [] (length r) Ground) = mkScreen above r [] (length r) Ground).
  { intros r. destruct (force || color || tty); [|reflexivity]. apply display_sgr. cbn; tauto. }
  assert (H3 : forall s r, Forall printable s -> display s (mkScreen above r [] (length r) Ground) = mkScreen above (r ++ s) [] (length (r ++ s)) Ground).
  { intros s r Hs. pose proof (display_text s Hs above r [] []) as H. rewrite app_nil_r in H. rewrite H.
    rewrite skipn_nil, app_nil_r. reflexivity. }
  rewrite H1, H3, H2, H3 by (assumption || (repeat constructor; unfold printable; cbn; lia)).
  rewrite <- !app_assoc. reflexivity.
Qed.
