(** * C22, C52, C53, C58, C59: properties of interactive sessions *)

From Verif Require Import Base FromStringModel HistoryModel StorageModel PrefixSpec TerminalModel TerminalSpec MenuModel SessionModel
  ResolveSpec SessionSpec CompletionModel CompletionSpec CompletionProofs ProcessorModel ProcessorSpec ProcessorProofs DisplayProofs
  InvariantProofs InteractiveProofs Demo PropCompletion PropTree.
Open Scope nat_scope.
Open Scope list_scope.

(** Keys for the examples. *)
Definition stroke (k : key) : keystroke := mkStroke k true false.
Definition typing (s : str) : list keystroke := map (fun c => stroke (KAscii c)) s.
Definition ret : keystroke := stroke KRet.
Definition demo_proc : proc := mkProc demo_world term_init.
Definition bad_proc : proc := mkProc bad_world term_init.

(** C22 for whole sessions: after any keys but end of file - including Return with
    everything commands print, recalled lines, completions and their lists, cleared
    screens - the user sees the prompt of the current menu, the edited line and the
    cursor on the editing position; provided all texts of menus, and what user code
    prints, are printable characters, tabs and line ends (or anything else that leaves
    the cursor at the end). *)
Theorem C22_session : forall E fuel tty color ks w p p' sc,
  neat_code E -> neat_world w -> at_end (screen_of sc w) -> Forall (fun k => printable_key (ks_key k)) ks ->
  open_local E tty color w = POk p -> presses E fuel tty ks p = POk p' ->
  exists e last, displayed sc p' e last.
Proof.
  intros E fuel tty color ks w p p' sc Hc Hn Ha Hk Ho Hp.
  exact (proj2 (presses_shown E fuel tty ks sc Hc p p' Hk (open_shown E tty color w p sc Hc Hn Ha Ho) Hp)).
Qed.
Print Assumptions C22_session.

(** Ctrl-D does not move to a new row: the output of exit actions follows the text. *)
Theorem C22_eof_refuted : exists p' sc,
  presses full_env 10 true (typing (lit "ad") ++ [stroke KEof]) demo_proc = POk p' /\ at_end sc /\
  sc_row (screen_of sc (p_world p')) = lit "adhookhook".
Proof.
  eexists. exists (mkScreen [] [] [] 0 Ground). split; [vm_compute; reflexivity|]. split; [repeat split|vm_compute; reflexivity].
Qed.
Print Assumptions C22_eof_refuted.

Lemma demo_neat : neat_code full_env /\ neat_world demo_world.
Proof.
  assert (Hn : forall s, forallb (fun c => (32 <=? N_of_ascii c)%N && (N_of_ascii c <? 127)%N) s = true -> Forall printable s /\ neat s).
  { intros s Hs. split; [apply printable_dec|apply neat_lit]; exact Hs. }
  assert (Hx : forall s, forallb (fun c => (32 <=? N_of_ascii c)%N && (N_of_ascii c <? 127)%N) s = true -> neat s) by (intros s Hs; apply Hn, Hs).
  split; [split|split].
  - intros sid h args tr. cbn [e_handler full_env demo_env demo_handler].
    destruct h as [|[|[|[|[|h]]]]]; split; cbn [ur_ops ur_end neat_exn];
      repeat (apply Forall_cons || apply Forall_nil || exact Logic.I || (apply Hx; reflexivity)).
    cbn. split; [|exact Logic.I]. split; [apply Hn; reflexivity|]. split; [apply Hx; reflexivity|split; constructor].
  - intros sid k args tr. split; [|exact Logic.I]. constructor; [apply Hx; reflexivity|constructor].
  - repeat (apply every_menu; split; [split; [apply Hn; reflexivity|split; apply Hn; reflexivity]|];
      repeat (apply Forall_cons || apply Forall_nil));
      try (cbn [every]; split; [|exact Logic.I]; split; [apply Hn; reflexivity|split; [apply Hn; reflexivity|try split]];
           repeat (apply Forall_cons || apply Forall_nil || exact Logic.I || (apply Hx; reflexivity))).
  - cbn. repeat (apply Forall_cons; [apply Hn; reflexivity|]). apply Forall_nil.
Qed.
(** The user sees [cli> sub deep ], after completions were listed. *)
Example C22_session_nonvacuous : neat_code full_env /\ neat_world demo_world /\
  let ks := typing (lit "add 1 2") ++ [ret; stroke KUp; stroke KBackspace; stroke KClear] ++
            map stroke [KHome; KCanc; KEnd] ++ [ret; stroke (KAscii "009")] ++ typing (lit "subd") ++ [stroke (KAscii "009")] in
  Forall (fun k => printable_key (ks_key k)) ks /\
  at_end (screen_of (mkScreen [] [] [] 0 Ground) demo_world) /\
  exists p p', open_local full_env true true demo_world = POk p /\
    presses full_env 40 true ks p = POk p' /\
    sc_row (screen_of (mkScreen [] [] [] 0 Ground) (p_world p')) = lit "cli> sub deep " /\
    sc_col (screen_of (mkScreen [] [] [] 0 Ground) (p_world p')) = 14.
Proof.
  split; [apply demo_neat|]. split; [apply demo_neat|]. cbn zeta. split.
  { repeat (apply Forall_cons; [first [exact Logic.I|left; reflexivity|right; unfold printable; cbn; lia]|]). apply Forall_nil. }
  split; [repeat split|]. do 2 eexists. split; [vm_compute; reflexivity|]. split; [vm_compute; reflexivity|].
  split; vm_compute; reflexivity.
Qed.

(** C52: TAB calls no command and changes nothing but the line: without completions
    nothing happens; a single one replaces the line, with a space added; of several
    the longest common prefix replaces the line if it is longer, otherwise they are
    listed, the line staying the same with the cursor at its end. *)
Theorem C52_results : forall E fuel tty k p e,
  holds (p_term p) e -> tab_key k -> unique_ids (w_root (p_world p)) ->
  match press E fuel tty k p with
  | POk p' => only_printed (p_world p) (p_world p') /\
      exists l, offers_list (p_world p) (ed_text e) l /\
        ((l = [] /\ holds (p_term p') e) \/
         (exists c, l = [c] /\ holds (p_term p') (mkEd (rev (c ++ lit " ")) [])) \/
         (2 <= length l /\ exists pre, longest_common_prefix l pre /\
            ((length (ed_text e) < length pre /\ holds (p_term p') (mkEd (rev pre) [])) \/
             (length pre <= length (ed_text e) /\ holds (p_term p') (mkEd (rev (ed_text e)) []) /\
              exists e1 e2, w_trace (p_world p') = w_trace (p_world p) ++ e1 ++
                [EvOut (w_sid (p_world p)) (nl ++ flat_map (fun c => tab ++ c) l ++ nl)] ++ e2))))
  | PExc _ _ => False
  | _ => True
  end.
Proof. exact press_tab. Qed.
Print Assumptions C52_results.

(** If no menu's name is the beginning of a name beside it, the new line extends the
    typed one up to blanks. *)
Theorem C52_kept : forall E fuel tty k p e p',
  holds (p_term p) e -> tab_key k -> unique_ids (w_root (p_world p)) -> unambiguous (p_world p) ->
  press E fuel tty k p = POk p' ->
  exists e', holds (p_term p') e' /\ is_prefix (squeeze (ed_text e)) (squeeze (ed_text e')).
Proof. exact tab_kept. Qed.
Print Assumptions C52_kept.

(** In general text can be lost: with menus [a], [b] inside and there a menu [c]
    containing [d] and a command [cd], TAB turns [abcd] into [a b c]. *)
Definition greedy_root : cmd :=
  CMenu 10 (lit "cli") true [] (lit "cli") [
    CMenu 11 (lit "a") true [] [] [
      CMenu 12 (lit "b") true [] [] [
        CMenu 13 (lit "c") true [] [] [CFn 14 (lit "d") true [] [] [] (HUser 0)];
        CFn 15 (lit "cd") true [] [] [] (HUser 0)]]].
Theorem C52_refuted : exists w e p', unique_ids (w_root w) /\
  let p := mkProc w (mkTerm (ed_text e) (length (TerminalSpec.before e)) false) in
  holds (p_term p) e /\ ed_text e = lit "abcd" /\
  press quiet_env 20 true (stroke (KAscii "009")) p = POk p' /\ tm_line (p_term p') = lit "a b c".
Proof.
  exists (open_session 0 5 greedy_root 20 (StVolatile 10 []) []), (mkEd (rev (lit "abcd")) []). eexists.
  split; [cbv; repeat constructor; cbn; intuition discriminate|].
  split; [split; reflexivity|]. split; [reflexivity|]. split; [vm_compute; reflexivity|]. reflexivity.
Qed.
Print Assumptions C52_refuted.

Lemma demo_contexts : forall ctx, chain demo_root ctx ->
  ctx = [demo_root] \/ ctx = [demo_sub; demo_root] \/
  ctx = [CMenu 15 (lit "deep") true [] (lit "down here") [CFn 16 (lit "y") true [] [] [] (HUser 0)]; demo_sub; demo_root].
Proof.
  intros ctx H. induction H as [Hm|k p anc' H IH Hk Hm]; [auto|].
  destruct IH as [E|[E|E]]; injection E as -> ->; cbn in Hk;
    repeat (destruct Hk as [<-|Hk]; [try (destruct Hm as (? & ? & ? & ? & ? & ? & ?); discriminate); auto|]);
    destruct Hk.
Qed.
Example C52_nonvacuous : unique_ids (w_root demo_world) /\ unambiguous demo_world /\
  (exists p', presses quiet_env 40 true (typing (lit "subd") ++ [stroke (KAscii "009")]) demo_proc = POk p' /\
     tm_line (p_term p') = lit "sub deep ") /\
  (exists p', presses quiet_env 40 true (typing (lit "s") ++ [stroke (KAscii "009")]) demo_proc = POk p' /\
     tm_line (p_term p') = lit "s") /\
  (exists p', presses quiet_env 40 true (typing (lit "h") ++ [stroke KLeft] ++ [stroke (KAscii "009")]) demo_proc = POk p' /\
     tm_line (p_term p') = lit "h").
Proof.
  split; [cbv; repeat constructor; cbn; intuition discriminate|]. split.
  - assert (Hb : forall ctx w1 ctx1, chain demo_root ctx -> branch ctx w1 (Some ctx1) ->
      (w1 = lit "sub" \/ w1 = lit "deep" \/ w1 = lit "cli" \/ w1 = lit "..")).
    { intros ctx w1 ctx1 Hc Hb. apply demo_contexts in Hc as [->|[->| ->]]; inversion Hb; subst; cbn; auto;
        match goal with Hk : In _ _, Hm : is_menu _ |- _ => cbn in Hk; repeat (destruct Hk as [<-|Hk]; [try (destruct Hm as (? & ? & ? & ? & ? & ? & ?); discriminate); auto|]); destruct Hk end. }
    split.
    + intros ctx w1 ctx1 w2 t2 Hc H1 H2 Hp. change (w_root demo_world) with demo_root in Hc.
      apply demo_contexts in Hc as [->|[->| ->]]; inversion H1; subst; inversion H2; subst;
        repeat match goal with Hk : In _ _ |- _ => cbn in Hk; repeat (destruct Hk as [<-|Hk]; [try (exfalso; match goal with Hm : is_menu (CFn _ _ _ _ _ _ _) |- _ => destruct Hm as (? & ? & ? & ? & ? & ? & ?); discriminate | Hm : is_menu (CFree _ _ _ _ _ _) |- _ => destruct Hm as (? & ? & ? & ? & ? & ? & ?); discriminate end)|]); [..|destruct Hk] end;
        try (split; reflexivity); exfalso; try (destruct Hp as (r & Hr); discriminate Hr);
        match goal with Hm : ~ is_menu _ |- _ => apply Hm; repeat eexists end.
    + intros ctx w1 ctx1 g (Hc & _) H1 Hg (r & Hr). apply (Hb _ _ _ Hc) in H1.
      cbn in Hg. destruct H1 as [->|[->|[->| ->]]]; repeat (destruct Hg as [<-|Hg]; [discriminate Hr|]); destruct Hg.
  - repeat split; (eexists; split; [vm_compute; reflexivity|reflexivity]).
Qed.

(** C53: from a state with input on, any keys: if no exception escapes, input is on
    again, and command functions are only called with input off. *)
Theorem C53_reenabled : forall E fuel tty ks p p', (exists e, holds (p_term p) e) ->
  input_on (w_sid (p_world p)) (w_trace (p_world p)) = true ->
  presses E fuel tty ks p = POk p' -> input_on (w_sid (p_world p')) (w_trace (p_world p')) = true.
Proof.
  intros E fuel tty ks p p' He Hon H. destruct (presses_input E fuel tty ks p He Hon) as (H1 & _).
  rewrite H in H1. destruct H1 as (-> & H1). exact H1.
Qed.
Print Assumptions C53_reenabled.

Theorem C53_off_during_commands : forall E fuel tty ks p p', (exists e, holds (p_term p) e) ->
  input_on (w_sid (p_world p)) (w_trace (p_world p)) = true ->
  (presses E fuel tty ks p = POk p' \/ exists x, presses E fuel tty ks p = PExc x p') ->
  exists evs, w_trace (p_world p') = w_trace (p_world p) ++ evs /\
    forall a b sid h args, evs = a ++ EvCall sid h args :: b ->
      input_on (w_sid (p_world p)) (w_trace (p_world p) ++ a) = false.
Proof.
  intros E fuel tty ks p p' He Hon H. destruct (presses_input E fuel tty ks p He Hon) as (_ & H2).
  destruct H as [H|(x & H)]; rewrite H in H2; exact H2.
Qed.
Print Assumptions C53_off_during_commands.

(** Each Return: input off, the line is fed, the prompt, input on; an exception can
    only come from the user's exception handler. *)
Theorem C53_bracket : forall E fuel tty k p, (exists e, holds (p_term p) e) -> ks_key k = KRet ->
  match press E fuel tty k p with
  | POk p' => exists evs b, w_sid (p_world p') = w_sid (p_world p) /\ Forall no_input evs /\
      w_trace (p_world p') = w_trace (p_world p) ++ [EvOut (w_sid (p_world p)) crlf; EvInput (w_sid (p_world p)) false]
        ++ evs ++ [EvOut (w_sid (p_world p)) b; EvInput (w_sid (p_world p)) true]
  | PExc x p' => exists evs, w_sid (p_world p') = w_sid (p_world p) /\ Forall no_input evs /\
      w_trace (p_world p') = w_trace (p_world p) ++ [EvOut (w_sid (p_world p)) crlf; EvInput (w_sid (p_world p)) false] ++ evs /\
      e_has E KExcept = true /\ exists sid args tr, ur_end (e_hook E sid KExcept args tr) = UThrow x
  | _ => True
  end.
Proof. exact ret_events. Qed.
Print Assumptions C53_bracket.

(** If the user's exception handler throws, input stays off. *)
Definition throwing_env : env :=
  mkEnv (mkPlatform true false) (fun _ _ => None) (fun _ _ => None) demo_handler
    (fun _ _ _ _ => mkURes [] (UThrow XOther)) (fun _ => true).
Theorem C53_handler_throws_refuted : exists x p', 
  presses throwing_env 10 true (typing (lit "sub x") ++ [ret]) demo_proc = PExc x p' /\
  input_on (w_sid demo_world) (w_trace demo_world) = true /\
  input_on (w_sid (p_world p')) (w_trace (p_world p')) = false.
Proof. do 2 eexists. split; [vm_compute; reflexivity|]. split; reflexivity. Qed.
Print Assumptions C53_handler_throws_refuted.

Example C53_nonvacuous : (exists e, holds (p_term demo_proc) e) /\
  input_on (w_sid (p_world demo_proc)) (w_trace (p_world demo_proc)) = true /\
  exists p', presses quiet_env 10 true (typing (lit "add 1 2") ++ [ret] ++ typing (lit "s")) demo_proc = POk p' /\
    In (EvCall 0 0 [VInt 1; VInt 2]) (w_trace (p_world p')).
Proof.
  split; [exists (mkEd [] []); split; reflexivity|]. split; [reflexivity|].
  eexists. split; [vm_compute; reflexivity|]. cbn. tauto.
Qed.

(** C59: editing keys change nothing but the line ... *)
Theorem C59_editing : forall E fuel tty ks p e,
  holds (p_term p) e -> Forall (fun k => editing (ks_key k) = true) ks ->
  exists p', presses E fuel tty ks p = POk p' /\ only_printed (p_world p) (p_world p') /\
    holds (p_term p') (snd (ed_run (map (fun k => EKey (ks_key k)) ks) e)).
Proof. intros E fuel tty ks p e. exact (presses_edit E fuel tty ks p e). Qed.
Print Assumptions C59_editing.

(** ... and Return then feeds exactly the text of the ideal editor, once, to the
    session, leaving the line empty. *)
Theorem C59_line_fed : forall E fuel tty ks kr p e, holds (p_term p) e ->
  Forall (fun k => editing (ks_key k) = true) ks -> ks_key kr = KRet ->
  exists w1, only_printed (p_world p) w1 /\
    let text := ed_text (snd (ed_run (map (fun k => EKey (ks_key k)) ks) e)) in
    let w2 := log (EvInput (w_sid (p_world p)) false) w1 in
    match feed E fuel text w2 with
    | FOk w3 => 
        match presses E fuel tty (ks ++ [kr]) p with
        | POk p' => holds (p_term p') (mkEd [] []) /\
            exists b w4, p_world p' = log (EvInput (w_sid (p_world p)) true) w4 /\ w4 = out b w3 /\
              exists force force', prompt tty (ks_color' kr) force w3 = Some (b, force')
        | PUB => prompt_text w3 = None
        | _ => False
        end
    | FExc x w3 => exists p', presses E fuel tty (ks ++ [kr]) p = PExc x p' /\ p_world p' = w3
    | FUB => presses E fuel tty (ks ++ [kr]) p = PUB
    | FFuel => presses E fuel tty (ks ++ [kr]) p = PFuel
    end.
Proof. exact type_and_return. Qed.
Print Assumptions C59_line_fed.

(** [ad 1 2], then Home, Right, Right, [d]: [add 1 2]. *)
Example C59_nonvacuous :
  let ks := typing (lit "ad 1 2") ++ map stroke [KHome; KRight; KRight; KAscii "d"] in
  Forall (fun k => editing (ks_key k) = true) ks /\
  ed_text (snd (ed_run (map (fun k => EKey (ks_key k)) ks) (mkEd [] []))) = lit "add 1 2" /\
  exists p', presses quiet_env 10 true (ks ++ [ret]) demo_proc = POk p' /\
    In (EvCall 0 0 [VInt 1; VInt 2]) (w_trace (p_world p')).
Proof.
  split; [repeat constructor|]. split; [reflexivity|]. eexists. split; [vm_compute; reflexivity|]. cbn. tauto.
Qed.

(** C58: any keys, from a healthy session: no undefined behaviour, no unbounded
    recursion, and the session stays healthy - provided Up is not pressed while the
    line is a recall and no recall is entered before any command. *)
Theorem C58_keys_defined : forall E (R : nat -> Prop) size, size >= 1 -> tame E R -> legible_code E ->
  forall tty ks p, healthy_proc E R size p -> Forall (fun k => legible_key E (ks_key k)) ks ->
  exists F, forall fuel, F <= fuel -> careful E fuel tty ks p ->
    p_safe (fun p' => healthy_proc E R size p' /\ (used (p_world p) -> used (p_world p'))) (presses E fuel tty ks p).
Proof. exact presses_healthy. Qed.
Print Assumptions C58_keys_defined.

(** Without the first condition: [x], then Up, change it to [!0], Up, Return: a recall
    reads the empty history. *)
Definition fresh_proc : proc := mkProc (fresh_world 5) term_init.
Definition edit_up : list keystroke :=
  typing (lit "x") ++ [ret; stroke KUp; stroke KBackspace] ++ typing (lit "!0") ++ [stroke KUp].
Theorem C58_up_refuted : exists ks, Forall (fun k => legible_key quiet_env (ks_key k)) ks /\
  forall fuel, 2 <= fuel -> presses quiet_env fuel true ks fresh_proc = PUB.
Proof.
  exists (edit_up ++ [ret]). split; [repeat (apply Forall_cons; [first [exact Logic.I|right; repeat constructor]|]); apply Forall_nil|].
  intros [|[|fuel]] Hf; try lia. clear Hf. vm_compute. reflexivity.
Qed.
Print Assumptions C58_up_refuted.

(** Or: the changed entry stays in the history, and recalling it never ends. *)
Definition loop_hist (c : nat) : history := mkHistory 5 [lit "y"; lit "!0"] 0 c false 0.
Lemma recall_loops w : forall fuel c, feed quiet_env fuel (lit "!0") (set_hist (loop_hist c) w) = FFuel.
Proof.
  induction fuel as [|fuel IH]; intros c; [reflexivity|].
  erewrite (recall_recorded quiet_env (lit "!0") (set_hist (loop_hist c) w) (lit "0") 0 _ _ eq_refl eq_refl eq_refl eq_refl); [|intros sid k args tr s; discriminate].
  match goal with |- context[at_id ?h ?n] => change (at_id h n) with (AtOk (lit "!0")) end.
  cbv iota. change (set_hist _ (set_hist _ w)) with (set_hist (loop_hist (S c)) w). rewrite IH. reflexivity.
Qed.
Theorem C58_loop_refuted : exists ks, Forall (fun k => legible_key quiet_env (ks_key k)) ks /\
  forall fuel, presses quiet_env fuel true ks fresh_proc = PFuel.
Proof.
  exists ((edit_up ++ [stroke KDown] ++ typing (lit "y") ++ [ret] ++ typing (lit "!0")) ++ [ret]).
  split; [repeat (apply Forall_cons; [first [exact Logic.I|right; repeat constructor]|]); apply Forall_nil|].
  intros [|fuel]; [vm_compute; reflexivity|]. rewrite presses_app.
  set (r := presses quiet_env (S fuel) true (edit_up ++ [stroke KDown] ++ typing (lit "y") ++ [ret] ++ typing (lit "!0")) fresh_proc).
  assert (Hr : exists w t c, r = POk (mkProc (set_hist (loop_hist c) w) t) /\ holds t (mkEd (rev (lit "!0")) [])).
  { eexists (p_world match r with POk p => p | _ => fresh_proc end), _, _. split; [vm_compute; reflexivity|split; reflexivity]. }
  destruct Hr as (w & t & c & -> & Ht). cbn [p_bind presses].
  destruct (press_ret quiet_env (S fuel) true ret (mkProc (set_hist (loop_hist c) w) t) _ Ht eq_refl) as (t' & _ & ->).
  unfold process, p_out, p_log. cbn [p_world p_term].
  change (log ?e (out ?s (set_hist ?h w))) with (set_hist h (log e (out s w))).
  change (ed_text (mkEd (rev (lit "!0")) [])) with (lit "!0"). rewrite recall_loops. reflexivity.
Qed.
Print Assumptions C58_loop_refuted.

Definition tame_env : env :=
  mkEnv (mkPlatform true false) (fun _ _ => None) (fun _ _ => None)
    (fun _ h _ _ => mkURes [OOut (lit "hi"); ORemove 11] (if Nat.eqb h 0 then UReturn else UThrow XOther)) demo_hook (fun _ => true).
Lemma careful_step E fuel tty k ks p p' :
  (recall E (tm_line (p_term p)) -> ks_key k <> KUp /\ (ks_key k = KRet -> used (p_world p))) ->
  press E fuel tty k p = POk p' -> careful E fuel tty ks p' -> careful E fuel tty (k :: ks) p.
Proof. intros H1 H2 H3. cbn [careful]. rewrite H2. auto. Qed.
Example C58_nonvacuous : tame tame_env (fun i => i = 11) /\ legible_code tame_env /\
  healthy_proc tame_env (fun i => i = 11) 5 demo_proc /\
  let ks := typing (lit "add 1 2") ++ [ret; stroke KUp; stroke KBackspace; ret] ++ typing (lit "!1") ++ [ret; stroke (KAscii "009"); stroke KEof] in
  Forall (fun k => legible_key tame_env (ks_key k)) ks /\ careful tame_env 40 true ks demo_proc /\
  exists p', presses tame_env 40 true ks demo_proc = POk p' /\ length (w_trace (p_world p')) = 40.
Proof.
  destruct C57_nonvacuous as (H1 & H2 & _). split; [exact H1|]. split.
  { split; intros; repeat constructor. }
  split.
  { split; [exact H2|]. split; [|split; [exists (mkEd [] []); split; reflexivity|right; constructor]].
    repeat (apply every_menu; split; [split; [right; repeat constructor|intros _; discriminate]|]; repeat (apply Forall_cons || apply Forall_nil));
      (cbn [every]; split; [|exact Logic.I]; split; [right; repeat constructor|intros (? & ? & ? & ? & ? & ? & Hm); discriminate]). }
  cbn zeta. split; [repeat (apply Forall_cons; [first [exact Logic.I|right; repeat constructor]|]); apply Forall_nil|].
  split; [|eexists; split; vm_compute; reflexivity].
  cbn [app typing map lit list_ascii_of_string ret].
  repeat (eapply careful_step;
    [first [intros (a & n & Hs & _); vm_compute in Hs; discriminate Hs|intros _; split; [discriminate|intros _; left; vm_compute; discriminate]]
    |vm_compute; reflexivity|]).
  exact Logic.I.
Qed.
