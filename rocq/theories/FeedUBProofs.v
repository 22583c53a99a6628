(** * Proofs: the lines that are undefined *)

From Verif Require Import Base SplitModel SplitProofs FromStringModel FromStringSpec ConvTotalSpec ConvTotalProofs HistoryModel HistorySpec HistoryProofs MenuModel
  SessionModel ResolveSpec ResolveProofs SessionSpec TreeProofs SessionProofs FeatureProofs SafetyProofs InvariantProofs ReachSpec ReachProofs FeedUBSpec.
Open Scope nat_scope.
Open Scope list_scope.

Section Env.
Context (E : env).

Lemma convert_ub t s : convert E t s = CUB <-> text_undefined (e_plat E) t s.
Proof.
  assert (M : forall A B (f : A -> B) x, cmap f x = CUB <-> x = CUB) by (intros A B f []; cbn; split; congruence).
  destruct t as [i| | | |r|n d]; cbn [convert text_undefined]; rewrite M.
  - apply int_total.
  - apply bool_total.
  - unfold char_from_string. destruct s as [|c [|]]; split; discriminate || contradiction.
  - unfold string_from_string. split; discriminate || contradiction.
  - apply float_total.
  - split; [|contradiction]. intros H. destruct (FromStringProofs.custom_no_ub _ _ _ H).
Qed.
Lemma convert_all_ub ps : forall ss, length ss = length ps -> convert_all E ps ss = CUB <-> traps E ps ss.
Proof.
  induction ps as [|p ps IH]; intros [|s ss] L; try discriminate L; cbn [convert_all].
  - split; [discriminate|]. intros H. inversion H.
  - injection L as L. unfold cbind at 1. destruct (convert E p s) as [v| |] eqn:Hc.
    + transitivity (convert_all E ps ss = CUB); [unfold cmap, cbind; destruct (convert_all E ps ss); split; congruence|].
      rewrite (IH ss L). split; [intros H; eapply tr_later; eassumption|]. intros H. inversion H as [? ? ? ? Hu|]; subst; [|assumption].
      apply convert_ub in Hu. congruence.
    + split; [discriminate|]. intros H. inversion H as [? ? ? ? Hu|]; subst; [apply convert_ub in Hu|]; congruence.
    + split; [intros _; apply tr_here, convert_ub, Hc|reflexivity].
Qed.

Lemma traps_usable h pars args : traps E pars args -> ~ unusable E (TRun h pars args).
Proof.
  intros T U. inversion U as [h0 p0 a0 M]; subst. clear U. induction T as [t ts s ss Hu|t ts s ss v Hv T IH].
  - apply convert_ub in Hu. inversion M; subst; congruence.
  - inversion M; subst; [congruence|auto].
Qed.

(** ** Such a line is undefined *)
Lemma resolved_sized ctx toks h pars args : resolves E ctx toks (TRun h pars args) -> length args = length pars.
Proof. intros [(p & H & _)|(_ & p & H & _)]; apply reading_sized in H; exact H. Qed.
Lemma feed_traps fuel line w w0 toks ctx h pars args : recorded line w toks w0 -> unique_ids (w_root w) -> in_menu w ctx ->
  resolves E ctx toks (TRun h pars args) -> traps E pars args -> feed E (S fuel) line w = FUB.
Proof.
  intros Hrec Hu Hm Hr Ht. cbn [feed]. rewrite (feed_body_spec E _ _ _ _ _ Hrec).
  pose proof (recorded_same _ _ _ _ Hrec) as (Hroot & Hcur & _ & _ & _).
  apply (convert_all_ub pars args (resolved_sized _ _ _ _ _ Hr)) in Ht.
  assert (Ha : forall bi, attempt E bi (TRun h pars args) w0 = EUB) by (intros bi; cbn [attempt]; rewrite Ht; reflexivity).
  rewrite (dispatch_resolved E _ toks line w0 ctx (TRun h pars args) (recorded_ne _ _ _ _ Hrec)).
  - rewrite Ha. reflexivity.
  - rewrite Hroot. exact Hu.
  - unfold in_menu. rewrite Hroot, Hcur. exact Hm.
  - exact Hr.
  - intros bi w'. rewrite Ha. discriminate.
  - intros bi. rewrite !Ha. reflexivity.
Qed.

(** ** No other line is *)
Lemma after_call_defined line u vs w : after_call E line u vs w <> FUB.
Proof. unfold after_call. cbn zeta. destruct (ur_end _); [discriminate|apply report_safe]. Qed.
Lemma reject_defined line w : reject E line w <> FUB.
Proof. unfold reject. destruct (e_has E KWrong); [|discriminate]. cbn zeta. destruct (ur_end _); [discriminate|apply report_safe]. Qed.

Lemma feed_undefined_only size fuel line w : size >= 1 -> reachable size (w_hist w) -> unique_ids (w_root w) -> live w -> user_tree (w_root w) ->
  handlers_no_bad_cast E -> hooks_no_bad_cast E -> ~ recall E line -> feed E (S fuel) line w = FUB ->
  exists ctx toks h pars args, in_menu w ctx /\ split line = Some toks /\ toks <> [] /\ resolves E ctx toks (TRun h pars args) /\ traps E pars args.
Proof.
  intros Hs Hr Hu (ctx & Hm) Hut Hh Hk Hn HF.
  destruct (split_safe line) as (toks & Hsl & _). destruct toks as [|t0 toks0]; [cbn [feed] in HF; unfold feed_body in HF; rewrite Hsl in HF; discriminate|].
  set (toks := t0 :: toks0) in *. assert (Hne : toks <> []) by discriminate.
  destruct (reachable_inv size _ Hs Hr) as (I & M).
  destruct (new_command_inv (w_hist w) line I ltac:(lia)) as (h1 & Eh & _).
  assert (Hrec : recorded line w toks (set_hist h1 w)) by (split; [exact Hsl|split; [exact Hne|exists h1; split; [exact Eh|reflexivity]]]).
  assert (Hus : Forall user_tree ctx).
  { apply Forall_forall. intros m Hin. eapply chain_user; [exact Hut|exact (proj1 Hm)|exact Hin]. }
  destruct (resolves_or_not E ctx toks Hne) as [Hno|([h pars args|h args|id] & Hres)].
  - rewrite (feed_unresolved E fuel line w _ toks ctx Hrec Hu Hm Hno) in HF. destruct (reject_defined _ _ HF).
  - pose proof (resolved_sized _ _ _ _ _ Hres) as L. destruct (convert_all E pars args) as [vs| |] eqn:Hc.
    + exfalso. pose proof (proj1 (convert_all_ok E pars args vs L) Hc) as C. destruct h as [u| | | |].
      * rewrite (feed_run E fuel line w _ toks ctx Hrec Hu Hm u pars args vs Hres C) in HF; [destruct (after_call_defined _ _ _ _ HF)|]. intros s. apply Hh.
      * assert (Ht : toks = [lit "help"]).
        { destruct Hres as [(p & R & _)|(_ & p & R & _)].
          - apply global_readings in R as [(-> & _)|[(_ & _ & X)|[(_ & _ & X)|(a & _ & _ & X)]]]; [reflexivity|discriminate X..].
          - apply reading_user in R; [|exact Hus]. destruct R as (n & R). discriminate. }
        rewrite Ht in Hrec. rewrite (feed_help E fuel line w _ ctx Hu Hm Hrec) in HF. discriminate.
      * assert (Ht : toks = [lit "exit"]).
        { destruct Hres as [(p & R & _)|(_ & p & R & _)].
          - apply global_readings in R as [(_ & _ & X)|[(-> & _)|[(_ & _ & X)|(a & _ & _ & X)]]]; try discriminate X. reflexivity.
          - apply reading_user in R; [|exact Hus]. destruct R as (n & R). discriminate. }
        rewrite Ht in Hrec. rewrite (feed_exit E fuel line w _ Hk Hrec) in HF.
        assert (Hr1 : reachable size (w_hist (set_hist h1 w))) by exact (InvariantProofs.reachable_step size (w_hist w) (ONew line) h1 Hr Eh).
        destruct (exit_cases E size _ Hs Hr1) as [(_ & X)|[(w1 & x & _ & X)|[(w1 & w2 & x & _ & _ & X)|(w1 & w2 & _ & _ & X)]]]; rewrite X in HF;
          try discriminate; exact (proj1 (report_safe E line _ _) HF).
      * assert (Ht : toks = [lit "history"]).
        { destruct Hres as [(p & R & _)|(_ & p & R & _)].
          - apply global_readings in R as [(_ & _ & X)|[(_ & _ & X)|[(-> & _)|(a & _ & _ & X)]]]; try discriminate X. reflexivity.
          - apply reading_user in R; [|exact Hus]. destruct R as (n & R). discriminate. }
        rewrite Ht in Hrec. rewrite (feed_history E size fuel line w _ Hs Hr Hrec) in HF. discriminate.
      * destruct Hres as [(p & R & _)|(_ & p & R & _)].
        -- apply global_readings in R as [(_ & _ & X)|[(_ & _ & X)|[(_ & _ & X)|(a & Ha & _ & X)]]]; try discriminate X.
           injection X as -> ->. inversion C as [|? ? ? ? v ? Hv ?]; subst. apply Hn. exists a.
           assert (exists n, v = VInt n) as (n & ->).
           { cbn [convert] in Hv. unfold cmap, cbind in Hv. destruct (int_from_string _ _ _); try discriminate. injection Hv as <-. eauto. }
           exists n. split; [rewrite Hsl; congruence|exact Hv].
        -- apply reading_user in R; [|exact Hus]. destruct R as (n & R). discriminate.
    + exfalso. apply (convert_all_bad E pars args L) in Hc.
      destruct Hres as [(p & _ & U & _)|(_ & p & _ & U & _)]; apply U; constructor; exact Hc.
    + exists ctx, toks, h, pars, args. apply (convert_all_ub pars args L) in Hc. split; [exact Hm|]. split; [exact Hsl|]. split; [exact Hne|]. split; assumption.
  - exfalso. assert (exists u, h = HUser u) as (u & ->).
    { destruct Hres as [(p & R & _)|(_ & p & R & _)].
      - apply global_readings in R as [(_ & _ & X)|[(_ & _ & X)|[(_ & _ & X)|(a & _ & _ & X)]]]; discriminate X.
      - apply reading_user in R; [|exact Hus]. exact R. }
    rewrite (feed_free E fuel line w _ toks ctx Hrec Hu Hm u args Hres) in HF. destruct (after_call_defined _ _ _ _ HF).
  - exfalso. rewrite (feed_goto E fuel line w _ toks ctx Hrec Hu Hm id Hres) in HF. discriminate.
Qed.

(** ** A recall *)
Lemma uint_small a n : convert E (PInt UInt) a = COk (VInt n) -> (n < 2 ^ 64)%Z.
Proof.
  cbn [convert]. destruct (int_from_string (e_plat E) UInt a) as [z| |] eqn:Hz; cbn [cmap cbind]; intros H; inversion H; subst.
  apply int_total in Hz as [Hz _]. unfold int_text in Hz. cbn in Hz. lia.
Qed.
Lemma recall_undefined size line a n w : size >= 1 -> reachable size (w_hist w) -> hooks_no_bad_cast E ->
  split line = Some [lit "!"; a] -> convert E (PInt UInt) a = COk (VInt n) ->
  exists h1 h2, new_command (w_hist w) line = Some h1 /\ forget_latest h1 = Some h2 /\
    forall fuel, feed E (S fuel) line w = FUB <-> next_id h2 = 0%Z \/ exists s, In (n, s) (view h2) /\ feed E fuel s (set_hist h2 w) = FUB.
Proof.
  intros Hs Hr Hk Hsp Hc. destruct (recall_found E size line a n w Hs Hr Hk Hsp Hc) as (h1 & h2 & id & E1 & E2 & Hv & H).
  exists h1, h2. split; [exact E1|]. split; [exact E2|]. intros fuel. destruct (H fuel) as (A & B & C). clear H.
  assert (I2 : HInv h2).
  { apply (reachable_inv size); [exact Hs|]. apply (InvariantProofs.reachable_step size (w_hist w) (OBang line) h2 Hr). cbn [hstep]. rewrite E1. exact E2. }
  pose proof (inv_oldest h2 I2) as O.
  assert (Hzero : next_id h2 = 0%Z -> h_buf h2 = [] /\ h_oldest h2 = 0%Z).
  { unfold next_id. intros Hz. split; [|lia]. destruct (h_buf h2); [reflexivity|cbn [length] in Hz; lia]. }
  assert (N : next_id h2 = 0%Z \/ (0 < next_id h2)%Z) by (unfold next_id in *; lia).
  split.
  - intros HF. destruct N as [N|N]; [left; exact N|right].
    destruct (in_dec (fun x y : Z * str => ltac:(decide equality; [apply list_eq_dec, ascii_dec|apply Z.eq_dec])) (n, nth 0 (map snd (filter (fun p => Z.eqb (fst p) n) (view h2))) []) (view h2)) as [Hin|Hno].
    + eexists. split; [exact Hin|]. rewrite (A _ Hin) in HF. destruct (feed E fuel _ (set_hist h2 w)); try discriminate; try reflexivity.
      exact (False_ind _ (proj1 (report_safe E line _ _) HF)).
    + exfalso. rewrite B in HF; [exact (proj1 (report_safe E line _ _) HF)| |exact N]. intros s Hin.
      apply Hno. assert (Hf : In (n, s) (filter (fun p => Z.eqb (fst p) n) (view h2))) by (apply filter_In; split; [exact Hin|apply Z.eqb_refl]).
      destruct (filter _ (view h2)) as [|[m t] l] eqn:Ef; [destruct Hf|]. cbn [map nth snd].
      assert (Hm : In (m, t) (filter (fun p => Z.eqb (fst p) n) (view h2))) by (rewrite Ef; left; reflexivity).
      apply filter_In in Hm as (Hm & En). cbn [fst] in En. apply Z.eqb_eq in En as ->. exact Hm.
  - intros [Hz|(s & Hin & HF)].
    + destruct (Hzero Hz) as (Hb & Ho). apply C; [exact Hb|exact Ho|]. eapply uint_small. exact Hc.
    + rewrite (A s Hin), HF. reflexivity.
Qed.

(** ** Where [char] is signed, every function with a number among its parameters can be made undefined *)
Lemma byte_undefined t : char_signed (e_plat E) = true -> numeric t -> text_undefined (e_plat E) t ["200"%char].
Proof.
  intros Hp Hn. assert (N : negative_byte "200") by (unfold negative_byte; vm_compute; split; discriminate).
  assert (S : forall w, (8 <= w)%Z -> stumbles (e_plat E) w ["200"%char]).
  { intros w Hw. split; [exact Hp|]. exists [], 0%Z, "200"%char, []. split; [reflexivity|]. split; [constructor|].
    split; [apply Z.pow_pos_nonneg; lia|exact N]. }
  destruct t as [i| | | |r|n d]; try contradiction; cbn [text_undefined].
  - unfold int_undefined. destruct i; cbn [int_bits]; (left; split; [cbn [In]; tauto|left; left; apply S; lia]) || (right; split; [cbn [In]; tauto|left; apply S; lia]).
  - left. left. apply S. lia.
  - split; [exact Hp|]. exists [], "200"%char, []. split; [reflexivity|]. split; [constructor|exact N].
Qed.
Lemma every_number fuel size w l m anc ws id name desc pars1 t pars2 pdesc h vs :
  char_signed (e_plat E) = true -> strict (e_plat E) = false -> size >= 1 -> reachable size (w_hist w) -> unique_ids (w_root w) -> well_named (w_root w) ->
  in_menu w (l ++ m :: anc) -> Forall (fun x => cmd_en x = true) l ->
  named_by m ws (CFn id name true desc (pars1 ++ t :: pars2) pdesc h) -> Forall2 (passable E) pars1 vs -> numeric t ->
  exists line, feed E (S fuel) line w = FUB.
Proof.
  intros Hc Hp Hs Hr Hu Hw Hm He Hn Hv Ht.
  destruct (passable_texts E pars1 vs Hp Hv) as (args & Fa & C & L).
  pose (all := args ++ ["200"%char] :: repeat (lit "x") (length pars2)).
  assert (La : length all = length (pars1 ++ t :: pars2)) by (unfold all; rewrite !app_length; cbn [length]; rewrite repeat_length; congruence).
  assert (Tr : traps E (pars1 ++ t :: pars2) all).
  { unfold all. clear - C Hc Ht. induction C as [|p ps s ss v vs Hv C IH]; cbn [app].
    - apply tr_here, byte_undefined; assumption.
    - eapply tr_later; eassumption. }
  destruct (route E size w l m anc ws _ Hs Hr Hw Hm He Hn all (TRun h (pars1 ++ t :: pars2) all)) as (line & w0 & Rec & Res).
  - constructor. exact La.
  - apply traps_usable. exact Tr.
  - unfold all. apply Forall_app. split; [exact Fa|]. constructor; [discriminate|]. apply Forall_forall. intros x Hx. apply repeat_spec in Hx as ->. discriminate.
  - exists line. eapply feed_traps; eassumption.
Qed.
End Env.
