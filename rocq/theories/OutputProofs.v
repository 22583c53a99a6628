(** * Invariants that speak of what sessions print *)

From Verif Require Import Base SplitModel SplitSpec SplitProofs FromStringModel HistoryModel HistorySpec HistoryProofs StorageModel TerminalModel
  MenuModel SessionModel ResolveSpec ResolveProofs SessionSpec TreeProofs SessionProofs InvariantProofs.
Open Scope nat_scope.
Open Scope list_scope.

(** As in InvariantProofs.v, but what is printed, the lines fed and the exceptions
    thrown are restricted. *)
Definition code_throws (E : env) (okx : exn -> Prop) : Prop :=
  (forall sid h args tr x, ur_end (e_handler E sid h args tr) = UThrow x -> okx x) /\
  (forall sid k args tr x, ur_end (e_hook E sid k args tr) = UThrow x -> okx x).
Definition enter_hook (k : hook) : Prop := match k with KCliEnter | KSesEnter => True | _ => False end.
Definition code_event (sid : nat) (e : event) : Prop :=
  match e with EvCall i _ _ => i = sid | EvHook i k _ => i = sid /\ ~ enter_hook k | _ => False end.
Definition hx_inv (P : world -> Prop) (okx : exn -> Prop) (r : hres) : Prop :=
  match r with HOk w => P w | HExc x w => okx x /\ P w | _ => True end.
Definition ex_inv (P Q : world -> Prop) (okx : exn -> Prop) (r : eres) : Prop :=
  match r with EDone true w => P w | EDone false w => Q w | EExc x w => okx x /\ P w | _ => True end.
Definition fx_inv (P : world -> Prop) (okx : exn -> Prop) (r : fres) : Prop :=
  match r with FOk w => P w | FExc x w => okx x /\ P w | _ => True end.

Section Out.
Context (E : env) (P : world -> Prop) (Q : str -> Prop) (okx : exn -> Prop) (ok : op -> Prop).
Context (Hcode : code_ops E ok) (Hthrow : code_throws E okx)
  (Hbfc : okx bad_function_call) (Hoor : okx out_of_range)
  (Hlog : forall e w, code_event (w_sid w) e -> P w -> P (log e w))
  (Hhelp : forall w s, P w -> help_text w = Some s -> P (out s w))
  (Hshow : forall w s, P w -> show (w_hist w) = Some s -> P (out s w))
  (Hwrong : forall w line, P w -> Q line -> P (out (lit "wrong command: " ++ line ++ nl) w))
  (Hwhat : forall w what, P w -> okx (XStd what) \/ okx (XBadCast what) -> P (out (what ++ nl) w))
  (Hunk : forall w line, P w -> Q line ->
     P (out (lit "Cli. Unknown exception caught handling command line """ ++ line ++ lit """" ++ nl) w))
  (Hop : forall w o, ok o -> P w -> P (apply_op w o))
  (Hcur : forall w ctx toks p id, P w -> in_menu w ctx -> reading ctx toks p (TGoto id) -> P (set_cur id w))
  (Hstore : forall cmds w, P w -> get_commands (w_hist w) = Some cmds -> P (set_store (st_store (w_store w) cmds) w))
  (Hexit : forall w, P w -> P (set_exit true w))
  (Hnew : forall line h w, P w -> Q line -> new_command (w_hist w) line = Some h -> P (set_hist h w))
  (Hbang : forall h w, P w -> forget_latest (w_hist w) = Some h -> P (set_hist h w))
  (Hat : forall w n l, P w -> at_id (w_hist w) n = AtOk l -> Q l).

Lemma o_ops_inv os w : Forall ok os -> P w -> P (apply_ops os w).
Proof.
  intros Hok H. apply (apply_ops_ind P); [exact H|]. intros w' o Hin Hw. apply Hop; [|exact Hw].
  rewrite Forall_forall in Hok. auto.
Qed.
Lemma o_any_hook_inv k args w : P (log (EvHook (w_sid w) k args) w) -> hx_inv P okx (run_hook E k args w).
Proof.
  intros H. rewrite hook_spec. cbn zeta.
  match goal with |- context[apply_ops (ur_ops ?r) ?w1] => assert (Hw : P (apply_ops (ur_ops r) w1))
    by (apply o_ops_inv; [apply (proj2 Hcode)|exact H]) end.
  match goal with |- context[ur_end ?r] => destruct (ur_end r) eqn:Hr end; [exact Hw|].
  split; [eapply (proj2 Hthrow); exact Hr|exact Hw].
Qed.
Lemma o_hook_inv k args w : ~ enter_hook k -> P w -> hx_inv P okx (run_hook E k args w).
Proof. intros Hk H. apply o_any_hook_inv, Hlog; [split; [reflexivity|exact Hk]|exact H]. Qed.
Lemma o_exit_inv w : P w -> hx_inv P okx (session_exit E w).
Proof.
  intros H. unfold session_exit.
  assert (H1 : hx_inv P okx (if e_has E KSesExit then run_hook E KSesExit [] w else HExc bad_function_call w)).
  { destruct (e_has E KSesExit); [apply o_hook_inv; [intros []|exact H]|split; [exact Hbfc|exact H]]. }
  destruct (if e_has E KSesExit then _ else _) as [w1|x w1| |]; cbn [h_bind]; try exact H1.
  assert (H2 : hx_inv P okx (if e_has E KCliExit then run_hook E KCliExit [] w1 else HOk w1)).
  { destruct (e_has E KCliExit); [apply o_hook_inv; [intros []|exact H1]|exact H1]. }
  destruct (if e_has E KCliExit then _ else _) as [w2|x w2| |]; cbn [h_bind]; try exact H2.
  destruct (get_commands (w_hist w2)) as [cmds|] eqn:Hg; [|exact Logic.I]. cbn. apply Hexit, Hstore; assumption.
Qed.
Lemma o_enter_inv w : (forall k w', enter_hook k -> P w' -> P (log (EvHook (w_sid w') k []) w')) -> P w -> hx_inv P okx (session_enter E w).
Proof.
  intros Hent H. unfold session_enter.
  assert (H1 : hx_inv P okx (if e_has E KCliEnter then run_hook E KCliEnter [] w else HOk w)).
  { destruct (e_has E KCliEnter); [apply o_any_hook_inv, Hent; [exact Logic.I|exact H]|exact H]. }
  destruct (if e_has E KCliEnter then _ else _) as [w1|x w1| |]; cbn [h_bind]; try exact H1.
  destruct (e_has E KSesEnter); [apply o_any_hook_inv, Hent; [exact Logic.I|exact H1]|exact H1].
Qed.

Lemma o_call_user_inv u vs w : P w -> P (snd (call_user E u vs w)) /\ forall x, ur_end (fst (call_user E u vs w)) = UThrow x -> okx x.
Proof.
  intros H. cbn [call_user snd fst]. split; [apply o_ops_inv; [apply (proj1 Hcode)|apply Hlog; [reflexivity|exact H]]|].
  intros x. apply (proj1 Hthrow).
Qed.

Lemma o_user_attempt_inv ctx toks p t w : reading ctx toks p t -> P w -> in_menu w ctx ->
  ex_inv P (fun w' => P w' /\ in_menu w' ctx) okx (attempt E no_builtin t w).
Proof.
  intros Hr H Hm. destruct t as [h pars args|h args|id]; cbn [attempt].
  - destruct (convert_all E pars args) as [vs| |]; [|split; assumption|exact Logic.I].
    destruct h as [u| | | |]; cbn [run_fn no_builtin]; try exact Logic.I.
    destruct (o_call_user_inv u vs w H) as (Hc & Hx). destruct (call_user E u vs w) as (r, w') eqn:Hcu. cbn [snd fst] in Hc, Hx.
    destruct (ur_end r) as [|[s|s|]] eqn:Hend; cbn; auto.
    destruct (existsb is_tree_op (ur_ops r)) eqn:Hxx; [exact Logic.I|]. cbn. split; [exact Hc|].
    unfold call_user in Hcu. injection Hcu as <- <-.
    apply no_tree_ops with (w := log (EvCall (w_sid w) u vs) w) in Hxx as (Hroot & Hcu).
    unfold in_menu. rewrite Hroot, Hcu. exact Hm.
  - destruct h as [u| | | |]; cbn [run_free]; try exact Logic.I.
    destruct (o_call_user_inv u [VList args] w H) as (Hc & Hx). destruct (call_user E u [VList args] w) as (r, w').
    cbn [snd fst] in Hc, Hx. destruct (ur_end r) eqn:Hend; [exact Hc|split; [apply Hx; reflexivity|exact Hc]].
  - cbn. eapply Hcur; eassumption.
Qed.
Lemma o_user_attempts_inv ctx toks l : (forall p t, In (p, t) l -> reading ctx toks p t) ->
  forall w, P w -> in_menu w ctx -> ex_inv P P okx (attempts E no_builtin l w).
Proof.
  induction l as [|(p, t) l IH]; intros Hl w H Hm; cbn [attempts snd]; [exact H|].
  pose proof (o_user_attempt_inv ctx toks p t w (Hl p t (or_introl eq_refl)) H Hm) as Ha.
  destruct (attempt E no_builtin t w) as [[] w1|x w1| |]; cbn [e_bind]; try exact Ha.
  destruct Ha as (Ha & Hm1). apply IH; auto. intros p' t' Hin. apply Hl. right. exact Hin.
Qed.

Lemma o_report_inv line x w : Q line -> okx x -> P w -> fx_inv P okx (report E line x w).
Proof.
  intros Hq Hx H.
  destruct x as [s|s|]; [| |cbn; apply Hunk; assumption].
  1,2: cbn [report]; destruct (e_has E KExcept); [|cbn; apply Hwhat; tauto]; cbn zeta;
    match goal with |- context[apply_ops (ur_ops ?r) ?w1] => assert (Hw : P (apply_ops (ur_ops r) w1))
      by (apply o_ops_inv; [apply (proj2 Hcode)|apply Hlog; [split; [reflexivity|intros []]|exact H]]) end;
    match goal with |- context[ur_end ?r] => destruct (ur_end r) eqn:Hr end; [exact Hw|];
    (split; [eapply (proj2 Hthrow); exact Hr|exact Hw]).
Qed.

Lemma o_menus_inv toks line w1 : toks <> [] -> Q line -> P w1 ->
  fx_inv P okx (finish E line
    match locate (w_cur w1) [] (w_root w1) with
    | None => EUB
    | Some ctx =>
        e_bind (scan E no_builtin toks ctx w1) (fun w2 =>
        match wrong_command E line w2 with
        | HOk w3 => EDone false w3
        | HExc x w3 => EExc x w3
        | HUB => EUB
        | HFuel => EFuel
        end)
    end).
Proof.
  intros Hne Hq H. destruct (locate (w_cur w1) [] (w_root w1)) as [ctx|] eqn:Hl; [|exact Logic.I].
  apply locate_in_menu in Hl. rewrite scan_attempts by exact Hne.
  assert (Ha : ex_inv P P okx (attempts E no_builtin (choices toks ctx) w1)).
  { apply (o_user_attempts_inv ctx toks); [|exact H|exact Hl]. intros p t Hin. apply in_choices in Hin; assumption. }
  destruct (attempts E no_builtin (choices toks ctx) w1) as [[] w2|x w2| |]; cbn [e_bind finish]; try exact Ha.
  - assert (Hw : hx_inv P okx (wrong_command E line w2)).
    { unfold wrong_command. destruct (e_has E KWrong); [apply o_hook_inv; [intros []|exact Ha]|apply Hwrong; assumption]. }
    destruct (wrong_command E line w2); cbn [finish]; try exact Hw. apply o_report_inv; [exact Hq|apply Hw|apply Hw].
  - apply o_report_inv; [exact Hq|apply Ha|apply Ha].
Qed.

Lemma o_global_attempts_inv toks w : toks <> [] ->
  (forall a n, toks = [lit "!"; a] -> convert E (PInt UInt) a <> COk (VInt n)) -> P w ->
  forall rec, ex_inv P P okx (attempts E (builtin E rec) (choices toks [global_menu]) w).
Proof.
  intros Hne Hn H rec.
  assert (Hl : forall l, (forall p t, In (p, t) l -> reading [global_menu] toks p t) -> forall w, P w ->
    ex_inv P P okx (attempts E (builtin E rec) l w)).
  { induction l as [|(p, t) l IH]; intros Hin w1 H1; cbn [attempts snd]; [exact H1|].
    assert (Ha : ex_inv P P okx (attempt E (builtin E rec) t w1)).
    { specialize (Hin p t (or_introl eq_refl)).
      apply global_readings in Hin as [(_ & _ & ->)|[(_ & _ & ->)|[(_ & _ & ->)|(a & Ht & _ & ->)]]]; cbn [attempt convert_all].
      - cbn. destruct (help_text w1) eqn:Hh; [|exact Logic.I]. cbn. apply Hhelp; assumption.
      - cbn. pose proof (o_exit_inv w1 H1) as He. destruct (session_exit E w1) as [w2|[s|s|] w2| |]; try exact He. apply He.
      - cbn. destruct (show (w_hist w1)) eqn:Hh; cbn; [apply Hshow; assumption|split; assumption].
      - destruct (convert E (PInt UInt) a) as [v| |] eqn:Hv; cbn [cbind cmap]; [|exact H1|exact Logic.I].
        destruct (convert_uint _ _ _ Hv) as (n & ->). exfalso. eapply Hn; eassumption. }
    destruct (attempt E (builtin E rec) t w1) as [[] w2|x w2| |]; cbn [e_bind]; try exact Ha.
    apply IH; [|exact Ha]. intros p' t' Hin'. apply Hin. right. exact Hin'. }
  apply Hl; [|exact H]. intros p t Hin. apply in_choices in Hin; assumption.
Qed.

Lemma out_feed_inv fuel : forall line w, Q line -> P w -> fx_inv P okx (feed E fuel line w).
Proof.
  induction fuel as [|fuel IH]; intros line w Hq H; [exact Logic.I|]. cbn [feed].
  destruct (split line) as [[|t toks]|] eqn:Hs.
  1,3: unfold feed_body; rewrite Hs; exact H || exact Logic.I.
  destruct (new_command (w_hist w) line) as [h|] eqn:Hh; [|unfold feed_body; rewrite Hs, Hh; exact Logic.I].
  rewrite (feed_body_spec E _ line w (t :: toks) (set_hist h w)) by (split; [exact Hs|split; [discriminate|eauto]]).
  unfold dispatch. rewrite scan_attempts by discriminate.
  assert (H1 : P (set_hist h w)) by (eapply Hnew; eassumption).
  destruct (recall_dec E line) as [(a & n & Hs' & Hc)|Hnr].
  - rewrite Hs' in Hs. injection Hs as <- <-.
    rewrite (global_recall E _ a n _ Hc). cbn [run_fn builtin set_hist w_hist].
    destruct (forget_latest h) as [h2|] eqn:Hf; [|exact Logic.I].
    change (set_hist h2 (set_hist h w)) with (set_hist h2 w).
    assert (H2 : P (set_hist h2 w)) by (exact (Hbang h2 (set_hist h w) H1 Hf)).
    destruct (at_id h2 n) as [l| |] eqn:Hl; [|apply o_report_inv; assumption|exact Logic.I].
    specialize (IH l (set_hist h2 w) (Hat (set_hist h2 w) n l H2 Hl) H2).
    destruct (feed E fuel l (set_hist h2 w)) as [w3|[s|s|] w3| |]; cbn [e_bind]; try exact IH.
    + apply o_menus_inv; [discriminate|exact Hq|apply IH].
    + apply o_report_inv; [exact Hq|apply IH|apply IH].
    + apply o_report_inv; [exact Hq|apply IH|apply IH].
  - pose proof (o_global_attempts_inv (t :: toks) (set_hist h w) ltac:(discriminate)) as Hg.
    specialize (Hg (fun a n Ht Hc => Hnr (ex_intro _ a (ex_intro _ n (conj (eq_trans Hs (f_equal Some Ht)) Hc)))) H1 (feed E fuel)).
    destruct (attempts _ _ _ _) as [[] w1|x w1| |]; cbn [e_bind finish]; try exact Hg.
    + apply o_menus_inv; [discriminate|exact Hq|exact Hg].
    + apply o_report_inv; [exact Hq|apply Hg|apply Hg].
Qed.
End Out.
