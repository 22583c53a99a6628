From Verif Require Import Base FromStringModel HistoryModel HistorySpec StorageModel TerminalModel TerminalSpec MenuModel SessionModel ResolveSpec SessionSpec
  TreeProofs SessionProofs InvariantProofs ProcessorModel ProcessorProofs TelnetModel ServerModel ServerSpec ServerProofs LocalSpec KeyUBSpec KeyUBProofs.
Open Scope nat_scope.
Open Scope list_scope.

Section Server.
Context (E : env) (net : nat -> list event -> bool) (size fuel : nat) (tty : bool) (color : list event -> bool * bool) (Hsz : size >= 1).
Notation TE := (telnet_env E net).

Definition server_ok (sv : server) : Prop := conns_ok size sv /\ tree_ok (sv_root sv) (sv_next sv).

Lemma proc_kept sv sid c : server_ok sv -> sv_conns sv sid = Some c -> kept size True (p_world (proc_of sv sid c)).
Proof. intros (H1 & Hm & Hu & Hf) Hc. split; [exact (proj1 (H1 sid c Hc))|]. split; [split; assumption|intros _; exact Hm]. Qed.
Lemma kept_tree w : kept size True w -> tree_ok (w_root w) (w_next w).
Proof. intros (_ & (Hu & Hf) & Hm). split; [apply Hm; exact Logic.I|]. split; assumption. Qed.

(** Opening a session. *)
Definition opening (w : world) : Prop := kept size True w /\ cmd_id (w_root w) = w_cur w.
Lemma opening_op w o : opening w -> opening (apply_op w o).
Proof.
  intros (Hk & H). split; [apply kept_op; exact Hk|]. destruct (apply_op_same w o) as (_ & _ & -> & _). rewrite <- H.
  destruct o; cbn; rewrite ?set_enabled_id, ?remove_id; try reflexivity. destruct (relabel (w_next w) c). cbn. destruct (w_root w); reflexivity.
Qed.
Lemma opening_enter E' w : opening w -> h_inv opening (session_enter E' w).
Proof.
  apply (enter_inv E' opening (fun _ => True)); [apply code_ops_all|intros e0 w0 H; exact H|]. intros w0 o _. apply opening_op.
Qed.
Lemma opening_live w : opening w -> live w.
Proof.
  intros ((_ & _ & Hm) & H). exists [w_root w]. split; [constructor; apply Hm; exact Logic.I|]. exists (w_root w), [].
  split; [reflexivity|exact H].
Qed.
Lemma enter_defined E' w : session_enter E' w <> HUB /\ session_enter E' w <> HFuel.
Proof.
  unfold session_enter. destruct (e_has E' KCliEnter); cbn [h_bind].
  - unfold run_hook. destruct (ur_end _); cbn [h_bind]; [|split; discriminate].
    destruct (e_has E' KSesEnter); [destruct (ur_end _)|]; split; discriminate.
  - destruct (e_has E' KSesEnter); [|split; discriminate]. unfold run_hook. destruct (ur_end _); split; discriminate.
Qed.
Lemma init_opening sv sid b : server_ok sv ->
  opening (out b (open_session sid size (sv_root sv) (sv_next sv) (sv_store sv) (sv_trace sv))).
Proof.
  intros (_ & Hm & Hu & Hf). split; [|reflexivity]. split; [exists [OLoad (st_commands (sv_store sv))]; reflexivity|].
  split; [split; assumption|intros _; exact Hm].
Qed.

Lemma accept_step ok sv : server_ok sv ->
  match run_accept E net size tty color ok sv with
  | VOk sv' | VExc _ sv' => tree_ok (sv_root sv') (sv_next sv')
  | _ => False
  end.
Proof.
  intros Hok. unfold run_accept. destruct ok; [|exact (proj2 Hok)].
  set (w0 := out _ _). assert (Ho : opening w0) by (apply init_opening; exact Hok).
  pose proof (opening_enter TE w0 Ho) as He. destruct (enter_defined TE w0) as (Hd1 & Hd2).
  destruct (session_enter TE w0) as [w1|x w1| |]; cbn [of_hres p_bind h_inv] in *; try congruence.
  - pose proof (prompt_undefined tty (fst (color (sv_trace sv))) (mkProc w1 term_init) (proj1 (proj1 (proj2 (proj1 He))))) as Hp.
    destruct (p_prompt tty (fst (color (sv_trace sv))) (mkProc w1 term_init)) as [p3|x p3| |] eqn:Hpr.
    + apply kept_tree. exact (kept_prompt size True _ _ _ _ Hpr (proj1 He)).
    + destruct (prompt_not_exc _ _ _ _ _ Hpr).
    + destruct (proj1 Hp eq_refl) as (_ & Hn). apply Hn, opening_live, He.
    + unfold p_prompt in Hpr. destruct (prompt _ _ _ _) as [(b & f)|]; discriminate.
  - apply kept_tree, He.
Qed.

Lemma step_undefined i sv : server_ok sv -> sv_step E net size fuel tty color i sv <> VFuel ->
  (sv_step E net size fuel tty color i sv = VUB <-> i = IRun /\ undefined_next E net fuel sv) /\
  match sv_step E net size fuel tty color i sv with VOk sv' | VExc _ sv' => server_ok sv' | _ => True end.
Proof.
  intros Hok Hf. pose proof (step_conns E net size fuel tty color i sv (proj1 Hok)) as Hcs.
  assert (Hno : forall r : vres, r <> VUB -> ~ (i = IRun /\ undefined_next E net fuel sv) -> (r = VUB <-> i = IRun /\ undefined_next E net fuel sv)).
  { intros r H1 H2. split; intros H; contradiction. }
  destruct i as [|ok|sid r]; cbn [sv_step] in *.
  - destruct (sv_queue sv) as [|t q] eqn:Hq.
    { split; [|exact Hok]. apply Hno; [discriminate|]. intros (_ & sid & k & q & c & e & H & _). congruence. }
    destruct t as [sid k|sid r|ok]; cbn [run_task set_conns sv_conns sv_trace] in *.
    + destruct (sv_conns sv sid) as [c|] eqn:Hc.
      * destruct (proj1 Hok sid c Hc) as (Hr & e & He). destruct (color (sv_trace sv)) as (c1 & c2).
        change (proc_of (set_conns (sv_conns sv) q sv) sid c)
          with (proc_of sv sid c) in *.
        pose proof (proc_kept sv sid c Hok Hc) as Hk.
        assert (Hf1 : press TE fuel tty (mkStroke k c1 c2) (proc_of sv sid c) <> PFuel) by (intros H; rewrite H in Hf; congruence).
        pose proof (press_undefined TE size Hsz fuel tty (mkStroke k c1 c2) (proc_of sv sid c) e He (proj1 Hk) (proj1 (proj2 Hk)) Hf1) as HU.
        cbn [ks_key] in HU.
        pose proof (kept_press TE size True fuel tty (mkStroke k c1 c2) (proc_of sv sid c) Hk) as HK.
        assert (HX : undefined_next E net fuel sv <-> undefined_key TE fuel k (ed_text e) (p_world (proc_of sv sid c))).
        { unfold undefined_next. split.
          - intros (sid' & k' & q' & c' & e' & H1 & H2 & H3 & H4). rewrite Hq in H1. injection H1 as <- <- _. rewrite Hc in H2. injection H2 as <-.
            destruct H3 as (H3 & _), He as (He & _). rewrite <- He, H3. exact H4.
          - intros H. exists sid, k, q, c, e. split; [exact Hq|]. split; [exact Hc|]. split; assumption. }
        split.
        -- rewrite HX, <- HU. destruct (press TE fuel tty (mkStroke k c1 c2) (proc_of sv sid c)); split; intros H; try discriminate H; try (destruct H as (_ & H); discriminate H); try reflexivity; split; reflexivity.
        -- destruct (press TE fuel tty (mkStroke k c1 c2) (proc_of sv sid c)); try exact Logic.I; (split; [exact Hcs|]; apply kept_tree in HK; exact HK).
      * split; [|exact Logic.I]. apply Hno; [discriminate|]. intros (_ & sid' & k' & q' & c' & e' & H1 & H2 & _).
        rewrite Hq in H1. injection H1 as <- <- _. congruence.
    + assert (Hn : ~ (IRun = IRun /\ undefined_next E net fuel sv)) by (intros (_ & sid' & k' & q' & c' & e' & H1 & _); congruence).
      destruct (sv_conns sv sid) as [c|] eqn:Hc; (split; [apply Hno; [discriminate|exact Hn]|]); [|exact Logic.I].
      split; [exact Hcs|]. unfold run_read. destruct (closed _ _ _ _); [exact (proj2 Hok)|].
      destruct r as [chunk| |]; try exact (proj2 Hok). destruct (receive chunk (c_dev c)) as (d & ks & sent). exact (proj2 Hok).
    + assert (Hn : ~ (IRun = IRun /\ undefined_next E net fuel sv)) by (intros (_ & sid' & k' & q' & c' & e' & H1 & _); congruence).
      match goal with |- context [run_accept E net size tty color ok ?s] => pose proof (accept_step ok s Hok) as Ha; destruct (run_accept E net size tty color ok s) as [sv'|x sv'| | |] end;
        try (destruct Ha; fail); (split; [apply Hno; [discriminate|exact Hn]|]); (split; [exact Hcs|exact Ha]).
  - assert (Hn : ~ (IConnect ok = IRun /\ undefined_next E net fuel sv)) by (intros (H & _); discriminate).
    destruct (sv_accepting sv); (split; [apply Hno; [discriminate|exact Hn]|]); exact Hok.
  - assert (Hn : ~ (IRead sid r = IRun /\ undefined_next E net fuel sv)) by (intros (H & _); discriminate).
    destruct (sv_conns sv sid) as [c|] eqn:Hc; [|split; [apply Hno; [discriminate|exact Hn]|exact Hok]].
    destruct (c_reading c); (split; [apply Hno; [discriminate|exact Hn]|]); [|exact Hok]. split; [exact Hcs|exact (proj2 Hok)].
Qed.

Lemma run_undefined is : forall sv, server_ok sv -> sv_run E net size fuel tty color is sv <> VFuel ->
  (sv_run E net size fuel tty color is sv = VUB <->
   exists is1 is2 sv', is = is1 ++ IRun :: is2 /\ sv_run E net size fuel tty color is1 sv = VOk sv' /\ undefined_next E net fuel sv').
Proof.
  induction is as [|i is IH]; intros sv Hok Hf; cbn [sv_run] in *.
  - split; [discriminate|]. intros (is1 & is2 & sv' & H & _). destruct is1; discriminate.
  - assert (Hf1 : sv_step E net size fuel tty color i sv <> VFuel) by (intros H; rewrite H in Hf; congruence).
    destruct (step_undefined i sv Hok Hf1) as (HU & Hn).
    assert (Hpart : (exists is1 is2 sv', i :: is = is1 ++ IRun :: is2 /\ sv_run E net size fuel tty color is1 sv = VOk sv' /\ undefined_next E net fuel sv') <->
      (i = IRun /\ undefined_next E net fuel sv) \/
      (exists sv1, (sv_step E net size fuel tty color i sv = VOk sv1 \/ exists x, sv_step E net size fuel tty color i sv = VExc x sv1) /\
        exists is1 is2 sv', is = is1 ++ IRun :: is2 /\ sv_run E net size fuel tty color is1 sv1 = VOk sv' /\ undefined_next E net fuel sv')).
    { split.
      - intros (is1 & is2 & sv' & H1 & H2 & H3). destruct is1 as [|i1 is1].
        + injection H1 as -> _. injection H2 as <-. left. split; [reflexivity|exact H3].
        + injection H1 as <- H1. cbn [sv_run] in H2. right.
          destruct (sv_step E net size fuel tty color i sv) as [sv1|x sv1| | |]; try discriminate; exists sv1;
            (split; [eauto|]); exists is1, is2, sv'; (split; [exact H1|]); (split; [exact H2|exact H3]).
      - intros [(-> & H)|(sv1 & Hs & is1 & is2 & sv' & H1 & H2 & H3)].
        + exists [], is, sv. split; [reflexivity|]. split; [reflexivity|exact H].
        + exists (i :: is1), is2, sv'. split; [rewrite H1; reflexivity|]. split; [|exact H3]. cbn [sv_run].
          destruct Hs as [->|(x & ->)]; exact H2. }
    rewrite Hpart. destruct (sv_step E net size fuel tty color i sv) as [sv1|x sv1| | |] eqn:Hs.
    + rewrite (IH sv1 Hn Hf). split.
      * intros H. right. exists sv1. split; [left; reflexivity|exact H].
      * intros [H|(sv2 & [H|(x & H)] & H2)]; [apply HU in H; discriminate| |discriminate]. injection H as <-. exact H2.
    + rewrite (IH sv1 Hn Hf). split.
      * intros H. right. exists sv1. split; [right; exists x; reflexivity|exact H].
      * intros [H|(sv2 & [H|(x' & H)] & H2)]; [apply HU in H; discriminate|discriminate|]. injection H as <- <-. exact H2.
    + split; [discriminate|]. intros [H|(sv2 & [H|(x' & H)] & H2)]; [apply HU in H; discriminate|discriminate|discriminate].
    + split; [|reflexivity]. intros _. left. apply HU. reflexivity.
    + congruence.
Qed.
Lemma init_ok root nxt st : tree_ok root nxt -> server_ok (server_init root nxt st).
Proof. intros H. split; [apply init_conns|exact H]. Qed.
End Server.

(** *** A local session *)
Section Local.
Context (E : env) (size fuel : nat) (tty : bool) (color : list event -> bool * bool) (Hsz : size >= 1).
Lemma open_kept c w : opening size w ->
  match open_local E tty c w with POk p => kept size True (p_world p) /\ (exists e, holds (p_term p) e) | PExc _ _ => True | _ => False end.
Proof.
  intros Ho. unfold open_local. pose proof (opening_enter size E w Ho) as He. destruct (enter_defined E w) as (Hd1 & Hd2).
  destruct (session_enter E w) as [w1|x w1| |]; cbn [of_hres p_bind h_inv] in *; try congruence; [|exact Logic.I].
  pose proof (prompt_undefined tty c (mkProc w1 term_init) (proj1 (proj1 (proj2 (proj1 He))))) as Hp.
  pose proof (prompt_hist tty c (mkProc w1 term_init)) as Hh.
  destruct (p_prompt tty c (mkProc w1 term_init)) as [p3|x p3| |] eqn:Hpr.
  - split; [exact (kept_prompt size True _ _ _ _ Hpr (proj1 He))|]. exists (mkEd [] []). apply Hh. split; reflexivity.
  - exact Logic.I.
  - destruct (proj1 Hp eq_refl) as (_ & Hn). apply Hn, (opening_live size), He.
  - unfold p_prompt in Hpr. destruct (prompt _ _ _ _) as [(b & f)|]; discriminate.
Qed.
Lemma pressed_kept ks : forall p0 p, kept size True (p_world p0) -> (exists e, holds (p_term p0) e) -> pressed_alone E fuel tty color ks p0 = Some p ->
  kept size True (p_world p) /\ (exists e, holds (p_term p) e).
Proof.
  induction ks as [|k ks IH]; intros p0 p Hk Hh H; cbn [pressed_alone] in H.
  - injection H as <-. split; assumption.
  - set (st := let (c1, c2) := color (w_trace (p_world p0)) in mkStroke k c1 c2) in *.
    pose proof (kept_press E size True fuel tty st p0 Hk) as Hk'. pose proof (press_holds E fuel tty st p0 Hh) as Hh'.
    destruct (press E fuel tty st p0); try discriminate; exact (IH _ _ Hk' Hh' H).
Qed.
End Local.
