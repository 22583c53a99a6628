(** * Proofs about asynchronous sessions *)

From Verif Require Import Base SplitModel FromStringModel HistoryModel StorageModel TerminalModel MenuModel SessionModel FileModel FileSpec FileProofs AsyncModel AsyncSpec.
Open Scope nat_scope.
Open Scope list_scope.

Notation text ls := (concat (map (fun l : str => l ++ nl) ls)).
Lemma delimiter_none s : ~ In "010"%char s -> delimiter s = None.
Proof.
  induction s as [|c s IH]; intros H; [reflexivity|]. cbn. destruct (Ascii.eqb_spec c "010") as [->|]; [exfalso; apply H; left; reflexivity|].
  rewrite IH; [reflexivity|]. intros Hi. apply H. right. exact Hi.
Qed.
Lemma delimiter_line l s : ~ In "010"%char l -> delimiter (l ++ nl ++ s) = Some (S (length l)).
Proof.
  induction l as [|c l IH]; intros H; [reflexivity|]. cbn [app delimiter length]. destruct (Ascii.eqb_spec c "010") as [->|]; [exfalso; apply H; left; reflexivity|].
  rewrite IH; [reflexivity|]. intros Hi. apply H. right. exact Hi.
Qed.
Lemma look_lines buf ls rest : lines_of buf ls rest -> look buf = match ls with [] => PdWait | l :: _ => PdDone (AFound (S (length l))) end.
Proof.
  intros (-> & Hl & Hr). unfold look. destruct ls as [|l ls]; cbn [map concat app].
  - rewrite delimiter_none by exact Hr. reflexivity.
  - inversion Hl; subst. rewrite <- !app_assoc, delimiter_line by assumption. reflexivity.
Qed.
Lemma text_app a b : text (a ++ b) = text a ++ text b.
Proof. rewrite map_app, concat_app. reflexivity. Qed.

Section Async.
Context (E : env) (fuel : nat) (tty : bool) (color : list event -> bool) (w0 : world).
Notation dialog := (dialog E fuel tty color).
Notation step := (as_step E fuel tty color).
Notation run := (as_run E fuel tty color).
Notation arrived := (arrived E fuel tty color).

Lemma dialog_more l ls : forall force w w1 f1, dialog ls force w = DOk w1 f1 ->
  dialog (ls ++ [l]) force w = match feed E fuel l w1 with FOk w2 => dialog [] f1 w2 | FExc x w2 => DExc x w2 | FUB => DUB | FFuel => DFuel end.
Proof.
  induction ls as [|l1 ls IH]; intros force w w1 f1 H; cbn [AsyncSpec.dialog app] in *; destruct (prompt _ _ _ _) as [(b, f)|]; try discriminate.
  - injection H as <- <-. reflexivity.
  - destruct (feed E fuel l1 (out b w)); try discriminate. apply IH, H.
Qed.

Definition ainv (ds : str) (s : asess) : Prop :=
  exists fed waiting rest, lines_of ds (fed ++ waiting) rest /\
  match as_pend s with
  | PdNone => said (dialog fed false w0) = Some (as_world s) /\ (waiting = [] \/ exists x, dialog fed false w0 = DExc x (as_world s))
  | PdDone (AFound n) => exists l ls, waiting = l :: ls /\ as_buf s = text waiting ++ rest /\ n = S (length l) /\ dialog fed false w0 = DOk (as_world s) (as_force s)
  | _ => waiting = [] /\ as_buf s = rest /\ dialog fed false w0 = DOk (as_world s) (as_force s)
  end.

Lemma ainv_waiting ds s fed waiting rest : lines_of ds (fed ++ waiting) rest -> as_buf s = text waiting ++ rest -> as_pend s = look (as_buf s) ->
  dialog fed false w0 = DOk (as_world s) (as_force s) -> ainv ds s.
Proof.
  intros (Hd & Hl & Hr) Hb Hp Hf. exists fed, waiting, rest. split; [split; [exact Hd|split; assumption]|]. apply Forall_app in Hl as (_ & Hw).
  assert (Hlo : lines_of (as_buf s) waiting rest) by (split; [exact Hb|split; assumption]). rewrite Hp, (look_lines _ _ _ Hlo).
  destruct waiting as [|l ls]; [split; [reflexivity|split; [exact Hb|exact Hf]]|]. exists l, ls. auto.
Qed.
Lemma ainv_step i ds s : ainv ds s ->
  match step i s with AOk s' | AExc _ s' => ainv (ds ++ match i, as_pend s with IBytes chunk, PdWait => chunk | _, _ => [] end) s' | _ => True end.
Proof.
  intros (fed & waiting & rest & Hd & H). pose proof Hd as (Hds & Hl & Hr). apply Forall_app in Hl as (Hlf & Hlw). destruct i as [chunk| | |]; cbn [as_step].
  - destruct (as_pend s) as [| |r] eqn:Hp.
    2:{ destruct H as (-> & Hb & Hf). rewrite app_nil_r in Hds. destruct (lines_exist (rest ++ chunk)) as (ls & rest' & H1 & H2 & H3).
        apply (ainv_waiting _ _ fed ls rest').
        - split; [|split; [apply Forall_app; split; assumption|exact H3]]. rewrite Hds, <- app_assoc, H1, app_assoc, text_app. reflexivity.
        - cbn. rewrite Hb. exact H1.
        - reflexivity.
        - exact Hf. }
    all: rewrite app_nil_r; exists fed, waiting, rest; rewrite Hp; split; assumption.
  - rewrite app_nil_r. destruct (as_pend s) as [| |r] eqn:Hp; exists fed, waiting, rest; (split; [exact Hd|]); try (rewrite Hp; exact H). exact H.
  - rewrite app_nil_r. destruct (as_pend s) as [| |r] eqn:Hp; try (exists fed, waiting, rest; split; [exact Hd|]; rewrite Hp; exact H).
    destruct (as_alive s); [|exact Logic.I]. destruct r as [n| |]; cbn [new_line].
    + destruct H as (l & ls & -> & Hb & -> & Hf). cbn [set_pend as_buf]. rewrite Hb.
      replace (firstn (S (length l) - 1) (text (l :: ls) ++ rest)) with l.
      2:{ cbn [map concat Nat.sub]. rewrite Nat.sub_0_r, <- !app_assoc, firstn_app, Nat.sub_diag, firstn_all. cbn. rewrite app_nil_r. reflexivity. }
      replace (skipn (S (length l)) (text (l :: ls) ++ rest)) with (text ls ++ rest).
      2:{ cbn [map concat]. rewrite <- !app_assoc. replace (S (length l)) with (length (l ++ nl)) by (rewrite app_length; cbn; lia).
          rewrite (app_assoc l nl), skipn_app, skipn_all, Nat.sub_diag. reflexivity. }
      unfold as_feed. cbn [set_buf set_pend as_world as_force as_buf as_pend as_open as_alive].
      pose proof (dialog_more l fed false w0 _ _ Hf) as Hm. destruct (feed E fuel l (as_world s)) as [w|x w| |]; cbn [a_bind]; try exact Logic.I.
      * unfold as_read. cbn [as_world as_force as_buf as_open as_alive]. cbn [AsyncSpec.dialog] in Hm. destruct (prompt _ _ _ _) as [(b, f)|]; [|exact Logic.I].
        apply (ainv_waiting _ _ (fed ++ [l]) ls rest); [|reflexivity|reflexivity|exact Hm]. rewrite <- app_assoc. exact Hd.
      * exists (fed ++ [l]), ls, rest. rewrite <- app_assoc. split; [exact Hd|]. cbn [as_pend as_world]. rewrite Hm. split; [reflexivity|]. right. eauto.
    + destruct H as (-> & Hb & Hf). exists fed, [], rest. split; [exact Hd|]. cbn. rewrite Hf. auto.
    + destruct H as (-> & Hb & Hf). exists fed, [], rest. split; [exact Hd|]. cbn. rewrite Hf. auto.
  - rewrite app_nil_r. destruct (as_alive s); [|exists fed, waiting, rest; split; assumption]. exists fed, waiting, rest. split; [exact Hd|].
    cbn. destruct (as_pend s); assumption.
Qed.
Lemma ainv_run is : forall ds s, ainv ds s -> match run is s with AOk s' => ainv (ds ++ arrived is s) s' | _ => True end.
Proof.
  induction is as [|i is IH]; intros ds s H; cbn [as_run AsyncSpec.arrived]; [rewrite app_nil_r; exact H|].
  pose proof (ainv_step i ds s H) as Hs. rewrite app_assoc. destruct (step i s) as [s'|x s'| | |]; try exact Logic.I; apply IH, Hs.
Qed.
Lemma ainv_start sid root nxt st tr s : w0 = open_session sid 1 root nxt st tr -> as_start tty color sid root nxt st tr = AOk s -> ainv [] s.
Proof.
  intros Hw Hs. unfold as_start, as_read in Hs. cbn [as_world as_force as_buf as_open as_alive] in Hs. rewrite <- Hw in Hs.
  destruct (prompt _ _ _ _) as [(b, f)|] eqn:Hp; [|discriminate]. injection Hs as <-. exists [], [], []. split; [split; [reflexivity|split; [constructor|intros []]]|].
  cbn. rewrite Hp. auto.
Qed.
Theorem async_lines sid root nxt st tr s0 is s : w0 = open_session sid 1 root nxt st tr -> as_start tty color sid root nxt st tr = AOk s0 -> run is s0 = AOk s ->
  exists fed waiting rest, lines_of (arrived is s0) (fed ++ waiting) rest /\ said (dialog fed false w0) = Some (as_world s) /\
    (as_pend s = PdWait -> waiting = []) /\ (as_pend s = PdNone -> waiting = [] \/ exists x, dialog fed false w0 = DExc x (as_world s)).
Proof.
  intros Hw Hs Hr. pose proof (ainv_run is [] s0 (ainv_start _ _ _ _ _ _ Hw Hs)) as H. rewrite Hr in H. destruct H as (fed & waiting & rest & H1 & H2).
  exists fed, waiting, rest. split; [exact H1|]. destruct (as_pend s) as [| |[n| |]]; try (destruct H2 as (-> & _ & ->); cbn; repeat split; auto; discriminate).
  - split; [apply H2|]. split; [discriminate|]. intros _. apply H2.
  - destruct H2 as (l & ls & -> & _ & _ & ->). cbn. repeat split; discriminate.
Qed.
End Async.

(** The pieces in which the bytes arrive do not matter. *)
Lemma lines_unique text ls rest : lines_of text ls rest -> forall ls' rest', lines_of text ls' rest' -> ls = ls'.
Proof.
  intros (-> & Hl & Hr). revert rest Hr. induction Hl as [|l ls Hn Hl IH]; intros rest Hr ls' rest' (He & Hl' & Hr').
  - destruct ls' as [|l' ls']; [reflexivity|]. exfalso. cbn in He. apply Hr. rewrite He. rewrite <- !app_assoc. apply in_or_app. right. left. reflexivity.
  - destruct ls' as [|l' ls']; [exfalso; cbn in He; apply Hr'; rewrite <- He, <- !app_assoc; apply in_or_app; right; left; reflexivity|].
    inversion Hl' as [|? ? Hn' Hl'2]; subst. cbn [map concat] in He. rewrite <- !app_assoc in He.
    assert (Hd : S (length l) = S (length l')). { pose proof (delimiter_line l (text ls ++ rest) Hn) as D. rewrite He, delimiter_line in D by exact Hn'. injection D as ->. reflexivity. }
    injection Hd as Hd. apply app_eq_app in He. assert (Hll : l = l' /\ text ls ++ rest = text ls' ++ rest').
    { destruct He as (t & [(H1 & H2)|(H1 & H2)]); (assert (t = []) as -> by (destruct t; [reflexivity|exfalso; apply (f_equal (@length _)) in H1; rewrite app_length in H1; cbn in H1; lia]));
        rewrite app_nil_r in H1; cbn [app] in H2; injection H2 as H2; auto. }
    destruct Hll as (-> & H2). f_equal. eapply IH; [exact Hr|]. split; [exact H2|split; assumption].
Qed.
Theorem async_chunks E fuel tty color sid root nxt st tr s0 is is' s s' : as_start tty color sid root nxt st tr = AOk s0 ->
  as_run E fuel tty color is s0 = AOk s -> as_run E fuel tty color is' s0 = AOk s' -> as_pend s = PdWait -> as_pend s' = PdWait ->
  arrived E fuel tty color is s0 = arrived E fuel tty color is' s0 -> as_world s = as_world s'.
Proof.
  intros H0 H1 H2 P1 P2 Ha. destruct (async_lines E fuel tty color _ sid root nxt st tr s0 is s eq_refl H0 H1) as (fed & wt & rest & L1 & S1 & W1 & _).
  destruct (async_lines E fuel tty color _ sid root nxt st tr s0 is' s' eq_refl H0 H2) as (fed' & wt' & rest' & L2 & S2 & W2 & _).
  rewrite (W1 P1), app_nil_r in L1. rewrite (W2 P2), app_nil_r in L2. rewrite Ha in L1. rewrite (lines_unique _ _ _ L1 _ _ L2) in S1. congruence.
Qed.

(** After the end of the input nothing more happens. *)
Lemma idle_run E fuel tty color is : forall s, as_pend s = PdNone ->
  exists s', as_run E fuel tty color is s = AOk s' /\ as_world s' = as_world s /\ as_pend s' = PdNone /\ as_buf s' = as_buf s /\ (as_open s = false -> as_open s' = false).
Proof.
  induction is as [|i is IH]; intros s H; [exists s; auto|]. cbn [as_run].
  assert (Hs : exists s1, as_step E fuel tty color i s = AOk s1 /\ as_world s1 = as_world s /\ as_pend s1 = PdNone /\ as_buf s1 = as_buf s /\ (as_open s = false -> as_open s1 = false)).
  { destruct i; cbn [as_step]; rewrite ?H; try (exists s; auto; fail). destruct (as_alive s); [|exists s; auto]. eexists. split; [reflexivity|]. auto. }
  destruct Hs as (s1 & -> & H1 & H2 & H3 & H3'). destruct (IH s1 H2) as (s2 & H4 & H5 & H6 & H7 & H8). exists s2. rewrite H5, H7. auto 7.
Qed.
Theorem async_end E fuel tty color s is : as_pend s = PdWait -> as_alive s = true ->
  exists s', as_run E fuel tty color (IEnd :: IHandle :: is) s = AOk s' /\ as_world s' = as_world s /\ as_pend s' = PdNone /\ as_buf s' = as_buf s /\ as_open s' = false.
Proof. intros H Ha. cbn [as_run as_step]. rewrite H. cbn [set_pend as_pend as_alive]. rewrite Ha. cbn [new_line].
  match goal with |- context[as_run _ _ _ _ is ?t] => destruct (idle_run E fuel tty color is t eq_refl) as (s' & H1 & H2 & H3 & H4 & H5) end.
  exists s'. repeat (split; [assumption|]). apply H5. reflexivity.
Qed.
(** The session exists until it is destroyed, with its input open while it reads. *)
Definition as_ok (s : asess) : Prop := (as_pend s <> PdNone -> as_alive s = true -> as_open s = true) /\ (as_alive s = false -> as_open s = false).
Lemma step_ok E fuel tty color i s : as_ok s ->
  match as_step E fuel tty color i s with AOk s' | AExc _ s' => as_ok s' /\ (as_alive s' = true <-> as_alive s = true /\ i <> IDestroy) | _ => True end.
Proof.
  intros (H1 & H2). unfold as_ok. destruct i; cbn [as_step].
  - destruct (as_pend s) eqn:Hp; cbn; rewrite ?Hp; (split; [split|split]); try assumption; try (intros (H & _); exact H); try (intros H; split; [exact H|discriminate]); intros _; apply H1; discriminate.
  - destruct (as_pend s) eqn:Hp; cbn; rewrite ?Hp; (split; [split|split]); try assumption; try (intros (H & _); exact H); try (intros H; split; [exact H|discriminate]); intros _; apply H1; discriminate.
  - destruct (as_pend s) as [| |r] eqn:Hp; try (split; [split; [rewrite Hp|]; assumption|split; [intros; split; congruence|intros []; assumption]]; fail).
    destruct (as_alive s) eqn:Ha; [|exact Logic.I]. assert (Ho : as_open s = true) by (apply H1; [discriminate|reflexivity]). destruct r as [n| |]; cbn [new_line].
    2,3: cbn; split; [split; congruence|split; [intros; split; congruence|intros []; assumption]].
    unfold as_feed. destruct (feed _ _ _ _); cbn [a_bind]; try exact Logic.I.
    + unfold as_read. destruct (prompt _ _ _ _) as [(b, f)|]; [|exact Logic.I]. cbn. split; [split; congruence|split; [intros; split; congruence|intros []; assumption]].
    + cbn. split; [split; congruence|split; [intros; split; congruence|intros []; assumption]].
  - destruct (as_alive s) eqn:Ha; cbn; (split; [split|split]); try congruence; try assumption; try (intros []; congruence); try (rewrite Ha; assumption).
Qed.
Theorem async_alive E fuel tty color sid root nxt st tr s0 is s : as_start tty color sid root nxt st tr = AOk s0 -> as_run E fuel tty color is s0 = AOk s ->
  (as_alive s = true <-> ~ In IDestroy is) /\ (as_pend s <> PdNone -> as_alive s = true -> as_open s = true) /\ (as_alive s = false -> as_open s = false).
Proof.
  intros Hs Hr. assert (H0 : as_ok s0 /\ as_alive s0 = true).
  { unfold as_start, as_read in Hs. destruct (prompt _ _ _ _) as [(b, f)|]; [|discriminate]. injection Hs as <-. unfold as_ok. cbn. split; [split; [reflexivity|intros H; discriminate H]|reflexivity]. }
  destruct H0 as (H0 & Ha). clear Hs.
  assert (Hx : as_ok s /\ (as_alive s = true <-> as_alive s0 = true /\ ~ In IDestroy is)).
  { clear Ha. revert s0 H0 Hr. induction is as [|i is IH]; intros s0 H0 Hr; cbn [as_run] in Hr.
    - injection Hr as <-. split; [exact H0|]. split; [intros H; split; [exact H|intros []]|intros (H & _); exact H].
    - pose proof (step_ok E fuel tty color i s0 H0) as Hst. destruct (as_step E fuel tty color i s0) as [s1|x s1| | |]; try discriminate;
        destruct Hst as (H1 & H2); destruct (IH s1 H1 Hr) as (H3 & H4); (split; [exact H3|]); rewrite H4, H2; cbn [In]; (split; [intros ((A & B) & C); split; [exact A|intros [D|D]; [congruence|exact (C D)]]|intros (A & B); split; [split; [exact A|intros ->; apply B; auto]|intros D; apply B; auto]]). }
  destruct Hx as ((H1 & H2) & H3). rewrite H3. split; [split; [intros (_ & H); exact H|intros H; split; assumption]|]. split; [rewrite <- H3; exact H1|exact H2].
Qed.
(** The session is used after its destruction only if it was destroyed with a read
    pending. *)
Theorem async_gone E fuel tty color is : forall s, as_alive s = true -> as_run E fuel tty color is s = AGone ->
  exists is1 is2 s1, is = is1 ++ IDestroy :: is2 /\ as_run E fuel tty color is1 s = AOk s1 /\ as_pend s1 <> PdNone.
Proof.
  induction is as [|i is IH]; intros s Ha H; [discriminate|]. cbn [as_run] in H.
  assert (Hi : i = IDestroy \/ i <> IDestroy) by (destruct i; auto; right; discriminate). destruct Hi as [->|Hi].
  - exists [], is, s. split; [reflexivity|]. split; [reflexivity|]. intros Hn. cbn [as_step] in H. rewrite Ha, Hn in H.
    destruct (idle_run E fuel tty color is (mkAs (as_world s) (as_force s) (as_buf s) PdNone false false) eq_refl) as (s' & Hs & _). congruence.
  - assert (Hal : match as_step E fuel tty color i s with AOk s' | AExc _ s' => as_alive s' = true | AGone => False | _ => True end).
    { destruct i; try congruence; cbn [as_step]; [destruct (as_pend s); exact Ha|destruct (as_pend s); exact Ha|].
      destruct (as_pend s) as [| |r]; try exact Ha. rewrite Ha. destruct r as [n| |]; cbn [new_line]; try exact Ha.
      unfold as_feed. destruct (feed _ _ _ _); cbn [a_bind]; try exact Logic.I; [|exact Ha]. unfold as_read. destruct (prompt _ _ _ _) as [(b, f)|]; [exact Ha|exact Logic.I]. }
    destruct (as_step E fuel tty color i s) as [s'|x s'| | |] eqn:Hs; try discriminate; try contradiction;
      (destruct (IH s' Hal H) as (is1 & is2 & s1 & -> & H1 & H2); exists (i :: is1), is2, s1; split; [reflexivity|]; split; [cbn [as_run]; rewrite Hs; exact H1|exact H2]).
Qed.
